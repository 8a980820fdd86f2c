(** C43-C46: the Newton solver. *)
From Coq Require Import Reals Lra.
From Verif Require Import Py PyStr NdArray M_Euler M_Newton S_Euler S_Newton L_Euler3 L_Newton.
Local Open Scope list_scope.

(** The system used in the examples: 2 x - p = 0 with p = 6, starting at x = 0. *)
Definition nw_F (args : list (arr R)) : res (list R) :=
  match args with [mkArr _ [x]; mkArr _ [p]] => Ok [2 * x + 0 + - p]%R | _ => Err TypeError end.
Definition nw_J (args : list (arr R)) : res (list (list R)) := Ok [[2%R]].
Definition nw_solve (m : list (list R)) (b : list R) : res (list R) := Ok (map (fun v => v / 2)%R b).
Definition nw_x0 : list (arr R) := [mkArr [1] [0%R]].
Definition nw_params : option (list (arr R)) := Some [mkArr [] [6%R]].

(** C46 *)
Theorem c46_affine :
  forall (F : list (arr R) -> res (list R)) (J : list (arr R) -> res (list (list R)))
         (solve : list (list R) -> list R -> res (list R)) (x0 : list (arr R)) (parameters : option (list (arr R)))
         (M : list (list R)) (k : list R) (tol : R) (m : nat),
  parameters <> Some [] -> x0 <> [] -> Forall (fun a => arr_wf a) x0 ->
  let n := length (flat x0) in
  is_matrix n n M -> length k = n -> (0 < tol)%R ->
  (forall x, map (@ashape R) x = map (@ashape R) x0 -> length (flat x) = n ->
     F (at_point parameters x) = Ok (vadd (mv M (flat x)) k) /\ J (at_point parameters x) = Ok M) ->
  (forall b, length b = n -> exists s, solve M b = Ok s /\ length s = n /\ mv M s = b) ->
  exists s1 s2 rest, newton_root F J solve x0 parameters 1 tol (S (S m)) = Ok (s1 :: s2 :: rest) /\
    F (at_point parameters (nx s1)) = Ok (zeros n) /\ nconv s2 = true /\ nx s2 = nx s1 /\ ncount s2 <= 1.
Proof. exact @c46_affine__p. Qed.
Print Assumptions c46_affine.
Example c46_affine_ex : exists s1 s2 rest,
  newton_root nw_F nw_J nw_solve nw_x0 nw_params 1 (1 / 100) 3 = Ok (s1 :: s2 :: rest) /\
  nw_F (nx s1 ++ [mkArr [] [6%R]]) = Ok [0%R] /\ nconv s2 = true.
Proof.
  destruct (@c46_affine nw_F nw_J nw_solve nw_x0 nw_params [[2%R]] [(-6)%R] (1 / 100)%R 1)
    as (s1 & s2 & rest & E & R & C & _).
  - discriminate.
  - discriminate.
  - repeat constructor.
  - split; [reflexivity|]. intros r [<-|[]]. reflexivity.
  - reflexivity.
  - lra.
  - intros [|[s [|v [|]]] [|]] Hs Hl; try discriminate. split; [|reflexivity].
    unfold vadd, mv, vmap2, dot, vmap2. simpl. reflexivity.
  - intros [|b [|]] Hb; try discriminate. eexists. split; [reflexivity|]. split; [reflexivity|].
    unfold mv, dot, vmap2. simpl. f_equal. field.
  - exists s1, s2, rest. split; [exact E|]. split; [exact R|exact C].
Qed.

(** C43 *)
Theorem c43_success_is_root :
  forall (F : list (arr R) -> res (list R)) (J : list (arr R) -> res (list (list R)))
         (solve : list (list R) -> list R -> res (list R)) (x0 : list (arr R)) (parameters : option (list (arr R)))
         (step tol : R) (max_iter : nat) (hist : list nstate) (t : nat) (st : nstate),
  parameters <> Some [] -> x0 <> [] -> Forall (fun a => arr_wf a) x0 ->
  newton_root F J solve x0 parameters step tol max_iter = Ok hist ->
  nth_error hist t = Some st -> nconv st = true ->
  exists v, residual_norm F parameters (nx st) v /\ (v < tol)%R.
Proof. exact @c43_success_is_root__p. Qed.
Print Assumptions c43_success_is_root.
Example c43_success_is_root_ex : exists hist st v,
  newton_root nw_F nw_J nw_solve nw_x0 nw_params 1 (1 / 100) 3 = Ok hist /\ nth_error hist 1 = Some st /\
  residual_norm nw_F nw_params (nx st) v /\ (v < 1 / 100)%R.
Proof.
  destruct c46_affine_ex as (s1 & s2 & rest & E & _ & C).
  destruct (@c43_success_is_root nw_F nw_J nw_solve nw_x0 nw_params 1%R (1 / 100)%R 3 (s1 :: s2 :: rest) 1 s2) as (v & Hv & Hl).
  - discriminate.
  - discriminate.
  - repeat constructor.
  - exact E.
  - reflexivity.
  - exact C.
  - eexists. exists s2, v. split; [exact E|]. auto.
Qed.
Theorem c43_empty_parameters_refuted :
  exists (F : list (arr R) -> res (list R)) (J : list (arr R) -> res (list (list R)))
         (solve : list (list R) -> list R -> res (list R)) (x0 : list (arr R)),
  Forall (fun a => arr_wf a) x0 /\
  forall (tol step : R) (max_iter : nat),
    (exists hist, newton_root F J solve x0 None step tol (S max_iter) = Ok hist) /\
    newton_root F J solve x0 (Some []) step tol (S max_iter) = Err TypeError.
Proof. exact @c43_empty_parameters_refuted__p. Qed.
Print Assumptions c43_empty_parameters_refuted.
Theorem c43_empty_parameters_state :
  forall (F : list (arr R) -> res (list R)) (J : list (arr R) -> res (list (list R)))
         (solve : list (list R) -> list R -> res (list R)) (x0 : list (arr R)) (step tol : R) (max_iter : nat) (e : exn),
  x0 <> [] -> Forall (fun a => arr_wf a) x0 ->
  let state := x0 ++ [mkArr [] [0%R]; mkArr [] [step]; mkArr [] [0%R]] in
  F (x0 ++ state) = Err e -> newton_root F J solve x0 (Some []) step tol (S max_iter) = Err e.
Proof. exact @c43_empty_parameters_state__p. Qed.
Print Assumptions c43_empty_parameters_state.
Example c43_empty_parameters_state_ex : newton_root (fun args => if Nat.eqb (length args) 5 then Err TypeError else Ok [0%R]) nw_J nw_solve nw_x0 (Some []) 1 (1 / 100) 3 = Err TypeError.
Proof. apply c43_empty_parameters_state; [discriminate|repeat constructor|reflexivity]. Qed.

(** C44 *)
Theorem c44_monotone :
  forall (F : list (arr R) -> res (list R)) (J : list (arr R) -> res (list (list R)))
         (solve : list (list R) -> list R -> res (list R)) (x0 : list (arr R)) (parameters : option (list (arr R)))
         (step tol : R) (max_iter : nat) (hist : list nstate) (a b : nstate),
  parameters <> Some [] -> x0 <> [] -> Forall (fun a => arr_wf a) x0 ->
  newton_root F J solve x0 parameters step tol max_iter = Ok hist ->
  consecutive (mkN x0 false step 0) hist a b ->
  nx b = nx a \/
  exists u v, residual_norm F parameters (nx a) u /\ residual_norm F parameters (nx b) v /\ (v < u)%R.
Proof. exact @c44_monotone__p. Qed.
Print Assumptions c44_monotone.
Theorem c44_never_worse :
  forall (F : list (arr R) -> res (list R)) (J : list (arr R) -> res (list (list R)))
         (solve : list (list R) -> list R -> res (list R)) (x0 : list (arr R)) (parameters : option (list (arr R)))
         (step tol : R) (max_iter : nat) (hist : list nstate) (t1 t2 : nat) (a b : nstate) (u v : R),
  parameters <> Some [] -> x0 <> [] -> Forall (fun a => arr_wf a) x0 ->
  newton_root F J solve x0 parameters step tol max_iter = Ok hist -> t1 <= t2 ->
  nth_error (mkN x0 false step 0 :: hist) t1 = Some a -> nth_error (mkN x0 false step 0 :: hist) t2 = Some b ->
  residual_norm F parameters (nx a) u -> residual_norm F parameters (nx b) v -> (v <= u)%R.
Proof. exact @c44_never_worse__p. Qed.
Print Assumptions c44_never_worse.
Theorem c44_step_sizes :
  forall (F : list (arr R) -> res (list R)) (J : list (arr R) -> res (list (list R)))
         (solve : list (list R) -> list R -> res (list R)) (x0 : list (arr R)) (parameters : option (list (arr R)))
         (step tol : R) (max_iter : nat) (hist : list nstate) (a b : nstate),
  parameters <> Some [] -> x0 <> [] -> Forall (fun a => arr_wf a) x0 ->
  newton_root F J solve x0 parameters step tol max_iter = Ok hist ->
  consecutive (mkN x0 false step 0) hist a b ->
  (exists k, nstep a = (step * (1 / 2) ^ k)%R) /\
  (nx b <> nx a -> nstep b = step /\
     exists r j s, F (at_point parameters (nx a)) = Ok r /\ J (at_point parameters (nx a)) = Ok j /\ solve j r = Ok s /\
       forall i p q, nth_error (flat (nx a)) i = Some p -> nth_error s i = Some q ->
         nth_error (flat (nx b)) i = Some (p - nstep a * q)%R).
Proof. exact @c44_step_sizes__p. Qed.
Print Assumptions c44_step_sizes.
Example c44_ex : exists hist a,
  newton_root nw_F nw_J nw_solve nw_x0 nw_params 1 (1 / 100) 3 = Ok hist /\ nth_error hist 0 = Some a /\
  nx a <> nw_x0 /\ nstep a = 1%R /\
  exists u v, residual_norm nw_F nw_params nw_x0 u /\ residual_norm nw_F nw_params (nx a) v /\ (v < u)%R.
Proof.
  destruct c46_affine_ex as (s1 & s2 & rest & E & Rz & _).
  assert (W : Forall (fun a : arr R => arr_wf a) nw_x0) by repeat constructor.
  assert (Hc : consecutive (mkN nw_x0 false 1 0) (s1 :: s2 :: rest) (mkN nw_x0 false 1 0) s1) by (exists 0; auto).
  exists (s1 :: s2 :: rest), s1. split; [exact E|]. split; [reflexivity|].
  assert (Hn : nx s1 <> nw_x0).
  { intros X. rewrite X in Rz. cbn in Rz. injection Rz as Rz. lra. }
  split; [exact Hn|]. split.
  - apply (@c44_step_sizes nw_F nw_J nw_solve nw_x0 nw_params 1%R (1 / 100)%R 3 _ _ s1 ltac:(discriminate) ltac:(discriminate) W E Hc).
    exact Hn.
  - destruct (@c44_monotone nw_F nw_J nw_solve nw_x0 nw_params 1%R (1 / 100)%R 3 _ _ s1 ltac:(discriminate) ltac:(discriminate) W E Hc) as [X|X].
    + contradiction.
    + exact X.
Qed.

(** C45 *)
Theorem c45_frozen :
  forall (F : list (arr R) -> res (list R)) (J : list (arr R) -> res (list (list R)))
         (solve : list (list R) -> list R -> res (list R)) (x0 : list (arr R)) (parameters : option (list (arr R)))
         (step tol : R) (max_iter : nat) (hist : list nstate) (t1 t2 : nat) (a b : nstate),
  parameters <> Some [] -> x0 <> [] -> Forall (fun a => arr_wf a) x0 ->
  newton_root F J solve x0 parameters step tol max_iter = Ok hist -> t1 <= t2 ->
  nth_error hist t1 = Some a -> nth_error hist t2 = Some b -> nconv a = true ->
  nconv b = true /\ nx b = nx a /\ ncount b = ncount a.
Proof. exact @c45_frozen__p. Qed.
Print Assumptions c45_frozen.
Theorem c45_count :
  forall (F : list (arr R) -> res (list R)) (J : list (arr R) -> res (list (list R)))
         (solve : list (list R) -> list R -> res (list R)) (x0 : list (arr R)) (parameters : option (list (arr R)))
         (step tol : R) (max_iter : nat) (hist : list nstate) (t : nat) (st : nstate),
  parameters <> Some [] -> x0 <> [] -> Forall (fun a => arr_wf a) x0 ->
  newton_root F J solve x0 parameters step tol max_iter = Ok hist -> nth_error hist t = Some st ->
  length hist = max_iter /\
  ncount st = length (filter (fun s => negb (nconv s)) (firstn (S t) hist)) /\ ncount st <= max_iter /\
  (forall s, In s (firstn (ncount st) hist) -> nconv s = false) /\
  (forall k s, ncount st <= k <= t -> nth_error hist k = Some s -> nconv s = true).
Proof. exact @c45_count__p. Qed.
Print Assumptions c45_count.
Example c45_ex : exists s1 s2 s3,
  newton_root nw_F nw_J nw_solve nw_x0 nw_params 1 (1 / 100) 3 = Ok [s1; s2; s3] /\
  nconv s2 = true /\ nx s3 = nx s2 /\ ncount s3 = ncount s2.
Proof.
  destruct c46_affine_ex as (s1 & s2 & rest & E & _ & C).
  assert (W : Forall (fun a : arr R => arr_wf a) nw_x0) by repeat constructor.
  assert (L : length (s1 :: s2 :: rest) = 3).
  { apply (@c45_count nw_F nw_J nw_solve nw_x0 nw_params 1%R (1 / 100)%R 3 _ 0 s1 ltac:(discriminate) ltac:(discriminate) W E eq_refl). }
  destruct rest as [|s3 [|]]; try discriminate. exists s1, s2, s3. split; [exact E|]. split; [exact C|].
  destruct (@c45_frozen nw_F nw_J nw_solve nw_x0 nw_params 1%R (1 / 100)%R 3 _ 1 2 s2 s3 ltac:(discriminate) ltac:(discriminate) W E
              ltac:(lia) eq_refl eq_refl C) as (_ & A & B). auto.
Qed.
