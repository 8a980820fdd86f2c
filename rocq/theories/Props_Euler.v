(** C37-C40, C42: Euler approximations. *)
From Coq Require Import Reals Lra.
From Verif Require Import Py PyStr NdArray M_Primitives M_Utilities M_Wrappers M_Euler S_Layout S_Euler L_Euler3.
Local Open Scope string_scope.
Local Open Scope list_scope.

(** The model used in the examples: variables Y (i) and w, parameters a and b (i),
    moving from (0, [0, 0]) to (2, [4, 6]). *)
Definition ex_coords : coords := [("i", [LStr "A"; LStr "B"])].
Definition ex_vars := [exobj KVar "Y" ["i"]; exobj KVar "w" []].
Definition ex_params := [exobj KPar "a" []; exobj KPar "b" ["i"]].
Definition ex_data : dict (arr R) :=
  [("Y", mkArr [2] [1; 2]%R); ("w", mkArr [] [3%R]); ("a", mkArr [] [0%R]); ("b", mkArr [2] [0; 0]%R)].
Example ex_input theta1 : length theta1 = 3 ->
  euler_input ex_coords ex_vars ex_params [[2]; []] [[]; [2]] ex_data [1; 2; 3]%R [0; 0; 0]%R theta1.
Proof.
  intros L. constructor; try discriminate; try reflexivity; try exact L.
  - repeat constructor; simpl; intuition discriminate.
  - repeat constructor; simpl; intuition discriminate.
  - repeat constructor; eexists; split; reflexivity.
  - repeat constructor; eexists; split; reflexivity.
  - intros s H. repeat destruct H as [<-|H]; try discriminate. destruct H.
  - intros o [<-|[<-|[<-|[<-|[]]]]]; eexists; (split; [reflexivity|]); (split; [reflexivity|repeat constructor; eexists; split; reflexivity]).
Qed.

(** C37 *)
Theorem c37_line :
  forall (b : backend) (use_rk4 : bool) (inc : increment) (c : coords) (vars params : list mobj)
         (sv sp : list (list nat)) (data : dict (arr R)) (x0 theta0 theta1 : list R) (n : nat),
  euler_input c vars params sv sp data x0 theta0 theta1 -> supports b use_rk4 ->
  well_sized inc (total sv) (total sp) -> 1 <= n ->
  exists out, run_euler b use_rk4 inc vars params c theta1 n data = Ok out /\
    (forall a, In a out -> hd 0 (ashape a) = S n - first_step b) /\
    (forall t, first_step b <= t <= n ->
       let th := skipn (total sv) (row_of out (t - first_step b)) in
       length th = total sp /\
       forall k, k < total sp -> exists v, nth_error th k = Some v /\ on_line theta0 theta1 t n k v) /\
    skipn (total sv) (row_of out (n - first_step b)) = theta1.
Proof. exact @c37_line__p. Qed.
Print Assumptions c37_line.
Example c37_line_ex : exists out,
  run_euler BJax true (fun x th d => map (fun v => v * v)%R x) ex_vars ex_params ex_coords [2; 4; 6]%R 4 ex_data = Ok out /\
  exists v, nth_error (skipn 3 (row_of out 1)) 2 = Some v /\ v = 3%R.
Proof.
  destruct (@c37_line BJax true (fun x th d => map (fun v => v * v)%R x) ex_coords ex_vars ex_params
     [[2]; []] [[]; [2]] ex_data [1; 2; 3]%R [0; 0; 0]%R [2; 4; 6]%R 4 (@ex_input [2; 4; 6]%R eq_refl) I) as (out & E & _ & H & _).
  - intros x th d L _ _. now rewrite map_length.
  - lia.
  - exists out. split; [exact E|]. destruct (H 2) as (_ & Hk); [simpl; lia|].
    destruct (Hk 2) as (v & Ev & u & w & Eu & Ew & Hv); [vm_compute; auto|].
    exists v. split; [exact Ev|]. injection Eu as <-. injection Ew as <-. cbn [INR] in Hv. rewrite Hv. field.
Qed.

(** C38: Y_A - a = 1, Y_B - b_A = 2, w - b_B = 3 *)
Theorem c38_affine :
  forall (b : backend) (use_rk4 : bool) (M N : list (list R)) (k : list R)
         (solve : list (list R) -> list R -> list R) (c : coords) (vars params : list mobj)
         (sv sp : list (list nat)) (data : dict (arr R)) (x0 theta0 theta1 : list R) (n : nat),
  euler_input c vars params sv sp data x0 theta0 theta1 -> supports b use_rk4 -> 1 <= n ->
  is_matrix (total sv) (total sv) M -> is_matrix (total sv) (total sp) N -> length k = total sv ->
  solves solve M (total sv) ->
  residual M N k x0 theta0 = zeros (total sv) ->
  exists out, run_euler b use_rk4 (euler_inc (fun _ _ => M) (fun _ _ => N) solve) vars params c theta1 n data = Ok out /\
    (forall t, first_step b <= t <= n ->
       let row := row_of out (t - first_step b) in
       residual M N k (firstn (total sv) row) (skipn (total sv) row) = zeros (total sv)) /\
    residual M N k (firstn (total sv) (row_of out (n - first_step b))) theta1 = zeros (total sv).
Proof. exact @c38_affine__p. Qed.
Print Assumptions c38_affine.
Definition ex_M : list (list R) := [[1; 0; 0]; [0; 1; 0]; [0; 0; 1]]%R.
Definition ex_N : list (list R) := [[-1; 0; 0]; [0; -1; 0]; [0; 0; -1]]%R.
Example c38_affine_ex : exists out,
  run_euler BPytensor false (euler_inc (fun _ _ => ex_M) (fun _ _ => ex_N) (fun _ b => b)) ex_vars ex_params ex_coords
     [2; 4; 6]%R 4 ex_data = Ok out /\
  residual ex_M ex_N [-1; -2; -3]%R (firstn 3 (row_of out 3)) [2; 4; 6]%R = [0; 0; 0]%R.
Proof.
  destruct (@c38_affine BPytensor false ex_M ex_N [-1; -2; -3]%R (fun _ b => b) ex_coords ex_vars ex_params
     [[2]; []] [[]; [2]] ex_data [1; 2; 3]%R [0; 0; 0]%R [2; 4; 6]%R 4 (@ex_input [2; 4; 6]%R eq_refl) eq_refl) as (out & E & _ & H).
  - lia.
  - split; [reflexivity|]. intros r [<-|[<-|[<-|[]]]]; reflexivity.
  - split; [reflexivity|]. intros r [<-|[<-|[<-|[]]]]; reflexivity.
  - reflexivity.
  - intros [|b1 [|b2 [|b3 [|]]]] L; try discriminate. split; [reflexivity|]. unfold mv, dot, vmap2. simpl.
    repeat (f_equal; try ring).
  - unfold residual, vadd, mv, dot, vmap2, zeros. simpl. repeat (f_equal; try lra).
  - exists out. split; [exact E|]. exact H.
Qed.

(** C39 *)
Theorem c39_no_shock :
  forall (b : backend) (use_rk4 : bool) (A B : list R -> list R -> list (list R))
         (solve : list (list R) -> list R -> list R) (c : coords) (vars params : list mobj)
         (sv sp : list (list nat)) (data : dict (arr R)) (x0 theta0 : list R) (n : nat),
  euler_input c vars params sv sp data x0 theta0 theta0 -> supports b use_rk4 ->
  (* one equation per variable, and a solver that maps zero to zero *)
  (forall x th, length (B x th) = total sv) ->
  (forall m v, length (solve m v) = length v) ->
  (forall m k, solve m (zeros k) = zeros k) ->
  exists out, run_euler b use_rk4 (euler_inc A B solve) vars params c theta0 n data = Ok out /\
    (forall t, first_step b <= t <= n -> row_of out (t - first_step b) = x0 ++ theta0).
Proof. exact @c39_no_shock__p. Qed.
Print Assumptions c39_no_shock.
Example c39_no_shock_ex : exists out,
  run_euler BScan true (euler_inc (fun x _ => [x; x; x]) (fun _ th => [th; th; th]) (fun _ b => b)) ex_vars ex_params
     ex_coords [0; 0; 0]%R 5 ex_data = Ok out /\ row_of out 4 = [1; 2; 3; 0; 0; 0]%R.
Proof.
  destruct (@c39_no_shock BScan true (fun x _ => [x; x; x]) (fun _ th => [th; th; th]) (fun _ b => b) ex_coords ex_vars
     ex_params [[2]; []] [[]; [2]] ex_data [1; 2; 3]%R [0; 0; 0]%R 5 (@ex_input [0; 0; 0]%R eq_refl) I) as (out & E & H); try reflexivity.
  exists out. split; [exact E|]. apply (H 4). simpl. lia.
Qed.

(** C40 *)
Theorem c40_numba_scan :
  forall (inc : increment) (c : coords) (vars params : list mobj)
         (sv sp : list (list nat)) (data : dict (arr R)) (x0 theta0 theta1 : list R) (n : nat),
  euler_input c vars params sv sp data x0 theta0 theta1 -> well_sized inc (total sv) (total sp) ->
  run_euler BNumba false inc vars params c theta1 n data = run_euler BScan false inc vars params c theta1 n data.
Proof. exact @c40_numba_scan__p. Qed.
Print Assumptions c40_numba_scan.
Example c40_numba_scan_ex : exists out,
  run_euler BNumba false (fun x th d => x) ex_vars ex_params ex_coords [2; 4; 6]%R 2 ex_data = Ok out /\
  run_euler BScan false (fun x th d => x) ex_vars ex_params ex_coords [2; 4; 6]%R 2 ex_data = Ok out.
Proof.
  destruct (@c37_line BScan false (fun x th d => x) ex_coords ex_vars ex_params
     [[2]; []] [[]; [2]] ex_data [1; 2; 3]%R [0; 0; 0]%R [2; 4; 6]%R 2 (@ex_input [2; 4; 6]%R eq_refl) I) as (out & E & _).
  - intros x th d L _ _. exact L.
  - lia.
  - exists out. split; [|exact E].
    rewrite (@c40_numba_scan (fun x th d => x) ex_coords ex_vars ex_params
     [[2]; []] [[]; [2]] ex_data [1; 2; 3]%R [0; 0; 0]%R [2; 4; 6]%R 2 (@ex_input [2; 4; 6]%R eq_refl)); [exact E|].
    intros x th d L _ _. exact L.
Qed.
Theorem c40_python_shifted :
  forall (use_rk4 : bool) (inc : increment) (c : coords) (vars params : list mobj)
         (sv sp : list (list nat)) (data : dict (arr R)) (x0 theta0 theta1 : list R) (n : nat),
  euler_input c vars params sv sp data x0 theta0 theta1 -> well_sized inc (total sv) (total sp) ->
  exists out1 out2, run_euler BScan use_rk4 inc vars params c theta1 n data = Ok out1 /\
    run_euler BJax use_rk4 inc vars params c theta1 n data = Ok out2 /\
    (use_rk4 = false -> run_euler BPytensor use_rk4 inc vars params c theta1 n data = Ok out2) /\
    row_of out1 0 = x0 ++ theta0 /\
    forall t, t < n -> row_of out2 t = row_of out1 (S t).
Proof. exact @c40_python_shifted__p. Qed.
Print Assumptions c40_python_shifted.
Example c40_python_shifted_ex : exists out1 out2,
  run_euler BScan true (fun x th d => x) ex_vars ex_params ex_coords [2; 4; 6]%R 3 ex_data = Ok out1 /\
  run_euler BJax true (fun x th d => x) ex_vars ex_params ex_coords [2; 4; 6]%R 3 ex_data = Ok out2 /\
  row_of out2 2 = row_of out1 3.
Proof.
  destruct (@c40_python_shifted true (fun x th d => x) ex_coords ex_vars ex_params
     [[2]; []] [[]; [2]] ex_data [1; 2; 3]%R [0; 0; 0]%R [2; 4; 6]%R 3 (@ex_input [2; 4; 6]%R eq_refl))
    as (o1 & o2 & E1 & E2 & _ & _ & H); [intros x th d L _ _; exact L|]. exists o1, o2. auto.
Qed.
Theorem c40_labels_refuted :
  forall (inc : increment) (c : coords) (vars params : list mobj)
         (sv sp : list (list nat)) (data : dict (arr R)) (x0 theta0 theta1 : list R) (n : nat),
  euler_input c vars params sv sp data x0 theta0 theta1 -> well_sized inc (total sv) (total sp) ->
  exists out1 out2, run_euler BNumba false inc vars params c theta1 n data = Ok out1 /\
    run_euler BPytensor false inc vars params c theta1 n data = Ok out2 /\
    (forall a, In a out1 -> hd 0 (ashape a) = S n) /\ (forall a, In a out2 -> hd 0 (ashape a) = n) /\ out1 <> out2.
Proof. exact @c40_labels_refuted__p. Qed.
Print Assumptions c40_labels_refuted.
Example c40_labels_ex : exists out1 out2,
  run_euler BNumba false (fun x th d => x) ex_vars ex_params ex_coords [2; 4; 6]%R 2 ex_data = Ok out1 /\
  run_euler BPytensor false (fun x th d => x) ex_vars ex_params ex_coords [2; 4; 6]%R 2 ex_data = Ok out2 /\ out1 <> out2.
Proof.
  destruct (@c40_labels_refuted (fun x th d => x) ex_coords ex_vars ex_params
     [[2]; []] [[]; [2]] ex_data [1; 2; 3]%R [0; 0; 0]%R [2; 4; 6]%R 2 (@ex_input [2; 4; 6]%R eq_refl))
    as (o1 & o2 & E1 & E2 & _ & _ & N); [intros x th d L _ _; exact L|eauto].
Qed.
Theorem c40_keyword_clash_refuted :
  exists (c : coords) (vars params : list mobj) (data : dict (arr R)) (theta1 : list R),
    NoDup (map o_name (vars ++ params)) /\
    (forall o, In o (vars ++ params) -> exists a, dget (o_name o) data = Some a /\ fits c o a) /\
    forall (inc : increment) (n : nat), well_sized inc 1 2 ->
      (exists out, run_euler BNumba false inc vars params c theta1 (S n) data = Ok out) /\
      run_euler BPytensor false inc vars params c theta1 (S n) data = Err TypeError /\
      run_euler BJax false inc vars params c theta1 (S n) data = Err TypeError.
Proof. exact @c40_keyword_clash_refuted__p. Qed.
Print Assumptions c40_keyword_clash_refuted.
Theorem c40_scan_unreachable :
  forall (A : Type) (f : A), scan_compiled f = Err TypeError.
Proof. exact @c40_scan_unreachable__p. Qed.
Print Assumptions c40_scan_unreachable.

(** C42 *)
Theorem c42_combination :
  forall (inc : increment) (x th d k1 k2 k3 k4 : list R),
  k1 = inc x th d ->
  k2 = inc (vadd x (vscale (1 / 2) k1)) (vadd th (vscale (1 / 2) d)) d ->
  k3 = inc (vadd x (vscale (1 / 2) k2)) (vadd th (vscale (1 / 2) d)) d ->
  k4 = inc (vadd x k3) (vadd th d) d ->
  length k1 = length x -> length k2 = length x -> length k3 = length x -> length k4 = length x ->
  length (rk4_inc inc x th d) = length x /\
  forall j a1 a2 a3 a4, nth_error k1 j = Some a1 -> nth_error k2 j = Some a2 -> nth_error k3 j = Some a3 ->
    nth_error k4 j = Some a4 ->
    nth_error (rk4_inc inc x th d) j = Some ((a1 + 2 * a2 + 2 * a3 + a4) / 6)%R.
Proof. exact @c42_combination__p. Qed.
Print Assumptions c42_combination.
Example c42_combination_ex : nth_error (rk4_inc (fun x th d => x) [1%R] [0%R] [1%R]) 0 =
  Some ((1 + 2 * (1 + 1 / 2 * 1) + 2 * (1 + 1 / 2 * (1 + 1 / 2 * 1)) + (1 + (1 + 1 / 2 * (1 + 1 / 2 * 1)))) / 6)%R.
Proof.
  refine (proj2 (@c42_combination (fun x th d => x) [1%R] [0%R] [1%R] _ _ _ _ eq_refl eq_refl eq_refl eq_refl
                    eq_refl eq_refl eq_refl eq_refl) 0 _ _ _ _ _ _ _ _); reflexivity.
Qed.
Theorem c42_constant_slope :
  forall (inc : increment) (x th d g : list R),
  length d = length th -> length g = length x ->
  (forall x' th', length x' = length x -> length th' = length th -> inc x' th' d = g) ->
  rk4_inc inc x th d = inc x th d.
Proof. exact @c42_constant_slope__p. Qed.
Print Assumptions c42_constant_slope.
Example c42_constant_slope_ex : rk4_inc (fun _ _ d => d) [1; 2]%R [3; 4]%R [5; 6]%R = [5; 6]%R.
Proof. apply (@c42_constant_slope (fun _ _ d => d) [1; 2]%R [3; 4]%R [5; 6]%R [5; 6]%R); reflexivity. Qed.
Theorem c42_polynomial_path :
  forall (inc : increment) (ps : list (list R)) (th0 D : list R) (s h : R),
  length D = length th0 -> (forall p, In p ps -> length p <= 5) ->
  (forall x r, length x = length ps ->
     inc x (vadd th0 (vscale r D)) (vscale h D) = map (fun p => h * peval (pder p) r)%R ps) ->
  vadd (map (fun p => peval p s) ps) (rk4_inc inc (map (fun p => peval p s) ps) (vadd th0 (vscale s D)) (vscale h D))
  = map (fun p => peval p (s + h)) ps.
Proof. exact @c42_polynomial_path__p. Qed.
Print Assumptions c42_polynomial_path.
(** Y = s^4 and w = 1 + s^2 while the parameter moves from 0 to 1 *)
Example c42_polynomial_path_ex :
  let inc x th d := match th, d with [s], [h] => [h * (4 * (s * s * s)); h * (2 * s)]%R | _, _ => [] end in
  vadd [0; 1]%R (rk4_inc inc [0; 1]%R [0]%R [1]%R) = [1; 2]%R.
Proof.
  intros inc.
  pose proof (@c42_polynomial_path inc [[0; 0; 0; 0; 1]; [1; 0; 1]]%R [0]%R [1]%R 0%R 1%R eq_refl) as H.
  assert (H1 : forall p, In p [[0; 0; 0; 0; 1]; [1; 0; 1]]%R -> length p <= 5) by (intros p [<-|[<-|[]]]; simpl; lia).
  specialize (H H1).
  assert (E : forall (x : list R) r, length x = 2 -> inc x (vadd [0%R] (vscale r [1%R])) (vscale 1 [1%R]) =
    map (fun p => 1 * peval (pder p) r)%R [[0; 0; 0; 0; 1]; [1; 0; 1]]%R).
  { intros x r _. unfold inc, vadd, vscale, vmap2. simpl. f_equal; [ring|f_equal; ring]. }
  specialize (H E).
  replace (vadd [0%R] (vscale 0 [1%R])) with [0%R] in H by (unfold vadd, vscale, vmap2; simpl; f_equal; ring).
  replace (vscale 1 [1%R]) with [1%R] in H by (unfold vscale; simpl; f_equal; ring).
  replace (map (fun p => peval p 0) [[0; 0; 0; 0; 1]; [1; 0; 1]]%R) with [0; 1]%R in H
    by (simpl; f_equal; [ring|f_equal; ring]).
  rewrite H. simpl. f_equal; [ring|f_equal; ring].
Qed.
Theorem c42_polynomial_run :
  forall (b : backend) (inc : increment) (ps : list (list R)) (c : coords) (vars params : list mobj)
         (sv sp : list (list nat)) (data : dict (arr R)) (x0 theta0 theta1 : list R) (n : nat),
  euler_input c vars params sv sp data x0 theta0 theta1 -> supports b true ->
  well_sized inc (total sv) (total sp) -> 1 <= n ->
  length ps = total sv -> (forall p, In p ps -> length p <= 5) ->
  x0 = map (fun p => peval p 0) ps ->
  (forall x r h, length x = length ps ->
     inc x (vadd theta0 (vscale r (vsub theta1 theta0))) (vscale h (vsub theta1 theta0)) =
     map (fun p => h * peval (pder p) r)%R ps) ->
  exists out, run_euler b true inc vars params c theta1 n data = Ok out /\
    forall t, first_step b <= t <= n ->
      firstn (total sv) (row_of out (t - first_step b)) = map (fun p => peval p (INR t / INR n)) ps.
Proof. exact @c42_polynomial_run__p. Qed.
Print Assumptions c42_polynomial_run.
(** Y_A = 1 + s, Y_B = 2 + s^2, w = 3 while a moves from 0 to 1 *)
Example c42_polynomial_run_ex :
  let inc x th d := match th, d with s :: _, h :: _ => [h; h * (2 * s); 0]%R | _, _ => x end in
  exists out, run_euler BJax true inc ex_vars ex_params ex_coords [1; 0; 0]%R 2 ex_data = Ok out /\
    firstn 3 (row_of out 0) = [1 + 1 / 2; 2 + 1 / 4; 3]%R.
Proof.
  intros inc.
  destruct (@c42_polynomial_run BJax inc [[1; 1]; [2; 0; 1]; [3]]%R ex_coords ex_vars ex_params
     [[2]; []] [[]; [2]] ex_data [1; 2; 3]%R [0; 0; 0]%R [1; 0; 0]%R 2 (@ex_input [1; 0; 0]%R eq_refl) I) as (out & E & H).
  - intros x [|s th] [|h d] Hx Ht Hd; try discriminate. reflexivity.
  - lia.
  - reflexivity.
  - intros p [<-|[<-|[<-|[]]]]; simpl; lia.
  - simpl. repeat (f_equal; try ring).
  - intros x r h _. unfold vadd, vsub, vscale, vmap2. simpl. repeat (f_equal; try ring).
  - exists out. split; [exact E|]. assert (H1 : first_step BJax <= 1 <= 2) by (simpl; lia). specialize (H 1 H1).
    change (firstn 3 (row_of out 0) = map (fun p => peval p (INR 1 / INR 2)) [[1; 1]; [2; 0; 1]; [3]]%R) in H.
    rewrite H. cbn [map peval INR].
    f_equal; [field|]. f_equal; [field|]. f_equal. field.
Qed.
Theorem c42_degree_five_refuted :
  exists inc : increment,
    (forall x r, inc x (vadd [0%R] (vscale r [1%R])) [1%R] = [1 * peval (pder [0; 0; 0; 0; 0; 1]) r]%R) /\
    vadd [0%R] (rk4_inc inc [0%R] [0%R] [1%R]) <> [1%R].
Proof. exact @c42_degree_five_refuted__p. Qed.
Print Assumptions c42_degree_five_refuted.
Theorem c42_refused :
  forall (b : backend) (inc : increment) (c : coords) (vars params : list mobj)
         (sv sp : list (list nat)) (data : dict (arr R)) (x0 theta0 theta1 : list R) (n : nat),
  euler_input c vars params sv sp data x0 theta0 theta1 -> b = BNumba \/ b = BPytensor ->
  run_euler b true inc vars params c theta1 n data = Err NotImplementedError.
Proof. exact @c42_refused__p. Qed.
Print Assumptions c42_refused.
Example c42_refused_ex :
  run_euler BNumba true (fun x th d => x) ex_vars ex_params ex_coords [2; 4; 6]%R 2 ex_data = Err NotImplementedError.
Proof. exact (@c42_refused BNumba _ _ _ _ _ _ _ _ _ _ 2 (@ex_input [2; 4; 6]%R eq_refl) (or_introl eq_refl)). Qed.
