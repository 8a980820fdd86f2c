(** Lemmas for C57 (two dimensions) and C58. *)
From Coq Require Import Ascii Reals Lra Lia ZArith.
From Verif Require Import Py PyStr M_PyExpr S_PyExpr L_PyExpr S_Meaning L_Meaning M_Production S_Production L_Production L_Production2 L_Production3.
Local Open Scope string_scope.
Local Open Scope list_scope.

Lemma name_no_eq w : is_name w -> no_eq w.
Proof.
  intros (_ & A & _). unfold no_eq. induction w as [|c w IH]; [reflexivity|]. cbn [all_word] in A. apply andb_true_iff in A as (A1 & A2).
  cbn [contains_char]. rewrite IH by exact A2. destruct (Ascii.eqb_spec c "=") as [->|N]; [discriminate|]. now destruct (Ascii.eqb_spec "=" c) as [<-|_].
Qed.
Lemma sum_n_ext f g n : (forall k, k < n -> f k = g k) -> sum_n f n = sum_n g n.
Proof. intros H. unfold sum_n. f_equal. apply map_ext_in. intros k K. apply in_seq in K. apply H. lia. Qed.
Lemma sum_n_scale c f n : (sum_n (fun k => c * f k) n = c * sum_n f n)%R.
Proof. unfold sum_n. induction (seq 0 n) as [|k l IH]; cbn [map fold_right]; [lra|]. rewrite IH. lra. Qed.

Lemma name_at_V rho ix c d m s f i k : name_at rho ix c d m s f -> i < m -> V rho (at2 ix c d i k) LPrim (tokenize s) (f i).
Proof. intros (N & Nn & E) K. rewrite name_tok by exact N. exists (EWord s). split; [apply G_word|]. cbn [eval]. rewrite Nn. now apply E. Qed.
Lemma at2_swap ix c d i k : c <> d -> upd (at2 ix c d i k) d (at2 ix c d i k c) = at2 ix c d i i.
Proof.
  intros N. unfold at2. rewrite upd_upd. f_equal. unfold upd. rewrite String.eqb_refl. destruct (String.eqb_spec d c); [congruence|reflexivity].
Qed.

Lemma c57_two_dims__p :
  forall (rho : valuation) (ix : indices) (c d : string) (labels_c labels_d : list string) coords dims sum_dim expand_price_dim transpose_output
         (factor price output output_price share : string) (x q a : nat -> nat -> R) (y p : nat -> R),
  is_name c -> is_name d -> c <> d -> dget c coords = Some labels_c -> dget d coords = Some labels_d -> labels_d <> [] ->
  dims = [c; d] /\ (sum_dim = None \/ sum_dim = Some d) \/ dims = [d; c] /\ sum_dim = Some d ->
  let m := length labels_c in let n := length labels_d in
  unit_at2 rho ix c d m n factor x -> no_eq factor -> unit_at2 rho ix c d m n price q -> unit_at2 rho ix c d m n share a ->
  name_at rho ix c d m output y -> name_at rho ix c d m output_price p ->
  (forall i, i < m -> y i <> 0%R /\ p i <> 0%R) ->
  exists eqs, leontief (One factor) (One price) output output_price (One share) (Many dims) coords sum_dim expand_price_dim transpose_output "numba" = Ok eqs /\
    ((forall i k, i < m -> k < n -> Forall (holds rho (at2 ix c d i k)) eqs) <->
     (forall i, i < m -> p i = sum_n (fun k => q i k * a i k)%R n /\ forall k, k < n -> x i k = (a i k * y i)%R)).
Proof.
  intros rho ix c d lc ld coords dims sum_dim ep tr factor price output output_price share x q a y p C D N Ec Ed Nd HD m n (ef & Gf & Ef) Nf (eq & Gq & Eq) (ea & Ga & Ea) Y P NZ.
  set (t := fun s => if tr then swapaxes s d c else s).
  set (e1 := (t output ++ " = Sum(" ++ price ++ " * " ++ factor ++ ", (" ++ d ++ ", 0, " ++ str_of_Z (Z.of_nat n - 1) ++ ")) / " ++ t output_price)%string).
  set (e2 := (factor ++ " = " ++ share ++ " * " ++ output)%string).
  exists [e1; e2]. split.
  { unfold leontief, check_lengths. cbn [at_least_list length Nat.eqb andb bind].
    assert (L : length dims = 2) by (destruct HD as [(-> & _)|(-> & _)]; reflexivity). rewrite L. cbn [Nat.eqb single bind]. unfold leontief_2d.
    assert (S : exists k, (match sum_dim with Some d0 => Ok d0 | None => match dims with [] => Err IndexError | _ => Ok (last dims "") end end) = Ok d /\
              index_of d dims = Some k /\ pop k dims = [c]).
    { destruct HD as [(-> & [-> | ->])|(-> & ->)]; cbn [last index_of option_map]; rewrite ?String.eqb_refl; destruct (String.eqb_spec d c); try congruence; eexists; repeat split. }
    destruct S as (k & S1 & S2 & S3). rewrite S1. cbn [bind]. rewrite S2. cbn [bind]. change (String.eqb "numba" "numba") with true. cbv iota. rewrite S3. cbn [bind].
    unfold dgetitem. rewrite Ec, Ed. reflexivity. }
  assert (n0 : 0 < n) by (unfold n; destruct ld; [congruence|simpl; lia]).
  assert (T : forall s f i k, name_at rho ix c d m s f -> i < m -> V rho (at2 ix c d i k) LPrim (tokenize (t s)) (f i)).
  { intros s f i k H Hi. unfold t. destruct tr; [|now apply name_at_V with m]. apply V_swapaxes; try assumption; [apply H|]. rewrite at2_swap by exact N. now apply name_at_V with m. }
  assert (H1 : forall i k, i < m -> k < n -> holds rho (at2 ix c d i k) e1 <-> (y i * p i = sum_n (fun k => q i k * x i k)%R n)%R).
  { intros i k Hi Hk. unfold e1.
    replace (t output ++ " = Sum(" ++ price ++ " * " ++ factor ++ ", (" ++ d ++ ", 0, " ++ str_of_Z (Z.of_nat n - 1) ++ ")) / " ++ t output_price)%string
      with (t output ++ " = " ++ (Sum_str d n (price ++ " * " ++ factor) ++ " / " ++ t output_price))%string by (unfold Sum_str; sassoc).
    assert (Nt : no_eq (t output)).
    { unfold t. pose proof (name_no_eq (proj1 Y)). destruct tr; [|assumption]. unfold swapaxes. pose proof (name_no_eq C). pose proof (name_no_eq D).
      repeat (apply no_eq_app; [first [assumption|reflexivity]|]). reflexivity. }
    rewrite (@equation_holds rho (at2 ix c d i k) (t output) _ (y i) (sum_n (fun k => q i k * x i k) n / p i)%R Nt).
    - destruct (NZ i Hi) as (_ & Np). split; intros H; [rewrite H; field; exact Np|]. rewrite <- H. field. exact Np.
    - apply expr_V, V_unit_expr. now apply T.
    - apply expr_V, V_term. apply sv_div; [|apply V_unit_factor; now apply T|apply NZ; exact Hi].
      apply V_unit_term. apply V_summation with (ix := upd ix c i); [exact D|exact n0|intros k'; unfold at2; apply upd_upd|].
      apply VF_term, VF_mul with (f := fun k => q i k) (g := fun k => x i k).
      + apply VF_factor, VF_prim. exists eq. split; [exact Gq|]. intros k' Hk'. now apply Eq.
      + apply VF_prim. exists ef. split; [exact Gf|]. intros k' Hk'. now apply Ef. }
  assert (H2 : forall i k, i < m -> k < n -> holds rho (at2 ix c d i k) e2 <-> (x i k = a i k * y i)%R).
  { intros i k Hi Hk. unfold e2. apply equation_holds; [exact Nf|apply expr_V, V_unit_expr; exists ef; split; [exact Gf|now apply Ef]|].
    apply expr_V, V_term, sv_mul; [apply V_unit_term; exists ea; split; [exact Ga|now apply Ea]|]. apply V_unit_factor. now apply name_at_V with m. }
  assert (X : forall i, i < m -> (forall k, k < n -> x i k = (a i k * y i)%R) -> (sum_n (fun k => q i k * x i k) n = y i * sum_n (fun k => q i k * a i k) n)%R).
  { intros i Hi H. rewrite <- sum_n_scale. apply sum_n_ext. intros k Hk. rewrite H by exact Hk. ring. }
  split.
  - intros H i Hi. assert (E2 : forall k, k < n -> x i k = (a i k * y i)%R) by (intros k Hk; specialize (H i k Hi Hk); apply Forall_inv_tail, Forall_inv in H; now apply H2 in H).
    split; [|exact E2]. specialize (H i 0 Hi n0). apply Forall_inv in H. apply H1 in H; [|exact Hi|exact n0]. rewrite (X i Hi E2) in H.
    apply Rmult_eq_reg_l with (y i); [exact H|apply NZ; exact Hi].
  - intros H i k Hi Hk. destruct (H i Hi) as (E1 & E2). constructor; [|constructor; [|constructor]].
    + apply H1; [exact Hi|exact Hk|]. rewrite (X i Hi E2), E1. ring.
    + apply H2; auto.
Qed.

Lemma holds_tree rho ix s e : parse (normalize_eq s) = Some e -> eval rho ix e = Some 0%R -> holds rho ix s.
Proof. intros H E. unfold holds, meaning. now rewrite H. Qed.

(** Two sectors: with the default arguments and outputs along the second
    dimension (as the documentation has it) the zero-profit equation of sector j
    adds up the row of its sales, not the column of its costs. *)
Definition sector_values : valuation := fun w ix =>
  let j := ix "j" in
  if String.eqb w "Y" then Some (if Nat.eqb j 0 then 1 else 2)%R
  else if String.eqb w "P" then Some (if Nat.eqb j 0 then 3 else 3 / 2)%R
  else if String.eqb w "X" then Some (if Nat.eqb j 0 then 1 else 2)%R
  else if String.eqb w "q" || String.eqb w "a" then Some 1%R else None.

Ltac compute_parse := match goal with |- holds _ _ ?s => let e := eval vm_compute in (parse (normalize_eq s)) in
  match e with Some ?e => apply (@holds_tree _ _ s e); [vm_compute; reflexivity|] end end.

Ltac eval_eq := cbv -[Rplus Rminus Rmult Rdiv Ropp Rinv IZR Req_EM_T Rlt_dec Rpower];
  repeat match goal with |- context [Req_EM_T ?a ?b] => destruct (Req_EM_T a b); [exfalso; lra|] end; f_equal; try field.
Lemma c57_default_refuted__p :
  exists (rho : valuation) (x a : nat -> nat -> R) (q y p : nat -> R) eqs,
    leontief (One "X") (One "q") "Y" "P" (One "a") (Many ["i"; "j"]) [("i", ["A"; "B"]); ("j", ["A"; "B"])] None true true "numba" = Ok eqs /\
    (forall ix i k, i < 2 -> k < 2 ->
       let here := at2 ix "i" "j" i k in
       rho "X" here = Some (x i k) /\ rho "q" here = Some (q i) /\ rho "a" here = Some (a i k) /\ rho "Y" here = Some (y k) /\ rho "P" here = Some (p k) /\
       Forall (holds rho here) eqs) /\
    ~ forall k, k < 2 -> p k = sum_n (fun i => q i * a i k)%R 2.
Proof.
  exists sector_values, (fun _ k => if Nat.eqb k 0 then 1 else 2)%R, (fun _ _ => 1%R), (fun _ => 1%R), (fun k => if Nat.eqb k 0 then 1 else 2)%R, (fun k => if Nat.eqb k 0 then 3 else 3 / 2)%R.
  eexists. split; [reflexivity|]. split.
  - intros ix i k Hi Hk here.
    assert (U : here "j" = k /\ here "i" = i) by (split; reflexivity). destruct U as (Uj & Ui). unfold sector_values at 1 2 3 4 5. cbn [String.eqb Ascii.eqb Bool.eqb orb]. rewrite Uj.
    repeat (split; [reflexivity|]). constructor; [|constructor; [|constructor]].
    + compute_parse; destruct i as [|[|i]]; [| |lia]; eval_eq.
    + compute_parse; destruct k as [|[|k]]; [| |lia]; eval_eq.
  - intros H. specialize (H 0 ltac:(lia)). cbv -[Rplus Rmult IZR] in H. lra.
Qed.
