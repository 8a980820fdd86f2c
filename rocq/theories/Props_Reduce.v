(** C18, C47, C48: dims of an equation and expansion of reductions. *)
From Coq Require Import Reals Lra.
From Verif Require Import Py PyStr M_SymExpr S_Reduce L_Reduce L_Reduce4 L_Reduce5.
Local Open Scope string_scope.
Local Open Scope list_scope.

(** The model of the examples: two goods, two regions *)
Definition ex_coords : dict (list string) := [("i", ["food"; "steel"]); ("r", ["north"; "south"])].
(** Sum(P[i] * X[i, r], (i, 0, 1)) - Y[r] * Product(S[i], (i, 0, 1)) *)
Definition ex_eq : sexpr :=
  SBin OSub (SRed RSum (SBin OMul (SIx "P" [IVar "i"]) (SIx "X" [IVar "i"; IVar "r"])) [("i", (0, 1))])
            (SBin OMul (SIx "Y" [IVar "r"]) (SRed RProd (SIx "S" [IVar "i"]) [("i", (0, 1))])).
Definition ex_axes (b : string) : list (list string) :=
  if String.eqb b "X" then [["food"; "steel"]; ["north"; "south"]] else if String.eqb b "Y" then [["north"; "south"]] else [["food"; "steel"]].
Example ex_flat : flat_reductions ex_coords ex_axes ex_eq /\ plain_labels ex_coords /\ NoDup (dkeys ex_coords).
Proof.
  split; [|split].
  - cbn. repeat split; auto.
    + intros b l [E|[E|[]]]; injection E as <- <-; repeat constructor; eexists; split; reflexivity.
    + destruct H as [E|[]]; injection E as <- <- <-; auto.
    + destruct H as [E|[]]; injection E as <- <- <-. eexists; split; [reflexivity|]; cbn; lia.
    + intros b l [E|[]]; injection E as <- <-; repeat constructor; eexists; split; reflexivity.
    + destruct H as [E|[]]; injection E as <- <- <-; auto.
    + destruct H as [E|[]]; injection E as <- <- <-. eexists; split; [reflexivity|]; cbn; lia.
  - intros i ls H. cbn in H. destruct (String.eqb i "i"); [injection H as <-; split; [discriminate|repeat constructor]|].
    destruct (String.eqb i "r"); [injection H as <-; split; [discriminate|repeat constructor]|discriminate].
  - repeat constructor; cbn; intuition discriminate.
Qed.
Definition ex_expanded : sexpr :=
  SBin OSub (SBin OAdd (SBin OMul (SIx "P" [ILab "food"]) (SIx "X" [ILab "food"; IVar "r"]))
              (SBin OAdd (SBin OMul (SIx "P" [ILab "steel"]) (SIx "X" [ILab "steel"; IVar "r"])) (SNum 0)))
            (SBin OMul (SIx "Y" [IVar "r"]) (SBin OMul (SIx "S" [ILab "food"]) (SBin OMul (SIx "S" [ILab "steel"]) (SNum 1)))).

Theorem c18_dims :
  forall e coords_dims, NoDup coords_dims ->
    let ds := find_equation_dims e coords_dims in
    NoDup ds /\
    (forall d, In d ds <-> In d coords_dims /\ occurs d e) /\
    (forall k1 k2, k1 < k2 -> k2 < length ds ->
       exists j1 j2, j1 < j2 /\ j2 < length coords_dims /\
                     nth_error ds k1 = nth_error coords_dims j1 /\ nth_error ds k2 = nth_error coords_dims j2).
Proof. exact @c18_dims__p. Qed.
Print Assumptions c18_dims.
(** The residual above has the dimension r only; before expansion it mentions i too *)
Example c18_dims_ex :
  find_equation_dims ex_expanded (dkeys ex_coords) = ["r"] /\ find_equation_dims ex_eq (dkeys ex_coords) = ["i"; "r"].
Proof. split; reflexivity. Qed.

Theorem c18_reductions :
  forall sub_into set_order dict_order, walks_set set_order -> walks_set dict_order ->
  forall coords axes e e', plain_labels coords -> NoDup (dkeys coords) -> flat_reductions coords axes e ->
    substitute_reduce_ops sub_into set_order dict_order coords e = Ok e' ->
    forall d, In d (find_equation_dims e' (dkeys coords)) <-> In d (dkeys coords) /\ occurs_free d e.
Proof. exact @c18_reductions__p. Qed.
Print Assumptions c18_reductions.
Example c18_reductions_ex :
  walks_set (uniq sexpr_eqb) /\ walks_set (uniq pair_eqb) /\ flat_reductions ex_coords ex_axes ex_eq /\ plain_labels ex_coords /\
  substitute_reduce_ops sympy_rule (uniq sexpr_eqb) (uniq pair_eqb) ex_coords ex_eq = Ok ex_expanded /\
  occurs_free "r" ex_eq /\ ~ occurs_free "i" ex_eq.
Proof.
  split; [apply uniq_walks, sexpr_eqb_eq|]. split; [apply uniq_walks, pair_eqb_eq|]. split; [apply ex_flat|]. split; [apply ex_flat|]. split; [reflexivity|]. split.
  - apply OfR, OfL. constructor. now left.
  - intros H. inversion H as [| ? ? ? A| ? ? ? A| |]; subst.
    + inversion A; subst. apply H4. now left.
    + inversion A as [| ? ? ? B| ? ? ? B| |]; subst; [inversion B as [? ? C| | | |]; subst; destruct C as [C|[]]; discriminate|].
      inversion B; subst. apply H4. now left.
Qed.

Theorem c47_value :
  forall sub_into set_order dict_order, walks_set set_order -> walks_set dict_order ->
  forall coords axes e, plain_labels coords -> flat_reductions coords axes e ->
    exists e', substitute_reduce_ops sub_into set_order dict_order coords e = Ok e' /\
      no_reduction e' /\ (no_position e -> no_position e') /\
      forall v w g, den coords v w g e' = den coords v w g e.
Proof. exact @c47_value__p. Qed.
Print Assumptions c47_value.
Example c47_value_ex : forall v w g, den ex_coords v w g ex_expanded = den ex_coords v w g ex_eq.
Proof.
  destruct (@c47_value__p sympy_rule _ _ (uniq_walks sexpr_eqb sexpr_eqb_eq) (uniq_walks pair_eqb pair_eqb_eq) _ _ _ (proj1 (proj2 ex_flat)) (proj1 ex_flat)) as (e' & E & _ & _ & H).
  change (substitute_reduce_ops sympy_rule (uniq sexpr_eqb) (uniq pair_eqb) ex_coords ex_eq) with (Ok ex_expanded) in E. injection E as <-. exact H.
Qed.
(** With P = 2, S = 1, Y = 5, X = 3 the residual is 2*3 + 2*3 - 5 = 7 *)
Example c47_value_number : den ex_coords (fun b _ => Some (if String.eqb b "P" then 2 else if String.eqb b "S" then 1 else if String.eqb b "Y" then 5 else 3)%R)
  (fun _ => None) (fun i => if String.eqb i "r" then Some "south" else None) ex_eq = Some 7%R.
Proof. cbn. f_equal. lra. Qed.

(** Labels that are numerals: Sum(X[i]) over the labels 1, 0 becomes 2*X[0] or 2*X[1] *)
Theorem c47_numeral_labels_refuted :
  exists coords e v w g,
    (forall b l, In (b, l) (indexed_exprs e) -> l = [IVar "i"]) /\ den coords v w g e = Some 1%R /\
    forall sub_into set_order dict_order, walks_set set_order -> walks_set dict_order ->
      exists e' x, substitute_reduce_ops sub_into set_order dict_order coords e = Ok e' /\ den coords v w g e' = Some x /\ x <> 1%R.
Proof. exact @c47_numeral_labels_refuted__p. Qed.
Print Assumptions c47_numeral_labels_refuted.

(** A summand with an index fixed to a label raises *)
Theorem c47_fixed_index_refuted :
  exists coords e v w g x, plain_labels coords /\ den coords v w g e = Some x /\
    forall sub_into set_order dict_order, walks_set set_order -> walks_set dict_order ->
      substitute_reduce_ops sub_into set_order dict_order coords e = Err KeyError.
Proof. exact @c47_fixed_index_refuted__p. Qed.
Print Assumptions c47_fixed_index_refuted.

(** C48: no order of visiting expands Sum(Y[i] * Sum(Z[j])), whichever of sum
    and product the two reductions are, and whatever sympy's rule for
    substituting inside a reduction *)
Theorem c48_refuted :
  forall o1 o2, exists coords e v w g x,
    plain_labels coords /\ e = SRed o1 (SBin OMul (SIx "Y" [IVar "i"]) (SRed o2 (SIx "Z" [IVar "j"]) [("j", (0, 1))])) [("i", (0, 1))] /\
    den coords v w g e = Some x /\
    forall sub_into set_order dict_order, walks_set set_order -> walks_set dict_order ->
      ~ exists e', substitute_reduce_ops sub_into set_order dict_order coords e = Ok e' /\ no_reduction e' /\ no_position e'.
Proof. exact @c48_refuted__p. Qed.
Print Assumptions c48_refuted.
(** Inner first: the outer reduction stays; outer first: positions stay *)
Example c48_half : substitute_reduce_ops (fun _ _ => true) (fun l => rev (uniq sexpr_eqb l)) (uniq pair_eqb) nest_coords (nested RSum RSum) = Ok (half RSum RSum).
Proof. reflexivity. Qed.
Example c48_outer : substitute_reduce_ops sympy_rule (uniq sexpr_eqb) (uniq pair_eqb) nest_coords (nested RSum RSum) = Ok (outer_r RSum RSum).
Proof. reflexivity. Qed.
