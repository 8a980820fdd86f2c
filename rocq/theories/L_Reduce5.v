(** Refutations for C47 and C48. *)
From Coq Require Import Reals Lra.
From Verif Require Import Py PyStr M_SymExpr S_Reduce L_Reduce.
Local Open Scope string_scope.
Local Open Scope list_scope.

Lemma walks0 {A} (f : list A -> list A) : walks_set f -> f [] = [].
Proof. intros W. destruct (W []) as (_ & H). destruct (f []) as [|x l]; auto. exfalso. apply (H x). now left. Qed.
Lemma walks_same {A} (f : list A -> list A) l x : walks_set f -> l <> [] -> (forall y, In y l -> y = x) -> f l = [x].
Proof.
  intros W N S. destruct (W l) as (D & H). destruct l as [|y l]; [tauto|]. assert (y = x) by (apply S; now left). subst.
  assert (X : forall y, In y (f (x :: l)) -> y = x) by (intros y Y; apply S; now apply H).
  assert (I : In x (f (x :: l))) by (apply H; now left). destruct (f (x :: l)) as [|a [|b m]]; [easy|f_equal; apply X; now left|].
  exfalso. inversion D; subst. apply H2. assert (a = x) by (apply X; now left). assert (b = x) by (apply X; cbn; auto). subst. now left.
Qed.
Lemma walks2 {A} (f : list A -> list A) x y : walks_set f -> x <> y -> f [x; y] = [x; y] \/ f [x; y] = [y; x].
Proof.
  intros W N. destruct (W [x; y]) as (D & H).
  assert (Hx : In x (f [x; y])) by (apply H; cbn; auto). assert (Hy : In y (f [x; y])) by (apply H; cbn; auto).
  assert (HH : forall z, In z (f [x; y]) -> x = z \/ y = z) by (intros z Z; apply H in Z; cbn in Z; tauto).
  destruct (f [x; y]) as [|a [|b [|c m]]]; [easy| | |].
  - destruct Hx as [E|[]], Hy as [E'|[]]; congruence.
  - cbn in Hx, Hy. assert (a <> b) by (intros ->; inversion D as [|? ? D1 D2]; apply D1; now left).
    destruct (HH a (or_introl eq_refl)) as [E|E], (HH b (or_intror (or_introl eq_refl))) as [E'|E']; subst; auto; tauto.
  - exfalso. inversion D as [|? ? D1 D2]; subst. inversion D2 as [|? ? D3 D4]; subst. cbn in D1, D3.
    destruct (HH a (or_introl eq_refl)), (HH b (or_intror (or_introl eq_refl))), (HH c (or_intror (or_intror (or_introl eq_refl)))); subst; tauto.
Qed.

(** Labels that are numerals *)
Definition num_coords : dict (list string) := [("i", ["1"; "0"])].
Definition num_eq : sexpr := SRed RSum (SIx "X" [IVar "i"]) [("i", (0, 1))].
Definition num_v : elements := fun _ ls => match ls with [l] => if String.eqb l "1" then Some 1%R else if String.eqb l "0" then Some 0%R else None | _ => None end.

Lemma c47_numeral_labels_refuted__p :
  exists coords e v w g,
    (forall b l, In (b, l) (indexed_exprs e) -> l = [IVar "i"]) /\ den coords v w g e = Some 1%R /\
    forall sub_into set_order dict_order, walks_set set_order -> walks_set dict_order ->
      exists e' x, substitute_reduce_ops sub_into set_order dict_order coords e = Ok e' /\ den coords v w g e' = Some x /\ x <> 1%R.
Proof.
  exists num_coords, num_eq, num_v, (fun _ => None), (fun _ => None). split; [|split].
  - cbn. intros b l [E|[]]. now injection E.
  - cbn. f_equal. lra.
  - intros si so dor SO DO. unfold substitute_reduce_ops. cbn [fold_res bind]. unfold substitute_op.
    change (find_ops RSum num_eq) with [num_eq]. rewrite (@walks_same _ so [num_eq] num_eq SO); [|discriminate|intros y [<-|[]]; reflexivity].
    cbn [fold_res bind]. unfold expand_op, num_eq at 1. cbn [indexed_exprs fold_res].
    change (make_sub_dict num_coords ("X", [IVar "i"]) (map fst [("i", (0, 1))])) with
      (Ok [(SIx "X" [IPos 0], SIx "X" [IPos 1]); (SIx "X" [IPos 1], SIx "X" [IPos 0])]).
    cbn [bind fold_res]. unfold subs.
    destruct (@walks2 _ dor (SIx "X" [IPos 0], SIx "X" [IPos 1]) (SIx "X" [IPos 1], SIx "X" [IPos 0]) DO) as [-> | ->]; [discriminate| |].
    + replace (subs1 si num_eq _ num_eq) with (SBin OAdd (SIx "X" [IPos 0]) (SBin OAdd (SIx "X" [IPos 0]) (SNum 0))) by reflexivity.
      cbn [bind]. change (find_ops RProd _) with (@nil sexpr). rewrite (walks0 SO). cbn [fold_res bind].
      eexists _, (0 + (0 + 0))%R. split; [reflexivity|]. split; [reflexivity|lra].
    + replace (subs1 si num_eq _ num_eq) with (SBin OAdd (SIx "X" [IPos 1]) (SBin OAdd (SIx "X" [IPos 1]) (SNum 0))) by reflexivity.
      cbn [bind]. change (find_ops RProd _) with (@nil sexpr). rewrite (walks0 SO). cbn [fold_res bind].
      eexists _, (1 + (1 + 0))%R. split; [reflexivity|]. split; [reflexivity|lra].
Qed.

(** A fixed label inside a reduction *)
Lemma c47_fixed_index_refuted__p :
  exists coords e v w g x, plain_labels coords /\ den coords v w g e = Some x /\
    forall sub_into set_order dict_order, walks_set set_order -> walks_set dict_order ->
      substitute_reduce_ops sub_into set_order dict_order coords e = Err KeyError.
Proof.
  exists [("i", ["a"; "b"]); ("j", ["c"])], (SRed RSum (SIx "X" [ILab "a"; IVar "j"]) [("j", (0, 0))]), (fun _ _ => Some 2%R), (fun _ => None), (fun _ => None), 2%R.
  split; [|split].
  - intros i ls H. cbn in H. destruct (String.eqb i "i"); [injection H as <-; split; [discriminate|repeat constructor]|].
    destruct (String.eqb i "j"); [injection H as <-; split; [discriminate|repeat constructor]|discriminate].
  - cbn. f_equal. lra.
  - intros si so dor SO DO. unfold substitute_reduce_ops. cbn [fold_res bind]. unfold substitute_op. cbn [find_ops rop_eqb].
    rewrite (@walks_same _ so [SRed RSum (SIx "X" [ILab "a"; IVar "j"]) [("j", (0, 0))]] (SRed RSum (SIx "X" [ILab "a"; IVar "j"]) [("j", (0, 0))]) SO); [reflexivity|discriminate|].
    intros y [<-|[]]; reflexivity.
Qed.

(** * Nested reductions *)
Definition nest_coords : dict (list string) := [("i", ["a"; "b"]); ("j", ["c"; "d"])].
Definition inner (o : rop) : sexpr := SRed o (SIx "Z" [IVar "j"]) [("j", (0, 1))].
Definition nested (o1 o2 : rop) : sexpr := SRed o1 (SBin OMul (SIx "Y" [IVar "i"]) (inner o2)) [("i", (0, 1))].

(** The expansion of the inner reduction *)
Definition inner_r (o : rop) : sexpr := SBin (rop_bin o) (SIx "Z" [ILab "c"]) (SBin (rop_bin o) (SIx "Z" [ILab "d"]) (rop_unit o)).
Lemma expand_inner si dor o : walks_set dor -> expand_op si dor nest_coords (inner o) = Ok (inner_r o).
Proof.
  intros W. unfold expand_op, inner. cbn [indexed_exprs fold_res].
  change (make_sub_dict nest_coords ("Z", [IVar "j"]) (map fst [("j", (0, 1))])) with
      (Ok [(SIx "Z" [IPos 0], SIx "Z" [ILab "c"]); (SIx "Z" [IPos 1], SIx "Z" [ILab "d"])]).
  cbn [bind]. unfold subs. destruct (@walks2 _ dor (SIx "Z" [IPos 0], SIx "Z" [ILab "c"]) (SIx "Z" [IPos 1], SIx "Z" [ILab "d"]) W) as [-> | ->]; [discriminate| |];
    destruct o; reflexivity.
Qed.

(** The expansion of the outer one keeps the inner positions *)
Definition outer_r (o1 o2 : rop) : sexpr :=
  let z := SBin (rop_bin o2) (SIx "Z" [IPos 0]) (SBin (rop_bin o2) (SIx "Z" [IPos 1]) (rop_unit o2)) in
  SBin (rop_bin o1) (SBin OMul (SIx "Y" [ILab "a"]) z) (SBin (rop_bin o1) (SBin OMul (SIx "Y" [ILab "b"]) z) (rop_unit o1)).
Lemma expand_outer si dor o1 o2 : walks_set dor -> expand_op si dor nest_coords (nested o1 o2) = Ok (outer_r o1 o2).
Proof.
  intros W. unfold expand_op, nested, inner. cbn [indexed_exprs fold_res app].
  change (make_sub_dict nest_coords ("Y", [IVar "i"]) (map fst [("i", (0, 1))])) with
      (Ok [(SIx "Y" [IPos 0], SIx "Y" [ILab "a"]); (SIx "Y" [IPos 1], SIx "Y" [ILab "b"])]).
  change (make_sub_dict nest_coords ("Z", [IVar "j"]) (map fst [("i", (0, 1))])) with
      (Ok [(SIx "Z" [IVar "j"], SIx "Z" [IVar "j"]); (SIx "Z" [IVar "j"], SIx "Z" [IVar "j"])]).
  cbn [bind]. unfold subs. rewrite (@walks_same _ dor [(SIx "Z" [IVar "j"], SIx "Z" [IVar "j"]); (SIx "Z" [IVar "j"], SIx "Z" [IVar "j"])] (SIx "Z" [IVar "j"], SIx "Z" [IVar "j"]) W);
    [|discriminate|intros y [<-|[<-|[]]]; reflexivity].
  destruct (@walks2 _ dor (SIx "Y" [IPos 0], SIx "Y" [ILab "a"]) (SIx "Y" [IPos 1], SIx "Y" [ILab "b"]) W) as [-> | ->]; [discriminate| |];
    destruct o1, o2; reflexivity.
Qed.

Definition clean (e : sexpr) : Prop := no_reduction e /\ no_position e.
Lemma outer_unclean o1 o2 : ~ clean (outer_r o1 o2).
Proof. intros (_ & H). destruct o1, o2; cbn in H; destruct H as ((_ & (H & _)) & _); apply (H 0); now left. Qed.

Lemma subs_inner_into si o1 o2 r : subs1 si (inner o2) r (nested o1 o2) =
  if si (inner o2) ["i"] then SRed o1 (SBin OMul (SIx "Y" [IVar "i"]) r) [("i", (0, 1))] else nested o1 o2.
Proof. destruct o1, o2; cbn; destruct (si _ ["i"]); reflexivity. Qed.
Lemma subs_outer si o1 o2 r : subs1 si (nested o1 o2) r (nested o1 o2) = r.
Proof. destruct o1, o2; reflexivity. Qed.
(** After the inner reduction has been replaced, the outer one is no longer found *)
Lemma subs_outer_gone si o1 o2 r : subs1 si (nested o1 o2) r (SRed o1 (SBin OMul (SIx "Y" [IVar "i"]) (inner_r o2)) [("i", (0, 1))]) =
  SRed o1 (SBin OMul (SIx "Y" [IVar "i"]) (inner_r o2)) [("i", (0, 1))].
Proof. destruct o1, o2; cbn; destruct (si _ ["i"]); reflexivity. Qed.
Lemma subs_inner_gone si o1 o2 p r : subs1 si (inner p) r (outer_r o1 o2) = outer_r o1 o2.
Proof. destruct o1, o2, p; reflexivity. Qed.

Lemma walk_nil so si dor o e : walks_set so -> find_ops o e = [] -> substitute_op si so dor nest_coords e o = Ok e.
Proof. intros W E. unfold substitute_op. rewrite E, (walks0 W); auto. Qed.

Definition half (o1 o2 : rop) : sexpr := SRed o1 (SBin OMul (SIx "Y" [IVar "i"]) (inner_r o2)) [("i", (0, 1))].
Lemma half_unclean o1 o2 : ~ clean (half o1 o2). Proof. intros (H & _). exact H. Qed.

(** Both reductions of the same kind, in either order *)
Lemma same_kind si so dor o : walks_set so -> walks_set dor ->
  exists e', substitute_op si so dor nest_coords (nested o o) o = Ok e' /\ (e' = outer_r o o \/ e' = half o o).
Proof.
  intros SO DO. unfold substitute_op. replace (find_ops o (nested o o)) with [nested o o; inner o] by now destruct o.
  destruct (@walks2 _ so (nested o o) (inner o) SO) as [-> | ->]; [discriminate| |]; cbn [fold_res].
  - rewrite expand_outer by auto. cbn [bind]. rewrite subs_outer, expand_inner by auto. cbn [bind]. rewrite subs_inner_gone. eauto.
  - rewrite expand_inner by auto. cbn [bind]. rewrite expand_outer by auto. cbn [bind]. rewrite subs_inner_into.
    destruct (si (inner o) ["i"]); [rewrite subs_outer_gone; eauto|rewrite subs_outer; eauto].
Qed.

Lemma c48_refuted__p :
  forall o1 o2, exists coords e v w g x,
    plain_labels coords /\ e = SRed o1 (SBin OMul (SIx "Y" [IVar "i"]) (SRed o2 (SIx "Z" [IVar "j"]) [("j", (0, 1))])) [("i", (0, 1))] /\
    den coords v w g e = Some x /\
    forall sub_into set_order dict_order, walks_set set_order -> walks_set dict_order ->
      ~ exists e', substitute_reduce_ops sub_into set_order dict_order coords e = Ok e' /\ no_reduction e' /\ no_position e'.
Proof.
  intros o1 o2. exists nest_coords, (nested o1 o2), (fun _ _ => Some 2%R), (fun _ => None), (fun _ => None).
  eexists. split; [|split; [reflexivity|split; [destruct o1, o2; reflexivity|]]].
  { intros i ls H. cbn in H. destruct (String.eqb i "i"); [injection H as <-; split; [discriminate|repeat constructor]|].
    destruct (String.eqb i "j"); [injection H as <-; split; [discriminate|repeat constructor]|discriminate]. }
  intros si so dor SO DO (e' & H & R & P). assert (C : clean e') by (split; auto). clear R P. revert H.
  unfold substitute_reduce_ops. cbn [fold_res].
  destruct o1, o2.
  - destruct (same_kind si RSum SO DO) as (e1 & -> & E). cbn [bind]. rewrite walk_nil by (auto; destruct E; subst; reflexivity). cbn [bind].
    intros H. injection H as <-. destruct E; subst; [now apply outer_unclean in C|now apply half_unclean in C].
  - unfold substitute_op at 1. change (find_ops RSum (nested RSum RProd)) with [nested RSum RProd].
    rewrite (@walks_same _ so [nested RSum RProd] (nested RSum RProd) SO); [|discriminate|intros y [<-|[]]; reflexivity]. cbn [fold_res].
    rewrite expand_outer by auto. cbn [bind]. rewrite subs_outer. rewrite walk_nil by (auto; reflexivity). cbn [bind].
    intros H. injection H as <-. now apply outer_unclean in C.
  - unfold substitute_op at 1. change (find_ops RSum (nested RProd RSum)) with [inner RSum].
    rewrite (@walks_same _ so [inner RSum] (inner RSum) SO); [|discriminate|intros y [<-|[]]; reflexivity]. cbn [fold_res].
    rewrite expand_inner by auto. cbn [bind]. rewrite subs_inner_into. destruct (si (inner RSum) ["i"]).
    + unfold substitute_op. change (find_ops RProd _) with [half RProd RSum].
      rewrite (@walks_same _ so [half RProd RSum] (half RProd RSum) SO); [|discriminate|intros y [<-|[]]; reflexivity]. cbn [fold_res].
      unfold expand_op, half. cbn [indexed_exprs app fold_res inner_r].
      change (make_sub_dict nest_coords ("Y", [IVar "i"]) (map fst [("i", (0, 1))])) with
        (Ok [(SIx "Y" [IPos 0], SIx "Y" [ILab "a"]); (SIx "Y" [IPos 1], SIx "Y" [ILab "b"])]). cbn [bind].
      change (make_sub_dict nest_coords ("Z", [ILab "c"]) (map fst [("i", (0, 1))])) with (@Err (list (sexpr * sexpr)) KeyError). cbn [bind]. discriminate.
    + unfold substitute_op. change (find_ops RProd _) with [nested RProd RSum].
      rewrite (@walks_same _ so [nested RProd RSum] (nested RProd RSum) SO); [|discriminate|intros y [<-|[]]; reflexivity]. cbn [fold_res].
      rewrite expand_outer by auto. cbn [bind]. rewrite subs_outer. intros H. injection H as <-. now apply outer_unclean in C.
  - rewrite walk_nil by (auto; reflexivity). cbn [bind]. destruct (same_kind si RProd SO DO) as (e1 & -> & E). cbn [bind].
    intros H. injection H as <-. destruct E; subst; [now apply outer_unclean in C|now apply half_unclean in C].
Qed.

(** * Walks that exist *)
Fixpoint uniq {A} (eqb : A -> A -> bool) (l : list A) : list A :=
  match l with [] => [] | x :: l' => if existsb (eqb x) l' then uniq eqb l' else x :: uniq eqb l' end.
Lemma uniq_walks {A} (eqb : A -> A -> bool) : (forall a b, eqb a b = true <-> a = b) -> walks_set (uniq eqb).
Proof.
  intros E l. assert (I : forall x, In x (uniq eqb l) <-> In x l).
  { induction l as [|a l IH]; cbn; [tauto|]. intros x. destruct (existsb (eqb a) l) eqn:X; cbn; rewrite IH; [|tauto].
    split; [auto|]. intros [<-|H]; auto. apply existsb_exists in X as (y & Y & Q). apply E in Q. now subst. }
  split; auto. clear I. induction l as [|a l IH]; cbn; [constructor|]. destruct (existsb (eqb a) l) eqn:X; auto. constructor; auto. intros H.
  assert (G : In a l). { revert H. clear. induction l as [|b l IH]; cbn; auto. destruct (existsb (eqb b) l); cbn; tauto. }
  assert (existsb (eqb a) l = true); [|congruence]. apply existsb_exists. exists a. split; auto. now apply E.
Qed.
Definition pair_eqb (p q : sexpr * sexpr) : bool := (sexpr_eqb (fst p) (fst q) && sexpr_eqb (snd p) (snd q))%bool.
Lemma pair_eqb_eq p q : pair_eqb p q = true <-> p = q.
Proof.
  destruct p, q. unfold pair_eqb. cbn. rewrite andb_true_iff, !sexpr_eqb_eq. split; [intros (-> & ->); auto|intros H; injection H; auto].
Qed.
