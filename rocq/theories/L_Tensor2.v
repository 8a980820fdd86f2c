(** Lemmas for C82: equations and systems of array expressions. *)
From Coq Require Import Ascii Reals Lra Lia ZArith.
From Verif Require Import Py PyStr NdArray M_Primitives M_PyExpr M_Equations M_Tensor S_PyExpr S_Meaning S_Production S_Layout S_Tensor L_PyExpr L_Meaning L_Production6 L_Tensor.
Local Open Scope string_scope.
Local Open Scope list_scope.

Lemma literal_number w : literal w = number w.
Proof.
  assert (D : forall s acc, literal_digits acc s = digits acc s).
  { induction s as [|ch s IH]; intros acc; [reflexivity|]. cbn [literal_digits digits]. destruct (is_digit ch); [apply IH|reflexivity]. }
  destruct w; [reflexivity|]. apply D.
Qed.
Lemma number_not_none w k : number w = Some k -> String.eqb w "None" = false.
Proof. intros H. destruct (String.eqb_spec w "None") as [->|]; [discriminate|reflexivity]. Qed.

Section System.
Variable number_op : binop -> R -> R -> R.
Hypothesis arith : real_arithmetic number_op.
Variable c : coords.
Variable objs : list mobj.
Variable rho : valuation.
Variable cache : dict (arr R).
Hypothesis cached : forall o, In o objs -> exists a, dget (o_name o) cache = Some a /\ realizes c a (map Some (o_dims o)) (rho (o_name o)).

Lemma reducer_laws m f z : reducer m f z ->
  (forall x y w, f x (f y w) = f (f x y) w) /\ (forall x, f z x = x) /\ (forall x, f x z = x).
Proof. intros [(_ & -> & ->)|(_ & -> & ->)]; repeat split; intros; ring. Qed.

Lemma reads_realizes e A F : reads c objs rho e A F -> exists a, tensor_eval number_op cache e = Ok a /\ realizes c a A F.
Proof.
  induction 1 as [w n Hn|o Ho Hn Hp|op a b A B r F G Ha IHa Hb IHb J|a A F Ha IHa|a args A B F Ha IHa I|a w k d A F Ha IHa N Hw K
                 |a m f z w A d B F Ha IHa N Hw Rm|a m f z A F Ha IHa N Rm|a d F Ha IHa|a i j A B F Ha IHa N S].
  - cbn [tensor_eval]. rewrite literal_number, Hn. eexists. split; [reflexivity|]. split; [reflexivity|]. split; [reflexivity|]. intros ix v _ H. injection H as <-. reflexivity.
  - cbn [tensor_eval]. rewrite literal_number, Hn. destruct (String.eqb_spec (o_name o) "pt") as [E|]; [exfalso; apply Hp; left; congruence|].
    destruct (String.eqb_spec (o_name o) "None") as [E|]; [exfalso; apply Hp; right; left; congruence|]. cbn [orb].
    destruct (@cached o Ho) as (a & -> & R). eauto.
  - destruct IHa as (x & Ex & Rx). destruct IHb as (y & Ey & Ry). cbn [tensor_eval]. rewrite Ex, Ey. cbn [bind].
    exact (@elemwise_realizes c (number_op op) op x y A B r F G J Rx Ry (arith op)).
  - destruct IHa as (x & Ex & Sx & Wx & Vx). cbn [tensor_eval]. rewrite Ex. cbn [bind]. eexists. split; [reflexivity|]. split; [exact Sx|].
    split; [unfold arr_wf; cbn; rewrite map_length; exact Wx|]. intros ix v W H. destruct (F ix) as [u|] eqn:Fu; [|discriminate]. injection H as <-.
    specialize (Vx ix u W Fu). unfold aget in *. cbn [ashape adata]. destruct (in_rangeb (ashape x) (map (position ix) A)); [|discriminate].
    rewrite nth_error_map. destruct (nth_error (adata x) _); [|discriminate]. cbn. congruence.
  - destruct IHa as (x & Ex & Rx). cbn [tensor_eval]. rewrite Ex. cbn [bind]. destruct (@inserted_items c args A B I) as (items & -> & S & W & X). cbn [bind].
    apply (@index_realizes c items x A B F F Rx S). intros ix v Wi Fv. exists ix. auto.
  - destruct IHa as (x & Ex & Rx). cbn [tensor_eval]. rewrite Ex. cbn [bind index_items]. rewrite (@number_not_none _ _ Hw), literal_number, Hw. cbn [bind].
    apply (@index_realizes c [IAt k] x (Some d :: A) A F _ Rx).
    + cbn [map axis_size index_shape]. destruct (Nat.ltb_spec k (size c d)); [|lia]. now destruct (map (axis_size c) A).
    + intros ix v Wi Fv. exists (upd ix d k). split; [|split; [|exact Fv]].
      * intros e [E|I]; [injection E as <-; rewrite upd_same; exact K|]. now apply (@within_upd c ix d k A N Wi).
      * cbn [map position]. rewrite upd_same, position_upd by exact N. now destruct (map (position ix) A).
  - destruct IHa as (x & Ex & Rx). destruct (@reduce_axis_realizes c f z x A d B F Rx N) as (y & Ey & Ry). exists y. split; [|exact Ry].
    cbn [tensor_eval]. rewrite Ex. cbn [bind]. destruct Rm as [(-> & -> & ->)|(-> & -> & ->)]; cbn [String.eqb Ascii.eqb Bool.eqb]; unfold reduce;
      cbn [String.eqb Ascii.eqb Bool.eqb]; rewrite literal_number, Hw; exact Ey.
  - destruct IHa as (x & Ex & Rx). destruct (reducer_laws Rm) as (L1 & L2 & L3). pose proof (@reduce_all_realizes c f z L1 L2 L3 x A F Rx N) as Ry. eexists. split; [|exact Ry].
    cbn [tensor_eval]. rewrite Ex. cbn [bind]. destruct Rm as [(-> & -> & ->)|(-> & -> & ->)]; reflexivity.
  - destruct IHa as (x & Ex & Sx & Wx & Vx). cbn [tensor_eval]. rewrite Ex. cbn [bind]. cbn [String.eqb Ascii.eqb Bool.eqb]. eexists. split; [reflexivity|].
    assert (L : length (adata x) = size c d) by (rewrite Wx, Sx; cbn; lia). destruct x as [sx dx]. cbn in Sx, L. subst sx. unfold ravel_array. cbn [adata]. rewrite L.
    split; [reflexivity|]. split; [exact Wx|exact Vx].
  - destruct IHa as (x & Ex & Sx & Wx & Vx). exists x. split; [exact Ex|]. split; [rewrite Sx, !map_app; cbn [map axis_size]; now rewrite S|]. split; [exact Wx|].
    intros ix v W Fv. assert (NA : ~ In (Some i) A) by (intros Q; apply N, in_or_app; now left). assert (NB : ~ In (Some i) B) by (intros Q; apply N, in_or_app; now right).
    apply within_app in W as (WA & WB). rewrite <- (Vx (upd ix i (ix j)) v); [|apply within_app; split; [now apply within_upd|]|exact Fv].
    + rewrite !map_app. cbn [map position]. rewrite upd_same, !position_upd by assumption. reflexivity.
    + intros e [E|Q]; [injection E as <-; rewrite upd_same, S; apply WB; now left|]. refine (@within_upd c ix i (ix j) B NB _ e Q). intros e' Q'. apply WB. now right.
Qed.

(** ** Equations *)
Lemma equation_block s dims F : equation_reads c objs rho s dims F -> defined_on c dims F ->
  exists a, eval_equation number_op cache s = Ok a /\ arr_wf a /\ ashape a = map (size c) dims /\ block_of c dims F (adata a).
Proof.
  intros (lhs & rhs & el & er & -> & Oa & Ea & Hl & Hr & N & Rd) D. unfold eval_equation. rewrite (proj1 (@c54_difference__p lhs rhs el er Hl Hr Oa Ea)).
  destruct (reads_realizes Rd) as (a & Ha & Sa & Wa & Va). exists a. rewrite map_map in Sa. cbn [axis_size] in Sa.
  split; [exact Ha|]. split; [exact Wa|]. split; [exact Sa|]. split; [now rewrite Wa, Sa|]. intros ix W.
  destruct (F ix) as [v|] eqn:Fv; [|exfalso; now apply (D ix W)].
  assert (W' : within c ix (map Some dims)) by (intros d I; apply in_map_iff in I as (d' & E & I); injection E as ->; now apply W).
  specialize (Va ix v W' Fv). unfold aget in Va. rewrite map_map in Va. cbn [position] in Va. rewrite Sa in Va.
  destruct (in_rangeb _ _); [|discriminate]. destruct (nth_error (adata a) _); congruence.
Qed.
End System.

(** ** Systems *)
Lemma dget_combine_nth {V} names (xs : list V) j n r : NoDup names -> nth_error names j = Some n -> nth_error xs j = Some r -> dget n (combine names xs) = Some r.
Proof.
  revert xs j. induction names as [|m names IH]; intros [|x xs] [|j] N E1 E2; try discriminate; cbn in E1, E2; cbn [combine dget].
  - injection E1 as ->. injection E2 as ->. now rewrite String.eqb_refl.
  - inversion N as [|? ? Nm Nn]; subst. destruct (String.eqb_spec n m) as [->|]; [exfalso; apply Nm; eapply nth_error_In; eauto|now apply IH with j].
Qed.
Lemma map_fst_combine_ {A B} (l : list A) (m : list B) : length m = length l -> map fst (combine l m) = l.
Proof. revert m. induction l as [|x l IH]; intros [|y m] L; try discriminate; [reflexivity|]. cbn. f_equal. apply IH. simpl in L. lia. Qed.
Lemma map_res_pair {A B} (g : A -> string) (f : A -> res (string * B)) l : (forall x, In x l -> exists v, f x = Ok (g x, v)) ->
  exists vs, map_res f l = Ok (combine (map g l) vs) /\ length vs = length l /\ forall k x, nth_error l k = Some x -> exists v, f x = Ok (g x, v) /\ nth_error vs k = Some v.
Proof.
  induction l as [|x l IH]; intros H; [exists []; repeat split; intros [|]; discriminate|].
  destruct (H x (or_introl eq_refl)) as (v & Ev). destruct IH as (vs & E & L & N); [intros; apply H; now right|].
  exists (v :: vs). cbn [map_res map combine]. rewrite Ev. cbn [bind]. rewrite E. cbn [bind]. repeat split; [simpl; congruence|].
  intros [|k] y Hy; cbn in Hy; [injection Hy as <-; exists v; auto|]. now apply N.
Qed.
Lemma object_shape_ok c o shape : has_shape c o shape -> object_shape c o = Ok shape /\ shape = map (size c) (o_dims o).
Proof.
  unfold has_shape, object_shape. induction 1 as [|d n ds ns (ls & E & L) H (I1 & I2)]; [split; reflexivity|].
  cbn [map_res map]. unfold dgetitem at 1. rewrite E. cbn [bind]. rewrite I1. cbn [bind]. split; [congruence|]. f_equal; [|exact I2]. unfold size. now rewrite E.
Qed.
Lemma tensor_inputs_ok c objs data : given c objs data -> exists inputs, tensor_inputs c objs data = Ok inputs /\
  forall o, In o objs -> exists a, dget (o_name o) (dict_of_list inputs) = Some a /\ realizes c a (map Some (o_dims o)) (array_values objs data (o_name o)).
Proof.
  intros (N & H). unfold tensor_inputs.
  set (f := fun o => let* s := object_shape c o in let* a := dgetitem (o_name o) data in if list_eq_dec Nat.eq_dec (ashape a) s then Ok (o_name o, a) else Err TypeError).
  assert (Hf : forall o, In o objs -> exists a, f o = Ok (o_name o, a) /\ dget (o_name o) data = Some a /\ fits c o a).
  { intros o Ho. destruct (H o Ho) as (a & Da & Fa). exists a. split; [|auto]. unfold f. destruct Fa as (_ & S). destruct (object_shape_ok S) as (-> & _). cbn [bind].
    unfold dgetitem. rewrite Da. cbn [bind]. destruct (list_eq_dec Nat.eq_dec (ashape a) (ashape a)); [reflexivity|contradiction]. }
  destruct (@map_res_pair _ _ o_name f objs) as (vs & E & L & Nth); [intros o Ho; destruct (Hf o Ho) as (a & Ea & _); eauto|].
  exists (combine (map o_name objs) vs). split; [exact E|]. intros o Ho. destruct (Hf o Ho) as (a & Ea & Da & Wa & Sa). exists a. split.
  - apply In_nth_error in Ho as (k & Hk). destruct (Nth k o Hk) as (v & Ev & Kv). assert (v = a) by congruence. subst v.
    rewrite dict_of_list_NoDup by (rewrite map_fst_combine_; [exact N|rewrite map_length; exact L]).
    apply dget_combine_nth with k; [exact N|rewrite nth_error_map, Hk; reflexivity|exact Kv].
  - destruct (object_shape_ok Sa) as (_ & S2). split; [rewrite map_map; exact S2|]. split; [exact Wa|]. intros ix v W. unfold array_values.
    assert (Fo : find (fun o' => String.eqb (o_name o') (o_name o)) objs = Some o).
    { clear - N Ho. induction objs as [|x l IH]; [destruct Ho|]. cbn [find]. inversion N as [|? ? Nx Nl]; subst. destruct Ho as [->|Ho]; [now rewrite String.eqb_refl|].
      destruct (String.eqb_spec (o_name x) (o_name o)) as [Q|]; [|now apply IH]. exfalso. apply Nx. rewrite Q. now apply in_map. }
    rewrite Fo, Da, map_map. cbn [position]. destruct (aget a (map ix (o_dims o))); congruence.
Qed.

Lemma c82_system__p :
  forall number_op c objs data equations names readings, real_arithmetic number_op -> given c objs data ->
    Forall2 (fun s r => equation_reads c objs (array_values objs data) s (fst r) (snd r) /\ defined_on c (fst r) (snd r)) equations readings ->
    length names = list_sum (map (fun r => prodn (map (size c) (fst r))) readings) ->
    exists blocks, pytensor_system number_op c objs equations names data = Ok (List.concat blocks) /\
      Forall2 (fun r block => block_of c (fst r) (snd r) block) readings blocks.
Proof.
  intros number_op c objs data equations names readings Ar G H L. destruct (tensor_inputs_ok G) as (inputs & Ei & Hi). unfold pytensor_system. rewrite Ei. cbn [bind].
  assert (B : exists arrays, map_res (eval_equation number_op (dict_of_list inputs)) equations = Ok arrays /\
            Forall2 (fun r block => block_of c (fst r) (snd r) block) readings (map (@adata R) arrays)).
  { clear L. induction H as [|s r eqs rs (Hs & Ds) H (arrays & E & F)]; [exists []; split; [reflexivity|constructor]|].
    destruct (@equation_block number_op Ar c objs (array_values objs data) (dict_of_list inputs) Hi _ _ _ Hs Ds) as (a & Ea & _ & _ & Ba). exists (a :: arrays). cbn [map_res map]. rewrite Ea. cbn [bind]. rewrite E. split; [reflexivity|]. constructor; assumption. }
  destruct B as (arrays & -> & F). cbn [bind]. exists (map (@adata R) arrays). split; [|exact F]. unfold residuals_pytensor.
  assert (length (List.concat (map (@adata R) arrays)) = length names) as ->; [|now rewrite Nat.eqb_refl].
  rewrite L. clear - F. induction F as [|r b rs bs (Hb & _) F IH]; [reflexivity|]. cbn [List.concat map list_sum fold_right]. rewrite app_length, IH, Hb. reflexivity.
Qed.
