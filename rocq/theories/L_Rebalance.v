(** Lemmas for C61-C64. *)
From Coq Require Import Reals Lra.
From Verif Require Import Py PyStr NdArray M_Euler M_Newton M_Rebalance S_Euler S_Rebalance L_Utilities L_Wrappers L_Euler L_Euler3 L_Newton.
Local Open Scope string_scope.
Local Open Scope list_scope.

(** ** Sums *)
Lemma sumR_app a b : sumR (a ++ b) = (sumR a + sumR b)%R.
Proof. unfold sumR. induction a; simpl; [lra|]. rewrite IHa. lra. Qed.
Lemma sumR_map_add {A} (f g : A -> R) l : sumR (map (fun x => f x + g x)%R l) = (sumR (map f l) + sumR (map g l))%R.
Proof. unfold sumR. induction l; simpl; [lra|]. rewrite IHl. lra. Qed.
Lemma sumR_map_sub {A} (f g : A -> R) l : sumR (map (fun x => f x - g x)%R l) = (sumR (map f l) - sumR (map g l))%R.
Proof. unfold sumR. induction l; simpl; [lra|]. rewrite IHl. lra. Qed.
Lemma sumR_map_mul {A} (f : A -> R) k l : sumR (map (fun x => f x * k)%R l) = (sumR (map f l) * k)%R.
Proof. unfold sumR. induction l; simpl; [lra|]. rewrite IHl. lra. Qed.
Lemma sumR_swap {A B} (f : A -> B -> R) la lb :
  sumR (map (fun a => sumR (map (f a) lb)) la) = sumR (map (fun b => sumR (map (fun a => f a b) la)) lb).
Proof.
  induction la as [|a la IH].
  - simpl. induction lb; simpl; [reflexivity|]. rewrite <- IHlb. unfold sumR. simpl. lra.
  - change (sumR (map (fun a => sumR (map (f a) lb)) (a :: la))) with (sumR (map (f a) lb) + sumR (map (fun a => sumR (map (f a) lb)) la))%R.
    rewrite IH, <- sumR_map_add. reflexivity.
Qed.

Lemma fit_scale s : t_scale (fit s) = grand_total s.
Proof. unfold fit, grand_total, row_total. cbn [t_scale]. change (fold_right Rplus 0%R) with sumR. now rewrite <- sumR_swap. Qed.

(** ** The moves *)
Definition peqb (p q : string * string) : bool := String.eqb (fst p) (fst q) && String.eqb (snd p) (snd q).
Lemma peqb_spec p q : peqb p q = true <-> p = q.
Proof.
  unfold peqb. rewrite andb_true_iff, !String.eqb_eq. destruct p, q; simpl. split; [intros (-> & ->)|intros [= -> ->]]; auto.
Qed.
Lemma peqb_refl p : peqb p p = true.
Proof. now apply peqb_spec. Qed.
Definition inb (p : string * string) (l : list (string * string)) : bool := existsb (peqb p) l.
Lemma inb_spec p l : inb p l = true <-> In p l.
Proof.
  unfold inb. rewrite existsb_exists. split.
  - intros (q & H & E). apply peqb_spec in E. now subst.
  - intros H. exists p. split; auto. apply peqb_refl.
Qed.
Lemma inb_false p l : inb p l = false <-> ~ In p l.
Proof. rewrite <- inb_spec. destruct (inb p l); split; congruence || auto. Qed.

Lemma set_cell_eq f r c v i j : set_cell f r c v i j = if peqb (i, j) (r, c) then v else f i j.
Proof. reflexivity. Qed.

Definition one_way (L : list (string * string)) : Prop := forall r c, In (r, c) L -> r <> c -> ~ In (c, r) L.

Lemma peqb_swap i j r c : peqb (i, j) (c, r) = peqb (j, i) (r, c).
Proof. unfold peqb. simpl. apply andb_comm. Qed.

Lemma moves_to L : NoDup L -> one_way L -> forall f i j,
  fold_left move_to L f i j = if inb (i, j) L then 0%R else if inb (j, i) L then (- f j i)%R else f i j.
Proof.
  induction L as [|(r & c) L IH]; intros N O f i j; [reflexivity|].
  inversion N as [|x l Hx Hn E1]; subst. cbn [fold_left].
  rewrite IH; auto.
  2:{ intros a b Ha Hab Hb. apply (O a b); auto; now right. }
  unfold inb. cbn [existsb]. fold (inb (i, j) L). fold (inb (j, i) L).
  unfold move_to. rewrite !set_cell_eq. rewrite (peqb_swap j i r c), (peqb_swap i j r c).
  destruct (inb (i, j) L) eqn:E1; [now rewrite orb_true_r|]. rewrite orb_false_r.
  destruct (peqb (i, j) (r, c)) eqn:E2.
  - apply peqb_spec in E2. injection E2 as -> ->. destruct (inb (c, r) L) eqn:E3; [|reflexivity].
    apply inb_spec in E3. destruct (String.eqb_spec r c) as [->|Hne].
    + now destruct Hx.
    + exfalso. apply (O r c); auto; [now left|now right].
  - destruct (inb (j, i) L) eqn:E3.
    + rewrite orb_true_r. destruct (peqb (j, i) (r, c)) eqn:E4; [|reflexivity].
      apply peqb_spec in E4. injection E4 as -> ->. apply inb_spec in E3. contradiction.
    + rewrite orb_false_r. destruct (peqb (j, i) (r, c)) eqn:E4; [|reflexivity].
      apply peqb_spec in E4. injection E4 as -> ->. reflexivity.
Qed.

Lemma moves_back L : NoDup L -> one_way L -> forall f i j,
  fold_left move_back L f i j =
  if inb (i, j) L then (if String.eqb i j then 0%R else - f j i)%R else if inb (j, i) L then 0%R else f i j.
Proof.
  induction L as [|(r & c) L IH]; intros N O f i j; [reflexivity|].
  inversion N as [|x l Hx Hn E1]; subst. cbn [fold_left].
  rewrite IH; auto.
  2:{ intros a b Ha Hab Hb. apply (O a b); auto; now right. }
  unfold inb. cbn [existsb]. fold (inb (i, j) L). fold (inb (j, i) L).
  unfold move_back. rewrite !set_cell_eq. rewrite (peqb_swap j i r c), (peqb_swap i j r c).
  destruct (inb (i, j) L) eqn:E1.
  - rewrite orb_true_r. destruct (String.eqb_spec i j) as [->|Hne]; [reflexivity|].
    destruct (peqb (i, j) (r, c)) eqn:E2.
    { apply peqb_spec in E2. injection E2 as -> ->. apply inb_spec in E1. contradiction. }
    destruct (peqb (j, i) (r, c)) eqn:E3; [|reflexivity].
    apply peqb_spec in E3. injection E3 as -> ->. apply inb_spec in E1. exfalso. apply (O r c); [now left|congruence|now right].
  - rewrite orb_false_r. destruct (inb (j, i) L) eqn:E2.
    + rewrite orb_true_r. destruct (peqb (i, j) (r, c)) eqn:E3; [|reflexivity].
      apply peqb_spec in E3. injection E3 as -> ->. apply inb_spec in E2.
      destruct (String.eqb_spec r c) as [->|Hne]; [contradiction|]. exfalso. apply (O r c); auto; [now left|now right].
    + rewrite orb_false_r. destruct (peqb (j, i) (r, c)) eqn:E3.
      * apply peqb_spec in E3. injection E3 as -> ->. destruct (peqb (c, r) (r, c)) eqn:E4; [|reflexivity].
        apply peqb_spec in E4. injection E4 as ->. now rewrite String.eqb_refl.
      * destruct (peqb (i, j) (r, c)) eqn:E4; [|reflexivity]. apply peqb_spec in E4. injection E4 as -> ->.
        destruct (String.eqb_spec r c) as [->|Hne]; [|reflexivity]. now rewrite peqb_refl in E3.
Qed.

Lemma negative_iff s r c : In (r, c) (t_negative (fit s)) <-> In r (sindex s) /\ In c (scolumns s) /\ (scell s r c < 0)%R.
Proof.
  unfold fit. cbn [t_negative]. rewrite in_flat_map. split.
  - intros (c' & Hc & H). apply in_map_iff in H as (r' & E & H). injection E as -> ->. apply filter_In in H as (Hr & H).
    apply rlt_true in H. auto.
  - intros (Hr & Hc & H). exists c. split; auto. apply in_map_iff. exists r. split; auto. apply filter_In. split; auto.
    unfold rlt. destruct (Rlt_dec (scell s r c) 0); [reflexivity|lra].
Qed.

Lemma NoDup_app_ {A} (a b : list A) : NoDup a -> NoDup b -> (forall x, In x a -> ~ In x b) -> NoDup (a ++ b).
Proof.
  induction a as [|x a IH]; intros Ha Hb H; [exact Hb|]. inversion Ha; subst. simpl. constructor.
  - rewrite in_app_iff. intros [X|X]; [contradiction|]. apply (H x); auto. now left.
  - apply IH; auto. intros y Hy. apply H. now right.
Qed.
Lemma NoDup_pairs {A B} (f : B -> list A) (l : list B) : NoDup l -> (forall b, NoDup (f b)) ->
  NoDup (flat_map (fun b => map (fun a => (a, b)) (f b)) l).
Proof.
  intros N Hf. induction N as [|b l Hb N IH]; [constructor|]. cbn [flat_map]. apply NoDup_app_; auto.
  - apply FinFun.Injective_map_NoDup; auto. intros x y E. now injection E.
  - intros (x & b') H1 H2. apply in_map_iff in H1 as (y & E & _). injection E as -> ->.
    apply in_flat_map in H2 as (b2 & Hb2 & H2). apply in_map_iff in H2 as (y & E & _). injection E as -> ->. contradiction.
Qed.
Lemma negative_NoDup s : square s -> NoDup (t_negative (fit s)).
Proof.
  intros (N & E). unfold fit. cbn [t_negative]. apply NoDup_pairs; [now rewrite E|]. intros b. now apply NoDup_filter.
Qed.

(** Cells whose transposed cell is negative too *)
Definition no_two_way (s : sam) : Prop :=
  forall r c, In r (sindex s) -> In c (sindex s) -> r <> c -> (scell s r c < 0)%R -> (0 <= scell s c r)%R.

Lemma negative_one_way s : square s -> no_two_way s -> one_way (t_negative (fit s)).
Proof.
  intros (N & E) T r c H Hne H'. apply negative_iff in H as (Hr & Hc & H). apply negative_iff in H' as (_ & _ & H').
  rewrite E in Hc. pose proof (T r c Hr Hc Hne H). lra.
Qed.

(** ** C61 *)
Lemma c61_round_trip__p :
  forall (s : sam), square s -> grand_total s <> 0%R ->
  (forall r c, In r (sindex s) -> In c (sindex s) -> (scell s r c < 0)%R -> r <> c /\ scell s c r = 0%R) ->
  exists s1 s2, snd (fit_transform s) = Ok s1 /\
    inverse_transform (Some (fst (fit_transform s))) s1 = Ok s2 /\ same_sam s s2.
Proof.
  intros s Sq Ht Hn. eexists. eexists. split; [reflexivity|]. split; [reflexivity|].
  split; [reflexivity|]. split; [reflexivity|]. intros r c Hr Hc. cbn [scell fst fit_transform].
  assert (T : no_two_way s).
  { intros a b Ha Hb _ Hl. destruct (Hn a b Ha Hb Hl) as (_ & ->). lra. }
  pose proof (negative_NoDup Sq) as N. pose proof (negative_one_way Sq T) as O.
  rewrite (moves_back N O), !(moves_to N O). rewrite fit_scale. rewrite (proj2 Sq) in Hc.
  destruct (inb (r, c) (t_negative (fit s))) eqn:E1.
  - apply inb_spec, negative_iff in E1 as (_ & _ & Hl). destruct (Hn r c Hr Hc Hl) as (Hne & _).
    apply String.eqb_neq in Hne. rewrite Hne. apply String.eqb_neq in Hne.
    destruct (inb (c, r) (t_negative (fit s))) eqn:E2.
    { apply inb_spec, negative_iff in E2 as (_ & _ & Hl2). pose proof (T r c Hr Hc Hne Hl). lra. }
    field. exact Ht.
  - destruct (inb (c, r) (t_negative (fit s))) eqn:E2; [|field; exact Ht].
    apply inb_spec, negative_iff in E2 as (_ & _ & Hl). destruct (Hn c r Hc Hr Hl) as (_ & ->). ring.
Qed.

(** A negative cell whose transposed cell is not zero, or on the diagonal, is
    lost. *)
Definition two_cells (a b : R) : sam :=
  mkSam ["A"; "B"] ["A"; "B"] (fun r c => if String.eqb r "A" then (if String.eqb c "A" then a else -1)%R
                                         else (if String.eqb c "A" then b else 0)%R).
Lemma c61_transposed_refuted__p :
  exists s s1 s2, square s /\ grand_total s <> 0%R /\ snd (fit_transform s) = Ok s1 /\
    inverse_transform (Some (fst (fit_transform s))) s1 = Ok s2 /\ scell s "B" "A" = 5%R /\ scell s2 "B" "A" = 0%R.
Proof.
  exists (two_cells 0 5). eexists. eexists. split; [split; [repeat constructor; simpl; intuition discriminate|reflexivity]|].
  split; [unfold grand_total, row_total; simpl; lra|]. split; [reflexivity|]. split; [reflexivity|]. split; [reflexivity|].
  assert (E : t_negative (fit (two_cells 0 5)) = [("A", "B")]).
  { unfold fit. cbn. unfold rlt. repeat (destruct (Rlt_dec _ _); try lra). reflexivity. }
  cbn [scell fst fit_transform]. rewrite E. cbn. lra.
Qed.
Lemma c61_diagonal_refuted__p :
  exists s s1 s2, square s /\ grand_total s <> 0%R /\ snd (fit_transform s) = Ok s1 /\
    inverse_transform (Some (fst (fit_transform s))) s1 = Ok s2 /\ scell s "A" "A" = (-2)%R /\ scell s2 "A" "A" = 0%R.
Proof.
  exists (two_cells (-2) 0). eexists. eexists. split; [split; [repeat constructor; simpl; intuition discriminate|reflexivity]|].
  split; [unfold grand_total, row_total; simpl; lra|]. split; [reflexivity|]. split; [reflexivity|]. split; [reflexivity|].
  assert (E : t_negative (fit (two_cells (-2) 0)) = [("A", "A"); ("A", "B")]).
  { unfold fit. cbn. unfold rlt. repeat (destruct (Rlt_dec _ _); try lra). reflexivity. }
  cbn [scell fst fit_transform]. rewrite E. cbn. lra.
Qed.
Lemma c61_unfitted__p :
  forall s, transform None s = Err ValueError /\ inverse_transform None s = Err ValueError.
Proof. intros s. split; reflexivity. Qed.
