(** Lemmas for C75-C77. *)
From Coq Require Import Reals Lra.
From Verif Require Import Py PyStr NdArray M_Primitives M_Utilities M_Euler M_Jacobian S_Layout S_Jacobian.
From Verif Require Import L_Utilities L_Layout L_Euler.
Local Open Scope nat_scope.
Local Open Scope list_scope.

Lemma slice_concat_uniform {A} (m : nat) (ls : list (list A)) r :
  Forall (fun l => length l = m) ls -> r < length ls -> slice (List.concat ls) (r * m) m = nth r ls [].
Proof.
  revert r. induction ls as [|l ls IH]; intros r F H; [simpl in H; lia|].
  inversion F as [|? ? Hl F']; subst. destruct r; unfold slice; simpl.
  - rewrite firstn_app, Nat.sub_diag, firstn_all. simpl. now rewrite app_nil_r.
  - rewrite skipn_app. rewrite skipn_all2 by lia. simpl.
    replace (length l + r * length l - length l) with (r * length l) by lia.
    apply IH; auto. simpl in H. lia.
Qed.

Lemma map_nth_seq {A} (d : A) (l : list A) : map (fun r => nth r l d) (seq 0 (length l)) = l.
Proof.
  induction l as [|x l IH]; [reflexivity|]. cbn [length seq map nth]. f_equal.
  rewrite <- seq_shift, map_map. exact IH.
Qed.

Lemma rows_concat {V} (n m : nat) (ls : list (list V)) :
  length ls = n -> Forall (fun l => length l = m) ls -> rows (mkArr [n; m] (List.concat ls)) = ls.
Proof.
  intros Hn F. unfold rows. cbn [ashape adata]. subst n.
  rewrite <- (map_nth_seq [] ls) at 2. apply map_ext_in. intros r Hr. apply in_seq in Hr.
  apply slice_concat_uniform; auto. lia.
Qed.

(** one row of the Jacobian *)
Definition jrow {V} (D : nat -> nat -> list nat -> V) (e : nat) (j : nat) (shapes : list (list nat)) : list V :=
  List.concat (map (fun js => map (D e (fst js)) (ndindex (snd js))) (combine (seq j (length shapes)) shapes)).

Lemma jrow_length {V} (D : nat -> nat -> list nat -> V) e shapes : forall j, length (jrow D e j shapes) = total shapes.
Proof.
  unfold jrow, total. induction shapes as [|s shapes IH]; intros j; [reflexivity|]. cbn [length seq combine map List.concat fst snd].
  rewrite app_length, IH, map_length, ndindex_length. reflexivity.
Qed.

Definition block_rows {V} (D : nat -> nat -> list nat -> V) (n j : nat) (s : list nat) : list (list V) :=
  map (fun e => map (D e j) (ndindex s)) (seq 0 n).

Lemma block_data {V} (D : nat -> nat -> list nat -> V) n j s :
  adata (jacobian_block D n j s) = List.concat (block_rows D n j s).
Proof.
  unfold jacobian_block, block_rows. cbn [adata]. rewrite ndindex_cons.
  generalize (seq 0 n) as l. induction l as [|e l IH]; [reflexivity|].
  cbn [flat_map map List.concat]. rewrite map_app, IH, map_map. reflexivity.
Qed.

Lemma block_uniform {V} (D : nat -> nat -> list nat -> V) n j s :
  Forall (fun l => length l = prodn s) (block_rows D n j s).
Proof.
  unfold block_rows. apply Forall_map, Forall_forall. intros e _. now rewrite map_length, ndindex_length.
Qed.

Lemma reshape_block {V} (D : nat -> nat -> list nat -> V) n j s : 0 < n ->
  reshape_rows n (atleast_2d (jacobian_block D n j s)) = Ok (mkArr [n; prodn s] (List.concat (block_rows D n j s))).
Proof.
  intros Hn.
  assert (E : prodn (ashape (atleast_2d (jacobian_block D n j s))) = prodn s * n /\
              adata (atleast_2d (jacobian_block D n j s)) = adata (jacobian_block D n j s)).
  { unfold atleast_2d, jacobian_block. cbn [ashape]. destruct s; (split; [unfold prodn; simpl; lia|reflexivity]). }
  destruct E as (E1 & E2). unfold reshape_rows. rewrite E1, E2.
  destruct (Nat.eqb_spec n 0) as [|_]; [lia|].
  rewrite Nat.mod_mul, Nat.div_mul, Nat.eqb_refl by lia. now rewrite block_data.
Qed.

Lemma map_res_ok_map {A B} (f : A -> res B) (g : A -> B) l :
  (forall x, In x l -> f x = Ok (g x)) -> map_res f l = Ok (map g l).
Proof.
  induction l as [|x l IH]; intros H; [reflexivity|]. cbn [map_res map].
  rewrite (H x), IH; simpl; auto. intros; apply H; simpl; auto.
Qed.

Lemma nth_map_seq {A} (d : A) (f : nat -> A) n r : r < n -> nth r (map f (seq 0 n)) d = f r.
Proof.
  intros H. rewrite nth_indep with (d' := f 0) by (rewrite map_length, seq_length; lia).
  rewrite map_nth. now rewrite seq_nth.
Qed.

Lemma make_jacobian_rows {V} (D : nat -> nat -> list nat -> V) n shapes : shapes <> [] -> 0 < n ->
  make_jacobian D n shapes = Ok (mkArr [n; total shapes] (List.concat (map (fun e => jrow D e 0 shapes) (seq 0 n)))).
Proof.
  intros Hs Hn. unfold make_jacobian.
  set (g := fun js : nat * list nat => mkArr [n; prodn (snd js)] (List.concat (block_rows D n (fst js) (snd js)))).
  assert (E : map_res (fun x => reshape_rows n (atleast_2d x))
                (map (fun js => jacobian_block D n (fst js) (snd js)) (numbered shapes)) = Ok (map g (numbered shapes))).
  { generalize (numbered shapes) as l. induction l as [|js l IH]; [reflexivity|]. cbn [map map_res].
    rewrite reshape_block by auto. cbn [bind]. rewrite IH. reflexivity. }
  rewrite E. cbn [bind].
  assert (C : concat_columns (map g (numbered shapes)) =
              Ok (mkArr [n; total shapes] (List.concat (map (fun e => jrow D e 0 shapes) (seq 0 n))))).
  { assert (Hl : exists a l, map g (numbered shapes) = a :: l /\ hd 0 (ashape a) = n).
    { unfold numbered. destruct shapes as [|s shapes]; [congruence|]. cbn [length seq combine map].
      eexists. eexists. split; reflexivity. }
    unfold concat_columns. destruct Hl as (a & l & El & Ea). rewrite El, Ea, <- El.
    assert (F : forallb (fun b => match ashape b with [k; _] => Nat.eqb k n | _ => false end) (map g (numbered shapes)) = true).
    { apply forallb_forall. intros b Hb. apply in_map_iff in Hb as (js & <- & _). cbn. apply Nat.eqb_refl. }
    rewrite F. do 2 f_equal.
    - do 2 f_equal. unfold total. rewrite map_map. cbn [g ashape nth]. unfold numbered. clear.
      generalize 0. induction shapes as [|s shapes IH]; intros j; [reflexivity|]. cbn [length seq combine map snd list_sum fold_right].
      unfold list_sum in IH. now rewrite IH.
    - f_equal. apply map_ext_in. intros r Hr. apply in_seq in Hr. unfold jrow. fold (numbered shapes).
      f_equal. rewrite map_map. apply map_ext. intros js. unfold g.
      rewrite rows_concat; [|unfold block_rows; now rewrite map_length, seq_length|apply block_uniform].
      unfold block_rows. now rewrite nth_map_seq by lia. }
  rewrite C. cbn [bind]. unfold specify_shape. cbn [ashape].
  destruct (list_eq_dec Nat.eq_dec [n; total shapes] [n; list_sum (map prodn shapes)]) as [|ne]; [reflexivity|].
  exfalso. apply ne. reflexivity.
Qed.

Lemma aget_matrix {V} n m (ls : list (list V)) e k l v :
  length ls = n -> Forall (fun l => length l = m) ls -> nth_error ls e = Some l -> nth_error l k = Some v ->
  aget (mkArr [n; m] (List.concat ls)) [e; k] = Ok v.
Proof.
  intros Hn F He Hk.
  assert (e < n). { subst n. apply nth_error_Some. congruence. }
  assert (Hl : length l = m) by (rewrite Forall_forall in F; apply F; eapply nth_error_In; eauto).
  assert (k < m). { subst m. apply nth_error_Some. congruence. }
  unfold aget. cbn [ashape adata].
  assert (R : in_rangeb [n; m] [e; k] = true). { apply in_rangeb_spec. repeat constructor; auto. }
  rewrite R. cbn [offset]. unfold prodn. cbn [fold_right]. rewrite !Nat.mul_1_r, Nat.add_0_r.
  rewrite <- (map_id ls) at 1. rewrite <- flat_map_concat_map.
  rewrite nth_error_flat_map_uniform with (k := m); auto.
  - now rewrite He, Hk.
  - intros x Hx. rewrite Forall_forall in F. apply F; auto.
Qed.

Lemma nth_numbered_from {A} (l : list A) : forall j0 j x, nth_error l j = Some x ->
  nth_error (combine (seq j0 (length l)) l) j = Some (j0 + j, x).
Proof.
  induction l as [|y l IH]; intros j0 [|j] x H; simpl in *; try discriminate.
  - injection H as ->. f_equal. f_equal. lia.
  - rewrite (IH (S j0) j x) by auto. f_equal. f_equal. lia.
Qed.

Lemma chunks_position {A} (F : nat -> list nat -> A) shapes j idx : is_element shapes j idx ->
  nth_error (List.concat (map (fun js => map (F (fst js)) (ndindex (snd js))) (numbered shapes))) (position shapes j idx)
  = Some (F j idx).
Proof.
  intros (Hj & Hr). unfold position.
  destruct (nth_error shapes j) as [s|] eqn:Es; [|apply nth_error_None in Es; lia].
  assert (Hs : nth j shapes [] = s) by (now apply nth_error_nth).
  rewrite Hs in *.
  assert (E : total (firstn j shapes) =
              list_sum (map (@length _) (firstn j (map (fun js => map (F (fst js)) (ndindex (snd js))) (numbered shapes))))).
  { rewrite firstn_map, map_map. unfold total, numbered. f_equal. clear. generalize 0. revert shapes.
    induction j as [|j IH]; intros [|s shapes] j0; try reflexivity. cbn [length seq combine firstn map fst snd].
    rewrite map_length, ndindex_length. f_equal. apply IH. }
  rewrite E. rewrite nth_error_concat with (l := map (F j) (ndindex s)).
  - rewrite nth_error_map, nth_ndindex_offset; auto.
  - rewrite nth_error_map. unfold numbered. rewrite nth_numbered_from with (x := s) by auto. reflexivity.
  - rewrite map_length, ndindex_length. now apply offset_lt.
Qed.

Lemma chunk_lengths {A} (F : nat -> list nat -> A) shapes j :
  list_sum (map (@length _) (firstn j (map (fun js => map (F (fst js)) (ndindex (snd js))) (numbered shapes)))) = total (firstn j shapes).
Proof.
  rewrite firstn_map, map_map. unfold total, numbered. f_equal. generalize 0. revert shapes.
  induction j as [|j IH]; intros [|s shapes] j0; try reflexivity. cbn [length seq combine firstn map fst snd].
  rewrite map_length, ndindex_length. f_equal. apply IH.
Qed.

Lemma positions_bijective shapes k : k < total shapes ->
  exists! ji, is_element shapes (fst ji) (snd ji) /\ position shapes (fst ji) (snd ji) = k.
Proof.
  intros Hk. set (L := List.concat (map (fun js => map (@pair nat (list nat) (fst js)) (ndindex (snd js))) (numbered shapes))).
  assert (HL : length L = total shapes). { exact (jrow_length (fun _ => @pair nat (list nat)) 0 shapes 0). }
  assert (Hk' : k < length L) by lia.
  destruct (concat_position _ Hk') as (j & l & m & Hj & Hm & Ek).
  rewrite nth_error_map in Hj. destruct (nth_error (numbered shapes) j) as [js|] eqn:Ej; [|discriminate].
  injection Hj as <-. rewrite map_length, ndindex_length in Hm.
  rewrite chunk_lengths in Ek.
  destruct (nth_error shapes j) as [s|] eqn:Es.
  2:{ apply nth_error_None in Es. assert (length (numbered shapes) <= j).
      { unfold numbered. rewrite combine_length, seq_length, Nat.min_id. exact Es. }
      apply nth_error_None in H. congruence. }
  unfold numbered in Ej. rewrite nth_numbered_from with (x := s) in Ej by auto. injection Ej as <-. cbn [fst snd] in *.
  destruct (nth_error (ndindex s) m) as [idx|] eqn:Ei.
  2:{ apply nth_error_None in Ei. rewrite ndindex_length in Ei. lia. }
  apply offset_nth_ndindex in Ei as (Hi & Eo).
  assert (He : is_element shapes j idx /\ position shapes j idx = k).
  { unfold is_element, position. rewrite (nth_error_nth _ _ [] Es). repeat split; auto.
    - apply nth_error_Some. congruence.
    - lia. }
  exists (j, idx). split; [exact He|]. intros (j2 & idx2) (H1 & H2). cbn [fst snd] in *. destruct He as (He1 & He2).
  pose proof (chunks_position (@pair nat (list nat)) He1) as P1. pose proof (chunks_position (@pair nat (list nat)) H1) as P2.
  rewrite He2 in P1. rewrite H2 in P2. rewrite P1 in P2. congruence.
Qed.

Lemma position_lt shapes j idx : is_element shapes j idx -> position shapes j idx < total shapes.
Proof.
  intros H. pose proof (chunks_position (@pair nat (list nat)) H) as P.
  assert (N : nth_error (jrow (fun _ => @pair nat (list nat)) 0 0 shapes) (position shapes j idx) <> None).
  { unfold jrow. fold (numbered shapes). congruence. }
  apply nth_error_Some in N. now rewrite jrow_length in N.
Qed.

Lemma jrows_uniform {V} (D : nat -> nat -> list nat -> V) n shapes :
  Forall (fun l => length l = total shapes) (map (fun e => jrow D e 0 shapes) (seq 0 n)).
Proof. apply Forall_map, Forall_forall. intros. apply jrow_length. Qed.

Lemma uniform_concat {A} m (ls : list (list A)) : Forall (fun l => length l = m) ls -> length (List.concat ls) = length ls * m.
Proof. induction 1 as [|l ls H F IH]; [reflexivity|]. simpl. rewrite app_length. lia. Qed.

Lemma nth_error_map_seq {A} (f : nat -> A) n e : e < n -> nth_error (map f (seq 0 n)) e = Some (f e).
Proof.
  intros H. rewrite nth_error_map. rewrite nth_error_nth' with (d := 0) by (rewrite seq_length; auto).
  now rewrite seq_nth.
Qed.

Lemma c75_jacobian__p :
  forall (V : Type) (D : nat -> nat -> list nat -> V) (n_eq : nat) (shapes : list (list nat)),
  shapes <> [] -> 0 < n_eq ->
  exists a, make_jacobian D n_eq shapes = Ok a /\ arr_wf a /\ ashape a = [n_eq; total shapes] /\
    (forall e j idx, e < n_eq -> is_element shapes j idx ->
       position shapes j idx < total shapes /\ aget a [e; position shapes j idx] = Ok (D e j idx)) /\
    (forall k, k < total shapes -> exists! ji, is_element shapes (fst ji) (snd ji) /\ position shapes (fst ji) (snd ji) = k).
Proof.
  intros V D n shapes Hs Hn. rewrite make_jacobian_rows by auto. eexists. split; [reflexivity|].
  split; [|split; [reflexivity|split]].
  - unfold arr_wf. cbn [adata ashape]. rewrite (uniform_concat (jrows_uniform D n shapes)), map_length, seq_length.
    unfold prodn. simpl. lia.
  - intros e j idx He Hi. split; [now apply position_lt|].
    eapply aget_matrix; [now rewrite map_length, seq_length|apply jrows_uniform|apply nth_error_map_seq; auto|].
    unfold jrow. fold (numbered shapes). now apply chunks_position with (F := D e).
  - intros. now apply positions_bijective.
Qed.

Lemma c75_gradient__p :
  forall (V : Type) (G : nat -> list nat -> V) (shapes : list (list nat)),
  shapes <> [] ->
  exists g, make_gradient G shapes (total shapes) = Ok (mkArr [total shapes] g) /\ length g = total shapes /\
    (forall j idx, is_element shapes j idx -> nth_error g (position shapes j idx) = Some (G j idx)).
Proof.
  intros V G shapes Hs. unfold make_gradient. destruct shapes as [|s0 shapes0] eqn:E; [congruence|]. rewrite <- E in *. clear E s0 shapes0.
  exists (jrow (fun _ => G) 0 0 shapes). split; [|split].
  - unfold specify_shape. cbn [ashape]. change (List.concat (map (fun js => map (G (fst js)) (ndindex (snd js))) (numbered shapes)))
      with (jrow (fun _ => G) 0 0 shapes). rewrite jrow_length.
    destruct (list_eq_dec Nat.eq_dec [total shapes] [total shapes]); congruence.
  - apply jrow_length.
  - intros j idx H. exact (chunks_position G H).
Qed.
