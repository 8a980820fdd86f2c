(** Lemmas for C98. *)
From Coq Require Import Sorting.Permutation Sorting.Sorted.
From Verif Require Import Py PyStr M_Output M_Nodes S_Nodes.
Local Open Scope string_scope.
Local Open Scope list_scope.

Section Nodes.
Variable V : Type.
Notation op := (string * option (list V) * option nat)%type.
Implicit Types (h : heap V) (ops : list op).

(** ** Lines of ancestors *)
Lemma line_fun ops n l : line ops n l -> forall l', line ops n l' -> l = l'.
Proof.
  induction 1 as [n o E P|n o p l E P L IH]; intros l' L'; inversion L' as [n' o' E' P'|n' o' p' l1 E' P' L1]; subst.
  - reflexivity.
  - congruence.
  - congruence.
  - rewrite E in E'. injection E' as <-. rewrite P in P'. injection P' as <-. f_equal. now apply IH.
Qed.
Lemma line_exists ops : valid ops -> forall n, n < length ops -> exists l, line ops n l.
Proof.
  intros W n. induction (lt_wf n) as [n _ IH]. intros L.
  destruct (nth_error ops n) as [o|] eqn:E; [|apply nth_error_None in E; lia].
  destruct (snd o) as [p|] eqn:P; [|exists []; econstructor; eauto].
  pose proof (W n o p E P) as Lp. destruct (IH p Lp ltac:(lia)) as (l & Hl). exists (p :: l). econstructor; eauto.
Qed.
Lemma line_lt ops n l : valid ops -> line ops n l -> forall a, In a l -> a < n.
Proof.
  intros W. induction 1 as [n o E P|n o p l E P L IH]; intros a I; [destruct I|].
  pose proof (W n o p E P). destruct I as [<-|I]; [assumption|]. specialize (IH a I). lia.
Qed.
Lemma line_length ops n l : valid ops -> line ops n l -> length l <= n.
Proof.
  intros W. induction 1 as [n o E P|n o p l E P L IH]; cbn; [lia|]. pose proof (W n o p E P). lia.
Qed.
Lemma line_bound ops n l : line ops n l -> n < length ops.
Proof. intros L. inversion L; subst; apply nth_error_Some; congruence. Qed.
Lemma line_cut ops n l : line ops n l -> forall a l1 l2, l = l1 ++ a :: l2 -> line ops a l2.
Proof.
  induction 1 as [n o E P|n o p l E P L IH]; intros a l1 l2 Q; [destruct l1; discriminate|].
  destruct l1 as [|x l1]; cbn in Q; injection Q as -> ->; [exact L | eapply IH; reflexivity].
Qed.

(** ** What creation leaves *)
Definition child_of ops (p j : nat) : bool :=
  match nth_error ops j with Some o => match snd o with Some q => Nat.eqb q p | None => false end | None => false end.
Definition kids ops (p : nat) : list nat := filter (child_of ops p) (seq 0 (length ops)).
Definition inv ops h : Prop :=
  length h = length ops /\
  forall i o, nth_error ops i = Some o -> exists c, nth_error h i = Some c /\ c_name c = fst (fst o) /\ c_data c = snd (fst o) /\ c_parent c = snd o /\
    c_children c = kids ops i /\ forall l, line ops i l -> c_level c = length l.

Lemma inv_parent ops h n : inv ops h -> get_parent h n = match nth_error ops n with Some o => snd o | None => None end.
Proof.
  intros (L & I). unfold get_parent. destruct (nth_error ops n) as [o|] eqn:E.
  - destruct (I n o E) as (c & -> & _ & _ & P & _). exact P.
  - apply nth_error_None in E. rewrite <- L in E. apply nth_error_None in E. now rewrite E.
Qed.
Lemma inv_children ops h n : inv ops h -> n < length ops -> children h n = kids ops n.
Proof.
  intros (L & I) B. unfold children. destruct (nth_error ops n) as [o|] eqn:E; [|apply nth_error_None in E; lia].
  destruct (I n o E) as (c & -> & _ & _ & _ & K & _). exact K.
Qed.
Lemma inv_level ops h n l : inv ops h -> line ops n l -> level h n = length l.
Proof.
  intros (L & I) Ln. pose proof (line_bound Ln) as B. unfold level. destruct (nth_error ops n) as [o|] eqn:E; [|apply nth_error_None in E; lia].
  destruct (I n o E) as (c & -> & _ & _ & _ & _ & K). auto.
Qed.

Lemma level_line h ops : (forall n, n < length ops -> get_parent h n = match nth_error ops n with Some o => snd o | None => None end) ->
  forall n l, line ops n l -> forall fuel lv, length l <= fuel -> get_node_level fuel h n lv = lv + length l.
Proof.
  intros P n l L. induction L as [n o E Q|n o p l E Q L IH]; intros fuel lv B.
  - cbn. rewrite Nat.add_0_r. destruct fuel; [reflexivity|]. cbn. rewrite P, E, Q; [reflexivity|]. apply nth_error_Some. congruence.
  - destruct fuel as [|fuel]; [cbn in B; lia|]. cbn. rewrite P, E, Q; [|apply nth_error_Some; congruence]. rewrite IH; cbn in B; lia.
Qed.

Lemma update_nth (f : cell V -> cell V) h n i : nth_error (update f h n) i = if Nat.eqb i n then option_map f (nth_error h i) else nth_error h i.
Proof.
  revert n i. induction h as [|c h IH]; intros [|n] [|i]; cbn; try reflexivity.
  - destruct (Nat.eqb i n); reflexivity.
  - apply IH.
Qed.
Lemma update_length (f : cell V -> cell V) h n : length (update f h n) = length h.
Proof. revert n. induction h as [|c h IH]; intros [|n]; cbn; auto. Qed.

Lemma kids_snoc ops o p : valid (ops ++ [o]) -> kids (ops ++ [o]) p = kids ops p ++ (match snd o with Some q => if Nat.eqb q p then [length ops] else [] | None => [] end).
Proof.
  intros W. unfold kids. rewrite app_length. cbn [length]. rewrite Nat.add_1_r, seq_S, filter_app. cbn [filter Nat.add]. f_equal.
  - apply filter_ext_in. intros j I. apply in_seq in I. unfold child_of. rewrite nth_error_app1 by lia. reflexivity.
  - unfold child_of. rewrite nth_error_app2, Nat.sub_diag by lia. cbn. destruct (snd o) as [q|]; [|reflexivity]. destruct (Nat.eqb q p); reflexivity.
Qed.
Lemma valid_prefix ops o : valid (ops ++ [o]) -> valid ops.
Proof. intros W i o' p E P. apply (W i o' p); [|exact P]. rewrite nth_error_app1; [exact E|]. apply nth_error_Some. congruence. Qed.
Lemma line_snoc ops o n l : n < length ops -> valid (ops ++ [o]) -> line (ops ++ [o]) n l -> line ops n l.
Proof.
  intros B W L. revert B. induction L as [n o' E P|n o' p l E P L IH]; intros B; rewrite nth_error_app1 in E by assumption.
  - econstructor; eauto.
  - econstructor; eauto. apply IH. assert (p < n); [|lia]. eapply W; [|exact P]. rewrite nth_error_app1; eauto.
Qed.
Lemma line_weaken ops o n l : line ops n l -> line (ops ++ [o]) n l.
Proof.
  induction 1 as [n o' E P|n o' p l E P L IH]; [eapply line_root | eapply line_child]; eauto; (rewrite nth_error_app1; [exact E | apply nth_error_Some; congruence]).
Qed.

Lemma new_node_inv ops h o : valid (ops ++ [o]) -> inv ops h ->
  inv (ops ++ [o]) (fst (new_node h (fst (fst o)) (snd (fst o)) (snd o))) /\ snd (new_node h (fst (fst o)) (snd (fst o)) (snd o)) = length ops.
Proof.
  intros W I. pose proof I as (L & N). split; [|cbn; exact L]. unfold new_node. cbn [fst].
  set (c0 := MkCell (fst (fst o)) (snd (fst o)) (snd o) [] 0).
  set (h1 := match snd o with Some p => add_child (h ++ [c0]) p (length h) | None => h ++ [c0] end).
  assert (L1 : length h1 = length ops + 1).
  { unfold h1, add_child. destruct (snd o); rewrite ?update_length, app_length; cbn; lia. }
  assert (N1 : forall i, nth_error h1 i = match nth_error (h ++ [c0]) i with
     | Some c => Some (MkCell (c_name c) (c_data c) (c_parent c) (c_children c ++ (match snd o with Some q => if Nat.eqb q i then [length ops] else [] | None => [] end)) (c_level c))
     | None => None end).
  { intros i. unfold h1, add_child. destruct (snd o) as [q|].
    - rewrite update_nth, (Nat.eqb_sym i q). destruct (nth_error (h ++ [c0]) i) as [[]|]; cbn; [|destruct (Nat.eqb q i); reflexivity].
      destruct (Nat.eqb q i); [rewrite L; reflexivity | cbn; now rewrite app_nil_r].
    - destruct (nth_error (h ++ [c0]) i) as [[]|]; cbn; [now rewrite app_nil_r | reflexivity]. }
  assert (P1 : forall n, n < length (ops ++ [o]) -> get_parent h1 n = match nth_error (ops ++ [o]) n with Some o => snd o | None => None end).
  { intros n B. unfold get_parent. rewrite N1. rewrite app_length in B. cbn in B.
    destruct (Nat.eq_dec n (length ops)) as [->|Ne].
    - rewrite !nth_error_app2 by lia. rewrite L, Nat.sub_diag. reflexivity.
    - rewrite !nth_error_app1 by lia. destruct (nth_error ops n) as [o'|] eqn:E; [|apply nth_error_None in E; lia].
      destruct (N n o' E) as (c & -> & _ & _ & P & _). exact P. }
  split; [unfold set_level; rewrite update_length, L1, app_length; reflexivity|].
  intros i o' E. unfold set_level. rewrite update_nth, N1, L.
  destruct (Nat.eqb_spec i (length ops)) as [->|Ne].
  - rewrite nth_error_app2, Nat.sub_diag in E by lia. cbn in E. injection E as <-.
    rewrite nth_error_app2, L, Nat.sub_diag by lia. cbn [nth_error option_map]. eexists. split; [reflexivity|].
    cbn [c_name c_data c_parent c_children c_level c0]. split; [reflexivity|]. split; [reflexivity|]. split; [reflexivity|]. split.
    + rewrite (@kids_snoc ops o _ W). f_equal. symmetry. unfold kids. 
      assert (X : forall j, In j (seq 0 (length ops)) -> child_of ops (length ops) j = false).
      { intros j I'. apply in_seq in I'. unfold child_of. destruct (nth_error ops j) as [o'|] eqn:E; [|reflexivity].
        destruct (snd o') as [q|] eqn:Q; [|reflexivity]. apply Nat.eqb_neq. intros ->.
        assert (length ops < j); [|lia]. apply (@valid_prefix ops o W j o' _ E Q). }
      induction (seq 0 (length ops)) as [|j js IH]; [reflexivity|]. cbn. rewrite (X j (or_introl eq_refl)). apply IH. intros j' I'. apply X. now right.
    + intros l Hl. rewrite (@level_line h1 (ops ++ [o]) P1 _ l Hl); [reflexivity|]. apply (line_length W) in Hl. lia.
  - assert (B : i < length (ops ++ [o])) by (apply nth_error_Some; congruence). rewrite app_length in B. cbn in B.
    rewrite nth_error_app1 in E by lia. rewrite nth_error_app1 by lia. destruct (N i o' E) as (c & -> & C1 & C2 & C3 & C4 & C5).
    eexists. split; [reflexivity|]. cbn [c_name c_data c_parent c_children c_level]. split; [exact C1|]. split; [exact C2|]. split; [exact C3|]. split.
    + rewrite (@kids_snoc ops o _ W), C4. reflexivity.
    + intros l Hl. apply C5. eapply line_snoc; eauto. lia.
Qed.

Lemma create_snoc ops o : create (ops ++ [o]) = fst (new_node (create ops) (fst (fst o)) (snd (fst o)) (snd o)).
Proof. unfold create. now rewrite fold_left_app. Qed.
Lemma create_inv ops : valid ops -> inv ops (create ops).
Proof.
  induction ops as [|o ops IH] using rev_ind; intros W.
  - split; [reflexivity|]. intros i o E. destruct i; discriminate.
  - rewrite create_snoc. apply new_node_inv; [exact W|]. apply IH. eapply valid_prefix. exact W.
Qed.

(** ** Following references *)
Lemma ancestors_line h ops n l : inv ops h -> line ops n l -> forall fuel, length l <= fuel -> get_all_ancestors fuel h n = l.
Proof.
  intros I L. induction L as [n o E Q|n o p l E Q L IH]; intros fuel B.
  - destruct fuel; [reflexivity|]. cbn. rewrite (inv_parent n I), E, Q. reflexivity.
  - destruct fuel as [|fuel]; [cbn in B; lia|]. cbn. rewrite (inv_parent n I), E, Q. f_equal. apply IH. cbn in B. lia.
Qed.

Lemma in_kids ops p j : In j (kids ops p) <-> exists o, nth_error ops j = Some o /\ snd o = Some p.
Proof.
  unfold kids. rewrite filter_In, in_seq. unfold child_of. split.
  - intros (B & C). destruct (nth_error ops j) as [o|]; [|discriminate]. exists o. split; [reflexivity|].
    destruct (snd o) as [q|]; [|discriminate]. apply Nat.eqb_eq in C. now subst.
  - intros (o & E & Q). rewrite E, Q, Nat.eqb_refl. split; [|reflexivity]. split; [lia|]. cbn. apply nth_error_Some. congruence.
Qed.
Lemma kids_lt ops p j : valid ops -> In j (kids ops p) -> p < j < length ops.
Proof.
  intros W I. apply in_kids in I as (o & E & Q). split; [eapply W; eauto | apply nth_error_Some; congruence].
Qed.
Lemma NoDup_kids ops p : NoDup (kids ops p).
Proof. apply NoDup_filter, seq_NoDup. Qed.

Lemma below_step ops n m : valid ops -> n < length ops -> (below ops n m <-> exists c, In c (kids ops n) /\ (m = c \/ below ops c m)).
Proof.
  intros W B. split.
  - intros (l & L & I). revert I. induction L as [m o E Q|m o p l E Q L IH]; intros I; [destruct I|]. destruct I as [->|I].
    + exists m. split; [apply in_kids; eauto | now left].
    + destruct (IH I) as (c & K & H). exists c. split; [exact K|]. right. destruct H as [->|(l' & L' & I')].
      * exists (c :: l). split; [econstructor; eauto | now left].
      * exists (p :: l'). split; [econstructor; eauto | now right].
  - intros (c & K & H). pose proof (kids_lt _ _ W K) as Lc. apply in_kids in K as (o & E & Q).
    destruct (line_exists W B) as (ln & Ln).
    assert (Lc' : line ops c (n :: ln)) by (econstructor; eauto). destruct H as [->|(l & L & I)].
    + exists (n :: ln). split; [exact Lc' | now left].
    + exists l. split; [exact L|]. apply in_split in I as (l1 & l2 & ->). pose proof (line_cut L _ _ _ eq_refl) as X.
      rewrite (line_fun X Lc'). apply in_or_app. right. right. now left.
Qed.

Lemma descendents_below h ops : valid ops -> inv ops h -> forall fuel n, n < length ops -> length ops - n <= fuel ->
  forall m, In m (get_all_descendents fuel h n) <-> below ops n m.
Proof.
  intros W I. induction fuel as [|fuel IH]; intros n B F m; [lia|]. cbn. rewrite (inv_children I B), (below_step m W B), in_app_iff, in_flat_map. split.
  - intros [H|(c & K & H)]; [exists m; auto|]. exists c. split; [exact K|]. right. pose proof (kids_lt _ _ W K). apply IH in H; [exact H | lia | lia].
  - intros (c & K & [->|H]); [now left|]. right. exists c. split; [exact K|]. pose proof (kids_lt _ _ W K). apply IH; [lia | lia | exact H].
Qed.

Lemma siblings ops p a b m : valid ops -> In a (kids ops p) -> In b (kids ops p) -> (m = a \/ below ops a m) -> below ops b m -> a = b.
Proof.
  intros W Ka Kb Ha (l & L & Ib). pose proof (kids_lt _ _ W Ka) as La. pose proof (kids_lt _ _ W Kb) as Lb.
  destruct (@line_exists ops W p ltac:(lia)) as (lp & Lp).
  assert (X : forall x, In x (kids ops p) -> line ops x (p :: lp)) by (intros x K; apply in_kids in K as (o & E & Q); econstructor; eauto).
  assert (Y : forall x y, In x (kids ops p) -> In y (kids ops p) -> ~ In x (p :: lp)).
  { intros x y Kx _ H. pose proof (kids_lt _ _ W Kx) as Lx. destruct H as [<-|H]; [lia|]. pose proof (line_lt W Lp x H). lia. }
  apply in_split in Ib as (l1 & l2 & ->). pose proof (line_cut L _ _ _ eq_refl) as Xb.
  rewrite (line_fun Xb (X b Kb)) in *.
  destruct Ha as [->|(l' & L' & Ia)].
  - exfalso. pose proof (line_fun L (X a Ka)) as E. apply (Y b a Kb Ka). rewrite <- E. apply in_or_app. right. now left.
  - rewrite (line_fun L' L) in Ia. clear l' L'. apply in_app_or in Ia as [Ia|[->|Ia]]; [|reflexivity | exfalso; apply (Y a b Ka Kb Ia)].
    exfalso. apply in_split in Ia as (k1 & k2 & ->). rewrite <- app_assoc in L. cbn in L. pose proof (line_cut L _ _ _ eq_refl) as Xa.
    pose proof (line_fun Xa (X a Ka)) as E. apply (Y b a Kb Ka). rewrite <- E. apply in_or_app. right. now left.
Qed.

Lemma NoDup_descendents h ops : valid ops -> inv ops h -> forall fuel n, n < length ops -> length ops - n <= fuel -> NoDup (get_all_descendents fuel h n).
Proof.
  intros W I. induction fuel as [|fuel IH]; intros n B F; [lia|]. cbn. rewrite (inv_children I B).
  assert (Db : forall c, In c (kids ops n) -> forall m, In m (get_all_descendents fuel h c) <-> below ops c m).
  { intros c K m. pose proof (kids_lt _ _ W K). apply descendents_below; auto; lia. }
  assert (Nc : forall c, In c (kids ops n) -> NoDup (get_all_descendents fuel h c)).
  { intros c K. pose proof (kids_lt _ _ W K). apply IH; lia. }
  assert (Nf : forall l, NoDup l -> incl l (kids ops n) -> NoDup (flat_map (get_all_descendents fuel h) l)).
  { induction l as [|c l IHl]; intros N J; [constructor|]. cbn. inversion N as [|? ? N1 N2]; subst.
    apply NoDup_app; [apply Nc, J; now left | apply IHl; [exact N2 | intros x Hx; apply J; now right] |].
    intros m H1 H2. apply in_flat_map in H2 as (c' & Kc' & H2). apply N1.
    assert (c = c'); [|now subst]. apply (@siblings ops n c c' m W); [apply J; now left | apply J; now right | right; apply Db; [apply J; now left | exact H1] | apply Db; [apply J; now right | exact H2]]. }
  apply NoDup_app; [apply NoDup_kids | apply Nf; [apply NoDup_kids | intros x Hx; exact Hx] |].
  intros m Km H. apply in_flat_map in H as (c & Kc & H). apply (Db c Kc) in H.
  assert (m = c) as -> by (apply (@siblings ops n m c m W); auto).
  destruct H as (l & L & Il). pose proof (line_lt W L c Il). lia.
Qed.

Lemma n_descendents_length h : forall fuel n, get_n_descendents fuel h n = length (get_all_descendents fuel h n).
Proof.
  induction fuel as [|fuel IH]; intros n; [reflexivity|]. cbn.
  assert (X : forall l, list_sum (map (get_n_descendents fuel h) l) = length (flat_map (get_all_descendents fuel h) l)).
  { induction l as [|c l IHl]; [reflexivity|]. cbn. rewrite app_length, <- IHl, IH. reflexivity. }
  destruct (children h n) as [|c ch]; [reflexivity|]. rewrite app_length, <- X. reflexivity.
Qed.

Definition is_inner h (n : nat) : bool := negb (Nat.eqb (length (children h n)) 0).
Lemma inner_filter (f : nat -> bool) (g : nat -> list nat) l :
  length (filter f (flat_map (fun c => c :: g c) l)) = length (filter f l) + length (filter f (flat_map g l)).
Proof.
  induction l as [|c l IH]; [reflexivity|]. cbn [flat_map]. rewrite !filter_app. cbn [filter]. destruct (f c); cbn [length]; rewrite !app_length; cbn [length]; rewrite IH; lia.
Qed.
Lemma n_generations_count h ops : valid ops -> inv ops h -> forall fuel n, n < length ops -> length ops - n <= fuel ->
  get_n_generations fuel h n = length (filter (is_inner h) (n :: get_all_descendents fuel h n)).
Proof.
  intros W I. induction fuel as [|fuel IH]; intros n B F; [lia|]. cbn [get_n_generations get_all_descendents filter].
  assert (K : forall c, In c (children h n) -> n < c < length ops) by (intros c Hc; rewrite (inv_children I B) in Hc; now apply kids_lt in Hc).
  assert (X : list_sum (map (get_n_generations fuel h) (children h n)) = length (filter (is_inner h) (children h n ++ flat_map (get_all_descendents fuel h) (children h n)))).
  { rewrite filter_app, app_length, <- inner_filter. revert K. generalize (children h n). induction l as [|c l IHl]; intros K; [reflexivity|].
    cbn [map list_sum fold_right flat_map]. rewrite filter_app, app_length. change (fold_right Nat.add 0 (map (get_n_generations fuel h) l)) with (list_sum (map (get_n_generations fuel h) l)).
    rewrite IHl by (intros c' Hc; apply K; now right). rewrite (IH c); [reflexivity | |]; destruct (K c (or_introl eq_refl)); lia. }
  unfold is_inner at 1. destruct (children h n) as [|c ch] eqn:E; [reflexivity|]. rewrite X. reflexivity.
Qed.

(** ** Equal heaps *)
Lemma inv_unique ops h h' : valid ops -> inv ops h -> inv ops h' -> h = h'.
Proof.
  intros W (L & I) (L' & I').
  assert (X : forall i, nth_error h i = nth_error h' i).
  { intros i. destruct (nth_error ops i) as [o|] eqn:E.
    - destruct (@line_exists ops W i) as (l & Hl); [apply nth_error_Some; congruence|].
      destruct (I i o E) as ([] & -> & A1 & A2 & A3 & A4 & A5), (I' i o E) as ([] & -> & B1 & B2 & B3 & B4 & B5). cbn in *.
      specialize (A5 l Hl). specialize (B5 l Hl). subst. congruence.
    - apply nth_error_None in E. rewrite (proj2 (nth_error_None h i)), (proj2 (nth_error_None h' i)); [reflexivity | lia | lia]. }
  clear - X. revert h' X. induction h as [|c h IH]; intros [|c' h'] X; [reflexivity | specialize (X 0); discriminate | specialize (X 0); discriminate|].
  f_equal; [specialize (X 0); cbn in X; congruence|]. apply IH. intros i. exact (X (S i)).
Qed.

Lemma set_data_inv ops h k l p : inv (ops ++ [(k, None, p)]) h -> inv (ops ++ [(k, Some l, p)]) (set_data h (length ops) l).
Proof.
  intros (L & I).
  assert (Snd : forall i, option_map snd (nth_error (ops ++ [(k, Some l, p)]) i) = option_map snd (nth_error (ops ++ [(k, None, p)]) i)).
  { intros i. destruct (lt_eq_lt_dec i (length ops)) as [[B|B]|B].
    - now rewrite !nth_error_app1 by assumption.
    - subst i. rewrite !nth_error_app2, Nat.sub_diag by lia. reflexivity.
    - rewrite !(proj2 (nth_error_None _ i)); [reflexivity | rewrite app_length; cbn; lia | rewrite app_length; cbn; lia]. }
  assert (Ln : forall n l', line (ops ++ [(k, Some l, p)]) n l' -> line (ops ++ [(k, None, p)]) n l').
  { induction 1 as [n o E P|n o q l' E P Q IH]; specialize (Snd n); rewrite E in Snd; cbn in Snd;
      destruct (nth_error (ops ++ [(k, None, p)]) n) as [o'|] eqn:E'; try discriminate; cbn in Snd; injection Snd as Snd;
      [eapply line_root | eapply line_child]; eauto; congruence. }
  assert (Kd : forall i, kids (ops ++ [(k, None, p)]) i = kids (ops ++ [(k, Some l, p)]) i).
  { intros i. unfold kids. rewrite !app_length. cbn [length]. apply filter_ext. intros j. unfold child_of. specialize (Snd j).
    destruct (nth_error (ops ++ [(k, Some l, p)]) j) as [o|], (nth_error (ops ++ [(k, None, p)]) j) as [o'|]; try discriminate; [|reflexivity].
    cbn in Snd. injection Snd as ->. reflexivity. }
  split; [unfold set_data; rewrite update_length, L, !app_length; reflexivity|].
  intros i o E. unfold set_data. rewrite update_nth. destruct (Nat.eqb_spec i (length ops)) as [->|Ne].
  - rewrite nth_error_app2, Nat.sub_diag in E by lia. cbn in E. injection E as <-.
    destruct (I (length ops) (k, None, p)) as (c & -> & C1 & C2 & C3 & C4 & C5); [rewrite nth_error_app2, Nat.sub_diag by lia; reflexivity|].
    cbn [option_map]. eexists. split; [reflexivity|]. cbn in *. rewrite <- Kd. auto 7.
  - assert (B : i < length ops) by (assert (i < length (ops ++ [(k, Some l, p)])) by (apply nth_error_Some; congruence); rewrite app_length in *; cbn in *; lia).
    rewrite nth_error_app1 in E by assumption.
    destruct (I i o) as (c & -> & C1 & C2 & C3 & C4 & C5); [now rewrite nth_error_app1|].
    eexists. split; [reflexivity|]. rewrite <- Kd. auto 7.
Qed.

(** ** build_tree *)
Section item_ind.
Variable P : item V -> Prop.
Hypothesis HD : forall l, P (Data l).
Hypothesis HS : forall d, Forall (fun kv => P (snd kv)) d -> P (Sub d).
Fixpoint item_ind2 (v : item V) : P v :=
  match v with
  | Data l => HD l
  | Sub d => HS ((fix go d : Forall (fun kv => P (snd kv)) d := match d with [] => Forall_nil _ | kv :: d' => Forall_cons kv (item_ind2 (snd kv)) (go d') end) d)
  end.
End item_ind.

(** The nodes of an entry at position [s] *)
Fixpoint flat_entry (p : option nat) (s : nat) (k : string) (v : item V) : list op :=
  match v with
  | Data l => [(k, Some l, p)]
  | Sub d => (k, None, p) :: (fix go (s' : nat) (d : list (string * item V)) : list op :=
               match d with [] => [] | (k', v') :: d' => flat_entry (Some s) s' k' v' ++ go (s' + length (flat_entry (Some s) s' k' v')) d' end) (S s) d
  end.
Fixpoint flat_list (p : option nat) (s : nat) (d : list (string * item V)) : list op :=
  match d with [] => [] | (k, v) :: d' => flat_entry p s k v ++ flat_list p (s + length (flat_entry p s k v)) d' end.
Lemma flat_entry_sub p s k d : flat_entry p s k (Sub d) = (k, None, p) :: flat_list (Some s) (S s) d.
Proof.
  cbn. f_equal. generalize (S s) as s'. induction d as [|(k', v') d IH]; intros s'; [reflexivity|]. cbn. now rewrite IH.
Qed.
Definition flat_bound (p : option nat) (s : nat) (os : list op) : Prop :=
  forall i o, nth_error os i = Some o -> snd o = p \/ exists q, snd o = Some q /\ s <= q < s + i.
Lemma flat_bound_app p s l1 l2 : flat_bound p s l1 -> flat_bound p (s + length l1) l2 -> flat_bound p s (l1 ++ l2).
Proof.
  intros A B i o E. destruct (Nat.lt_ge_cases i (length l1)) as [C|C].
  - rewrite nth_error_app1 in E by assumption. eauto.
  - rewrite nth_error_app2 in E by assumption. destruct (B _ _ E) as [Q|(q & Q & R)]; [now left | right]. exists q. split; [exact Q | lia].
Qed.
Lemma flat_list_bound d : Forall (fun kv => forall p s k, flat_bound p s (flat_entry p s k (snd kv))) d -> forall p s, flat_bound p s (flat_list p s d).
Proof.
  induction 1 as [|(k, v) d H _ IH]; intros p s; [intros [|i] o E; discriminate|]. cbn. apply flat_bound_app; [apply H | apply IH].
Qed.
Lemma flat_entry_bound v : forall p s k, flat_bound p s (flat_entry p s k v).
Proof.
  induction v as [l|d H] using item_ind2; intros p s k.
  - intros [|[|i]] o E; try discriminate. cbn in E. injection E as <-. now left.
  - rewrite flat_entry_sub. intros [|i] o E; [cbn in E; injection E as <-; now left|]. right. cbn in E.
    destruct (flat_list_bound H _ _ _ E) as [Q|(q & Q & R)]; [exists s | exists q]; (split; [exact Q | lia]).
Qed.
Lemma flat_list_bound' p s d : flat_bound p s (flat_list p s d).
Proof. apply flat_list_bound. apply Forall_forall. intros kv _. apply flat_entry_bound. Qed.
Lemma valid_app ops p os : valid ops -> match p with Some q => q < length ops | None => True end -> flat_bound p (length ops) os -> valid (ops ++ os).
Proof.
  intros W P B i o q E Q. destruct (Nat.lt_ge_cases i (length ops)) as [C|C].
  - rewrite nth_error_app1 in E by assumption. eauto.
  - rewrite nth_error_app2 in E by assumption. destruct (B _ _ E) as [R|(q' & R & S)].
    + rewrite Q in R. subst p. lia.
    + rewrite Q in R. injection R as <-. lia.
Qed.

Definition build_list (st : heap V * list nat) (p : option nat) (d : list (string * item V)) : heap V * list nat :=
  fold_left (fun st kv => build_entry st p (fst kv) (snd kv)) d st.
Lemma build_entry_sub st p k d : build_entry st p k (Sub d) = let '(h, n) := new_node (fst st) k None p in build_list (h, snd st ++ [n]) (Some n) d.
Proof.
  cbn [build_entry]. destruct (new_node (fst st) k None p) as (h, n). unfold build_list. generalize (h, snd st ++ [n]) as st'.
  induction d as [|(k', v') d IH]; intros st'; [reflexivity|]. cbn [fold_left fst snd]. apply IH.
Qed.
Lemma build_list_flat d : Forall (fun kv => forall ops tree p k, valid ops -> match p with Some q => q < length ops | None => True end ->
    build_entry (create ops, tree) p k (snd kv) = (create (ops ++ flat_entry p (length ops) k (snd kv)), tree ++ seq (length ops) (length (flat_entry p (length ops) k (snd kv))))) d ->
  forall ops tree p, valid ops -> match p with Some q => q < length ops | None => True end ->
  build_list (create ops, tree) p d = (create (ops ++ flat_list p (length ops) d), tree ++ seq (length ops) (length (flat_list p (length ops) d))).
Proof.
  induction 1 as [|(k, v) d H _ IH]; intros ops tree p W P; [cbn; now rewrite !app_nil_r|]. cbn [build_list fold_left fst snd flat_list].
  cbn [snd] in H. rewrite H by assumption. unfold build_list in IH.
  assert (W' : valid (ops ++ flat_entry p (length ops) k v)) by (eapply valid_app; eauto using flat_entry_bound).
  rewrite IH; [|exact W' | destruct p; [rewrite app_length; lia | exact I]]. rewrite !app_length, <- !app_assoc. f_equal. f_equal. rewrite seq_app. reflexivity.
Qed.
Lemma build_entry_flat v : forall ops tree p k, valid ops -> match p with Some q => q < length ops | None => True end ->
  build_entry (create ops, tree) p k v = (create (ops ++ flat_entry p (length ops) k v), tree ++ seq (length ops) (length (flat_entry p (length ops) k v))).
Proof.
  induction v as [l|d H] using item_ind2; intros ops tree p k W P.
  - cbn [build_entry flat_entry length seq fst snd].
    assert (W1 : valid (ops ++ [(k, None, p)])) by (apply (@valid_app ops p _ W P); intros [|[|i]] o E; try discriminate; injection E as <-; now left).
    assert (W2 : valid (ops ++ [(k, Some l, p)])) by (apply (@valid_app ops p _ W P); intros [|[|i]] o E; try discriminate; injection E as <-; now left).
    destruct (@new_node_inv ops _ (k, None, p) W1 (create_inv W)) as (I1 & E1). cbn [fst snd] in *.
    destruct (new_node (create ops) k None p) as (h, n). cbn [fst snd] in *. subst n. f_equal.
    apply (inv_unique W2); [now apply set_data_inv | now apply create_inv].
  - rewrite build_entry_sub, flat_entry_sub. cbn [fst snd length seq].
    assert (W1 : valid (ops ++ [(k, None, p)])) by (apply (@valid_app ops p _ W P); intros [|[|i]] o E; try discriminate; injection E as <-; now left).
    pose proof (create_snoc ops (k, None, p)) as C. cbn [fst snd] in C.
    destruct (@new_node_inv ops _ (k, None, p) W1 (create_inv W)) as (_ & E1). cbn [fst snd] in E1.
    destruct (new_node (create ops) k None p) as (h, n). cbn [fst snd] in *. subst n h.
    assert (Ln : length (ops ++ [(k, None, p)]) = S (length ops)) by (rewrite app_length; cbn; lia).
    rewrite (build_list_flat H); [|exact W1 | rewrite Ln; lia]. rewrite Ln, <- !app_assoc. reflexivity.
Qed.
Lemma build_tree_flat d : M_Nodes.build_tree d = (create (flat_list None 0 d), seq 0 (length (flat_list None 0 d))).
Proof.
  unfold M_Nodes.build_tree. pose proof (@build_list_flat d) as X. unfold build_list in X.
  specialize (X (proj2 (Forall_forall _ d) (fun kv _ => @build_entry_flat (snd kv))) [] [] None).
  cbn [length app] in X. apply X; [|exact I]. intros [|i] o p E; discriminate.
Qed.

(** ** The stored trees *)
Fixpoint starts (p : option nat) (s : nat) (d : list (string * item V)) : list nat :=
  match d with [] => [] | (k, v) :: d' => s :: starts p (s + length (flat_entry p s k v)) d' end.
Lemma flat_entry_head p s k v : exists o os, flat_entry p s k v = o :: os /\ snd o = p.
Proof. destruct v; eexists; eexists; (split; [reflexivity | reflexivity]). Qed.

Lemma filter_none (f : nat -> bool) l : (forall x, In x l -> f x = false) -> filter f l = [].
Proof. induction l as [|x l IH]; intros H; [reflexivity|]. cbn. rewrite (H x (or_introl eq_refl)). apply IH. intros y Hy. apply H. now right. Qed.
Lemma nth_mid (l1 l2 l3 : list op) i : i < length l2 -> nth_error (l1 ++ l2 ++ l3) (length l1 + i) = nth_error l2 i.
Proof. intros B. rewrite nth_error_app2 by lia. replace (length l1 + i - length l1) with i by lia. now rewrite nth_error_app1. Qed.

(** the children of [s] among the nodes of a list of entries with parent [s] *)
Lemma kids_list d s : forall pre post, s < length pre ->
  filter (child_of (pre ++ flat_list (Some s) (length pre) d ++ post) s) (seq (length pre) (length (flat_list (Some s) (length pre) d))) = starts (Some s) (length pre) d.
Proof.
  induction d as [|(k, v) d IH]; intros pre post B; [reflexivity|]. cbn [flat_list starts].
  set (e := flat_entry (Some s) (length pre) k v). rewrite app_length, seq_app, filter_app.
  assert (Le : length (pre ++ e) = length pre + length e) by apply app_length.
  specialize (IH (pre ++ e) post ltac:(lia)). rewrite Le in IH. rewrite <- app_assoc in *. rewrite IH.
  change (length pre :: ?x) with ([length pre] ++ x). f_equal.
  destruct (flat_entry_head (Some s) (length pre) k v) as (o & os & E & Q). fold e in E.
  assert (N : forall i, i < length e -> child_of (pre ++ e ++ flat_list (Some s) (length pre + length e) d ++ post) s (length pre + i) = match i with 0 => true | _ => false end).
  { intros i Bi. unfold child_of. rewrite nth_mid by assumption. destruct (nth_error e i) as [o'|] eqn:Ei; [|apply nth_error_None in Ei; lia].
    destruct i as [|i].
    - rewrite E in Ei. cbn in Ei. injection Ei as <-. rewrite Q. apply Nat.eqb_refl.
    - assert (X : exists q, snd o' = Some q /\ length pre <= q).
      { clear - Ei e B. unfold e in Ei. destruct v as [l|dd]; [destruct i; discriminate|]. rewrite flat_entry_sub in Ei. cbn in Ei.
        destruct (flat_list_bound' _ _ _ _ Ei) as [X|(q & X & Y)]; eauto. exists q. split; [exact X | lia]. }
      destruct X as (q & -> & Y). apply Nat.eqb_neq. lia. }
  revert N. generalize (child_of (pre ++ e ++ flat_list (Some s) (length pre + length e) d ++ post) s) as F. intros F N.
  assert (Pe : 0 < length e) by (rewrite E; cbn; lia). destruct (length e) as [|m]; [lia|]. cbn [seq filter].
  pose proof (N 0 ltac:(lia)) as N0. rewrite Nat.add_0_r in N0. rewrite N0. f_equal. apply filter_none.
  intros x Ix. apply in_seq in Ix. specialize (N (x - length pre) ltac:(lia)). replace (length pre + (x - length pre)) with x in N by lia.
  rewrite N. destruct (x - length pre) eqn:X; [lia | reflexivity].
Qed.

Lemma kids_entry ops pre post p k d : valid ops -> ops = pre ++ flat_entry p (length pre) k (Sub d) ++ post ->
  (forall o q, In o post -> snd o = Some q -> q < length pre \/ length pre + length (flat_entry p (length pre) k (Sub d)) <= q) ->
  kids ops (length pre) = starts (Some (length pre)) (S (length pre)) d.
Proof.
  intros W E H. unfold kids. rewrite flat_entry_sub in *. set (s := length pre) in *.
  set (os := flat_list (Some s) (S s) d) in *.
  assert (L : length ops = S s + (length os + length post)) by (rewrite E, !app_length; cbn; rewrite ?app_length; fold s; lia).
  rewrite L, !seq_app, !filter_app. cbn [Nat.add].
  rewrite (@filter_none _ (seq 0 (S s))).
  - rewrite (@filter_none _ (seq (S (s + length os)) (length post))).
    + rewrite app_nil_r. cbn [app]. assert (Lp : length (pre ++ [(k, None, p)]) = S s) by (rewrite app_length; cbn; unfold s; lia).
      pose proof (@kids_list d s (pre ++ [(k, None, p)]) post ltac:(lia)) as X. rewrite Lp in X. fold os in X.
      rewrite <- app_assoc in X. cbn [app] in X. rewrite E. cbn [app]. exact X.
    + intros x Ix. apply in_seq in Ix. unfold child_of. destruct (nth_error ops x) as [o|] eqn:Ex; [|reflexivity].
      destruct (snd o) as [q|] eqn:Q; [|reflexivity]. apply Nat.eqb_neq.
      assert (In o post).
      { rewrite E, app_assoc, nth_error_app2 in Ex; [now apply nth_error_In in Ex|]. rewrite app_length. cbn. fold s. lia. }
      destruct (H o q H0 Q); cbn in *; lia.
  - intros x Ix. apply in_seq in Ix. unfold child_of. destruct (nth_error ops x) as [o|] eqn:Ex; [|reflexivity].
    destruct (snd o) as [q|] eqn:Q; [|reflexivity]. apply Nat.eqb_neq. pose proof (W x o q Ex Q). lia.
Qed.

Definition outside (s e : nat) (post : list op) : Prop := forall o q, In o post -> snd o = Some q -> q < s \/ e <= q.
Definition at_node (h : heap V) (x : nat * node V) (m : nat) : Prop := exists p, stored h p (fst x) (snd x) m.
Fixpoint stored_list (h : heap V) (p : option nat) (lv : nat) (ts : list (node V)) (ns : list nat) : Prop :=
  match ts, ns with
  | [], [] => True
  | t :: ts', n :: ns' => stored h p lv t n /\ stored_list h p lv ts' ns'
  | _, _ => False
  end.
Lemma stored_node h p lv name data ch n : stored h p lv (Node name data ch) n <->
  exists c, nth_error h n = Some c /\ c_name c = name /\ c_data c = data /\ c_parent c = p /\ c_level c = lv /\ stored_list h (Some n) (S lv) ch (c_children c).
Proof.
  cbn [stored]. assert (X : forall ns, (fix go (ts : list (node V)) (ns : list nat) : Prop :=
       match ts, ns with
       | [], [] => True
       | t :: ts', n' :: ns' => stored h (Some n) (S lv) t n' /\ go ts' ns'
       | _, _ => False
       end) ch ns <-> stored_list h (Some n) (S lv) ch ns).
  { induction ch as [|t ch IH]; intros [|n' ns]; try reflexivity. cbn [stored_list]. now rewrite IH. }
  split; intros (c & A & B & C & D & E & F); exists c; rewrite ?X in *; auto 7.
Qed.
Lemma build_node_sub k (d : list (string * item V)) : build_node k (Sub d) = Node k None (M_Output.build_tree d).
Proof. cbn. f_equal. induction d as [|(k', v') d IH]; [reflexivity|]. cbn. now rewrite IH. Qed.
Lemma nodes_of_node lv name data (ch : list (node V)) : nodes_of lv (Node name data ch) = (lv, Node name data ch) :: flat_map (nodes_of (S lv)) ch.
Proof. reflexivity. Qed.

Definition entry_ok (v : item V) : Prop := forall k ops h pre post p l, valid ops -> inv ops h -> ops = pre ++ flat_entry p (length pre) k v ++ post ->
  outside (length pre) (length pre + length (flat_entry p (length pre) k v)) post -> line ops (length pre) l ->
  stored h p (length l) (build_node k v) (length pre) /\
  Forall2 (at_node h) (nodes_of (length l) (build_node k v)) (seq (length pre) (length (flat_entry p (length pre) k v))).

Lemma list_ok d : Forall (fun kv => entry_ok (snd kv)) d -> forall ops h pre post p lv, valid ops -> inv ops h ->
  ops = pre ++ flat_list p (length pre) d ++ post -> match p with Some q => q < length pre | None => True end ->
  outside (length pre) (length pre + length (flat_list p (length pre) d)) post ->
  (forall s l, In s (starts p (length pre) d) -> line ops s l -> length l = lv) ->
  stored_list h p lv (M_Output.build_tree d) (starts p (length pre) d) /\
  Forall2 (at_node h) (flat_map (nodes_of lv) (M_Output.build_tree d)) (seq (length pre) (length (flat_list p (length pre) d))).
Proof.
  induction 1 as [|(k, v) d H _ IH]; intros ops h pre post p lv W I E P O Lv; [split; [exact Logic.I | constructor]|].
  cbn [flat_list starts M_Output.build_tree map fst snd flat_map stored_list] in *.
  set (e := flat_entry p (length pre) k v) in *.
  assert (Le : length (pre ++ e) = length pre + length e) by apply app_length.
  assert (Pe : 0 < length e) by (destruct (flat_entry_head p (length pre) k v) as (o & os & Q & _); unfold e; rewrite Q; cbn; lia).
  assert (Pl : length pre < length ops) by (rewrite E, !app_length; lia).
  destruct (line_exists W Pl) as (l & Ll). assert (Len : length l = lv) by (eapply Lv; [now left | exact Ll]).
  destruct (H k ops h pre (flat_list p (length pre + length e) d ++ post) p l W I) as (S1 & F1).
  { rewrite E, <- app_assoc. reflexivity. }
  { fold e. intros o q Io Q. apply in_app_or in Io as [Io|Io].
    - apply In_nth_error in Io as (i & Ei). destruct (flat_list_bound' _ _ _ _ Ei) as [X|(q' & X & Y)].
      + rewrite Q in X. subst p. now left.
      + rewrite Q in X. injection X as <-. right. lia.
    - destruct (O o q Io Q); [now left | right]. rewrite app_length in *. lia. }
  { exact Ll. }
  rewrite Len in S1, F1. fold e in F1.
  specialize (IH ops h (pre ++ e) post p lv W I). rewrite Le in IH. destruct IH as (S2 & F2).
  { rewrite E, <- !app_assoc. reflexivity. }
  { destruct p; [lia | exact Logic.I]. }
  { intros o q Io Q. rewrite app_length in O. destruct (O o q Io Q); [left; lia | right; lia]. }
  { intros s l' Is. apply Lv. now right. }
  split; [split; assumption|]. rewrite app_length, seq_app. apply Forall2_app; assumption.
Qed.

Lemma starts_kids d : forall p s x, In x (starts p s d) -> exists i o, nth_error (flat_list p s d) i = Some o /\ x = s + i /\ snd o = p.
Proof.
  induction d as [|(k, v) d IH]; intros p s x I; [destruct I|]. cbn in *. destruct I as [<-|I].
  - destruct (flat_entry_head p s k v) as (o & os & E & Q). rewrite E. exists 0, o. split; [reflexivity|]. split; [lia | exact Q].
  - destruct (IH _ _ _ I) as (i & o & E & X & Q). exists (length (flat_entry p s k v) + i), o. split; [|split; [lia | exact Q]].
    rewrite nth_error_app2 by lia. replace (length (flat_entry p s k v) + i - length (flat_entry p s k v)) with i by lia. exact E.
Qed.

Lemma entry_all v : entry_ok v.
Proof.
  induction v as [l0|d H] using item_ind2; intros k ops h pre post p l W I E O Ll.
  - cbn [flat_entry length seq build_node] in *.
    assert (S : stored h p (length l) (Node k (Some l0) []) (length pre)).
    { apply stored_node. destruct I as (Lh & N). destruct (N (length pre) (k, Some l0, p)) as (c & C0 & C1 & C2 & C3 & C4 & C5).
      - rewrite E, nth_error_app2, Nat.sub_diag by lia. reflexivity.
      - exists c. do 4 (split; [assumption|]). split; [auto|]. rewrite C4. unfold kids. rewrite filter_none; [exact Logic.I|].
        intros x Ix. apply in_seq in Ix. unfold child_of. destruct (nth_error ops x) as [o|] eqn:Ex; [|reflexivity].
        destruct (snd o) as [q|] eqn:Q; [|reflexivity]. apply Nat.eqb_neq. intros ->. pose proof (W x o _ Ex Q) as B.
        assert (Io : In o post). { rewrite E, app_assoc, nth_error_app2 in Ex; [now apply nth_error_In in Ex | rewrite app_length; cbn; lia]. }
        destruct (O o _ Io Q); lia. }
    split; [exact S|]. rewrite nodes_of_node. constructor; [exists p; exact S | constructor].
  - rewrite build_node_sub. pose proof (@kids_entry ops pre post p k d W E O) as K. rewrite flat_entry_sub in *.
    set (s := length pre) in *. assert (Lp : length (pre ++ [(k, None, p)]) = S s) by (rewrite app_length; cbn; unfold s; lia).
    pose proof I as (Lh & N). destruct (N s (k, None, p)) as (c & C0 & C1 & C2 & C3 & C4 & C5).
    { rewrite E, nth_error_app2 by (unfold s; lia). unfold s. rewrite Nat.sub_diag. reflexivity. }
    pose proof (@list_ok d H ops h (pre ++ [(k, None, p)]) post (Some s) (S (length l)) W I) as X. rewrite Lp in X.
    destruct X as (S1 & F1).
    { rewrite E, <- app_assoc. reflexivity. }
    { lia. }
    { intros o q Io Q. destruct (O o q Io Q) as [Y|Y]; [left; lia | right; cbn in Y; lia]. }
    { intros x l' Ix L'. rewrite <- K in Ix. apply in_kids in Ix as (o & Eo & Q).
      assert (line ops x (s :: l)) by (econstructor; eauto). rewrite (line_fun L' H0). reflexivity. }
    assert (St : stored h p (length l) (Node k None (M_Output.build_tree d)) s).
    { apply stored_node. exists c. do 4 (split; [assumption|]). split; [auto|]. rewrite C4, K. exact S1. }
    split; [exact St|]. rewrite nodes_of_node. cbn [length seq]. constructor; [exists p; exact St | exact F1].
Qed.

(** ** Following references in a stored tree *)
Lemma stored_list_Forall2 h p lv ts ns : stored_list h p lv ts ns <-> Forall2 (stored h p lv) ts ns.
Proof.
  revert ns. induction ts as [|t ts IH]; intros [|n ns]; cbn [stored_list]; split; intros H; try constructor; try (inversion H; fail); try tauto.
  - destruct H. now apply IH.
  - inversion H; subst. assumption.
  - inversion H; subst. now apply IH.
Qed.
Lemma all_descendents_node lv name data (ch : list (node V)) : all_descendents lv (Node name data ch) = map (pair (S lv)) ch ++ flat_map (all_descendents (S lv)) ch.
Proof. reflexivity. Qed.
Lemma n_descendents_node name data (ch : list (node V)) : n_descendents (Node name data ch) = length ch + list_sum (map (@n_descendents V) ch).
Proof. cbn. f_equal. induction ch as [|t ch IH]; [reflexivity|]. cbn. now rewrite IH. Qed.
Lemma stored_descendents ops h : valid ops -> inv ops h -> forall fuel t p lv n, n < length ops -> length ops - n <= fuel -> stored h p lv t n ->
  Forall2 (at_node h) (all_descendents lv t) (get_all_descendents fuel h n) /\ n_descendents t = get_n_descendents fuel h n.
Proof.
  intros W I. induction fuel as [|fuel IH]; intros t p lv n B F St; [lia|]. destruct t as [name data ch].
  apply stored_node in St as (c & C0 & C1 & C2 & C3 & C4 & C5). apply stored_list_Forall2 in C5.
  assert (Kc : children h n = c_children c) by (unfold children; now rewrite C0).
  assert (Kb : forall x, In x (c_children c) -> n < x < length ops).
  { intros x Ix. rewrite <- Kc, (inv_children I B) in Ix. now apply kids_lt in Ix. }
  cbn [get_all_descendents get_n_descendents]. rewrite all_descendents_node, n_descendents_node, Kc. clear Kc C0. split.
  - apply Forall2_app.
    + clear - C5. induction C5 as [|t n' ts ns S _ IHf]; [constructor|]. cbn. constructor; [exists (Some n); exact S | exact IHf].
    + revert Kb. induction C5 as [|t n' ts ns S _ IHf]; intros Kb; [constructor|]. cbn. apply Forall2_app.
      * destruct (Kb n' (or_introl eq_refl)). eapply IH; [lia | lia | exact S].
      * apply IHf. intros x Ix. apply Kb. now right.
  - assert (X : list_sum (map (@n_descendents V) ch) = list_sum (map (get_n_descendents fuel h) (c_children c)) /\ length ch = length (c_children c)).
    { revert Kb. clear - C5 IH F. induction C5 as [|t n' ts ns S _ IHf]; intros Kb; [split; reflexivity|]. destruct IHf as (IH1 & IH2); [intros x Ix; apply Kb; now right|]. cbn.
      destruct (Kb n' (or_introl eq_refl)). destruct (IH t _ _ n' ltac:(lia) ltac:(lia) S) as (_ & ->). unfold list_sum in IH1. rewrite IH1, IH2. split; reflexivity. }
    destruct X as (-> & ->). destruct (c_children c); reflexivity.
Qed.

(** ** Copies *)
Lemma line_app ops new n l : line ops n l -> line (ops ++ new) n l.
Proof.
  induction 1 as [n o E P|n o p l E P L IH]; [eapply line_root | eapply line_child]; eauto; (rewrite nth_error_app1; [exact E | apply nth_error_Some; congruence]).
Qed.

Definition name_of ops (n : nat) : string := match nth_error ops n with Some o => fst (fst o) | None => "" end.
Definition parent_of ops (n : nat) : option nat := match nth_error ops n with Some o => snd o | None => None end.
(** The copies [new] of the nodes [olds] *)
Definition copies ops (cut : nat) (olds : list nat) (new : list op) : Prop :=
  length new = length olds /\
  forall j n l, nth_error olds j = Some n -> line ops n l -> exists o, nth_error new j = Some o /\ fst (fst o) = name_of ops n /\ snd (fst o) = None /\
    ((length l = cut /\ snd o = None) \/
     (cut < length l /\ exists p k l', l = p :: l' /\ nth_error olds k = Some p /\ k < j /\ snd o = Some (length ops + k))).
Definition split_inv ops (cut : nat) (olds : list nat) (st : split_state V) : Prop :=
  exists new, fst (fst st) = create (ops ++ new) /\ valid (ops ++ new) /\ copies ops cut olds new /\
    snd st = seq (length ops) (length olds) /\
    (forall p, In p olds -> exists k, nth_error olds k = Some p /\ lookup (snd (fst st)) p = Ok (length ops + k)).

Lemma split_one_ok ops cut lv olds st n l : valid ops -> split_inv ops cut olds st -> line ops n l -> length l = lv -> cut <= lv ->
  (forall p l', l = p :: l' -> cut < lv -> In p olds) ->
  exists st', split_one cut lv st n = Ok st' /\ split_inv ops cut (olds ++ [n]) st'.
Proof.
  intros W0 (new & Eh & W & (Ln & Cp) & Pr & Lk) L Lv Cl Hp. destruct st as ((h, m), pruned). cbn [fst snd] in *. subst h.
  pose proof (line_bound L) as B. pose proof (create_inv W) as I.
  assert (Gp : get_parent (create (ops ++ new)) n = parent_of ops n) by (rewrite (inv_parent n I), nth_error_app1 by assumption; reflexivity).
  assert (Nm : match nth_error (create (ops ++ new)) n with Some c => c_name c | None => "" end = name_of ops n).
  { unfold name_of. destruct (nth_error ops n) as [o|] eqn:E; [|apply nth_error_None in E; lia].
    destruct I as (_ & N). destruct (N n o) as (c & -> & C & _); [now rewrite nth_error_app1|]. exact C. }
  unfold split_one. rewrite Gp, Nm.
  assert (Step : forall q, (match q with Some x => exists k p l', x = length ops + k /\ l = p :: l' /\ nth_error olds k = Some p /\ cut < lv | None => lv = cut end) ->
     split_inv ops cut (olds ++ [n]) (fst (new_node (create (ops ++ new)) (name_of ops n) None q), (n, length ops + length olds) :: m, pruned ++ [length ops + length olds]) /\
     snd (new_node (create (ops ++ new)) (name_of ops n) None q) = length ops + length olds).
  { intros q Hq. pose proof (create_snoc (ops ++ new) (name_of ops n, None, q)) as Cs. cbn [fst snd] in Cs.
    assert (W' : valid ((ops ++ new) ++ [(name_of ops n, None, q)])).
    { apply (@valid_app (ops ++ new) q _ W).
      - destruct q as [x|]; [|exact Logic.I]. destruct Hq as (k & p & l' & -> & _ & Nk & _). rewrite app_length. assert (k < length olds) by (apply nth_error_Some; congruence). lia.
      - intros [|[|i]] o E; try discriminate. injection E as <-. now left. }
    split.
    - exists (new ++ [(name_of ops n, None, q)]). cbn [fst snd]. rewrite app_assoc. split; [now symmetry|]. split; [exact W'|]. split; [|split].
      + split; [rewrite !app_length, Ln; reflexivity|]. intros j n' l' Ej L'. destruct (Nat.lt_ge_cases j (length olds)) as [C|C].
        * rewrite nth_error_app1 in Ej by assumption. destruct (Cp j n' l' Ej L') as (o & Eo & O1 & O2 & O3). exists o.
          split; [rewrite nth_error_app1; [exact Eo | lia]|]. split; [exact O1|]. split; [exact O2|].
          destruct O3 as [O3|(O3 & p & k & l1 & P1 & P2 & P3 & P4)]; [now left | right]. split; [exact O3|]. exists p, k, l1.
          split; [exact P1|]. split; [rewrite nth_error_app1; [exact P2 | lia]|]. auto.
        * rewrite nth_error_app2 in Ej by assumption. destruct (j - length olds) as [|[|i]] eqn:Ji; try discriminate. cbn in Ej. injection Ej as <-.
          assert (j = length olds) as -> by lia. rewrite (line_fun L' L). eexists. split; [rewrite nth_error_app2, Ln, Nat.sub_diag by lia; reflexivity|].
          cbn [fst snd]. split; [reflexivity|]. split; [reflexivity|]. destruct q as [x|]; [right | left; split; [lia | reflexivity]].
          destruct Hq as (k & p & l1 & -> & P1 & P2 & P3). split; [lia|]. exists p, k, l1. split; [exact P1|].
          assert (k < length olds) by (apply nth_error_Some; congruence). split; [now rewrite nth_error_app1|]. auto.
      + rewrite Pr, app_length. cbn [length]. rewrite Nat.add_1_r, seq_S. reflexivity.
      + intros p Ip. unfold lookup. cbn [find fst]. destruct (Nat.eqb_spec n p) as [->|Ne].
        * exists (length olds). split; [now rewrite nth_error_app2, Nat.sub_diag by lia | reflexivity].
        * apply in_app_or in Ip as [Ip|[->|[]]]; [|contradiction]. destruct (Lk p Ip) as (k & Nk & Ek). exists k.
          split; [rewrite nth_error_app1; [exact Nk | apply nth_error_Some; congruence] | exact Ek].
    - destruct (@new_node_inv (ops ++ new) (create (ops ++ new)) (name_of ops n, None, q) W' I) as (_ & E). cbn [fst snd] in E. rewrite E, app_length. lia. }
  destruct (Nat.eqb_spec lv cut) as [Ec|Ec].
  - cbn [bind]. destruct (Step None Ec) as (S1 & S2). destruct (new_node (create (ops ++ new)) (name_of ops n) None None) as (h', n'). cbn [fst snd] in *. subst n'.
    eexists. split; [reflexivity | exact S1].
  - unfold parent_of. inversion L as [n0 o E Q|n0 o p l' E Q L']; subst n0; rewrite E, Q.
    + subst l. cbn in Lv. lia.
    + assert (Ip : In p olds) by (apply (Hp p l'); [congruence | lia]). destruct (Lk p Ip) as (k & Nk & Ek). rewrite Ek. cbn [bind].
      destruct (Step (Some (length ops + k))) as (S1 & S2); [exists k, p, l'; repeat split; auto; lia|].
      destruct (new_node (create (ops ++ new)) (name_of ops n) None (Some (length ops + k))) as (h', n'). cbn [fst snd] in *. subst n'.
      eexists. split; [reflexivity | exact S1].
Qed.

Lemma split_level_ok ops cut lv : valid ops -> cut <= lv -> forall ns olds st, split_inv ops cut olds st ->
  (forall n, In n ns -> exists l, line ops n l /\ length l = lv /\ forall p l', l = p :: l' -> cut < lv -> In p olds) ->
  exists st', loop (split_one cut lv) st ns = Ok st' /\ split_inv ops cut (olds ++ ns) st'.
Proof.
  intros W Cl. induction ns as [|n ns IH]; intros olds st I H; [exists st; split; [reflexivity | now rewrite app_nil_r]|].
  destruct (H n (or_introl eq_refl)) as (l & L & Lv & Hp). destruct (split_one_ok W I L Lv Cl Hp) as (st1 & E1 & I1).
  destruct (IH (olds ++ [n]) st1 I1) as (st' & E' & I').
  { intros n' In'. destruct (H n' (or_intror In')) as (l' & L' & Lv' & Hp'). exists l'. split; [exact L'|]. split; [exact Lv'|].
    intros p l1 Q C. apply in_or_app. left. eauto. }
  exists st'. cbn [loop]. rewrite E1. cbn [bind]. split; [exact E'|]. rewrite <- app_assoc in I'. exact I'.
Qed.

Definition at_level ops (lv : nat) : list nat := get_nodes (create ops) (seq 0 (length ops)) lv.
Lemma in_at_level ops lv n : valid ops -> In n (at_level ops lv) <-> exists l, line ops n l /\ length l = lv.
Proof.
  intros W. unfold at_level, get_nodes. rewrite filter_In, in_seq. split.
  - intros (B & E). destruct (@line_exists ops W n ltac:(lia)) as (l & L). exists l. split; [exact L|]. apply Nat.eqb_eq in E.
    now rewrite (inv_level (create_inv W) L) in E.
  - intros (l & L & E). pose proof (line_bound L). split; [lia|]. apply Nat.eqb_eq. now rewrite (inv_level (create_inv W) L).
Qed.
Lemma get_nodes_app ops new lv : valid ops -> valid (ops ++ new) -> get_nodes (create (ops ++ new)) (seq 0 (length ops)) lv = at_level ops lv.
Proof.
  intros W W'. unfold at_level, get_nodes. apply filter_ext_in. intros n In'. apply in_seq in In'. destruct (@line_exists ops W n ltac:(lia)) as (l & L).
  now rewrite (inv_level (create_inv W) L), (inv_level (create_inv W') (line_app new L)).
Qed.
Lemma split_levels_ok ops cut : valid ops -> forall k lv olds st, cut <= lv -> split_inv ops cut olds st ->
  (forall p l, cut < lv -> line ops p l -> length l + 1 = lv -> In p olds) ->
  exists st', loop (fun st lv => loop (split_one cut lv) st (get_nodes (fst (fst st)) (seq 0 (length ops)) lv)) st (seq lv k) = Ok st' /\
    split_inv ops cut (olds ++ flat_map (at_level ops) (seq lv k)) st'.
Proof.
  intros W. induction k as [|k IH]; intros lv olds st Cl I Hp; [exists st; split; [reflexivity | cbn; now rewrite app_nil_r]|]. cbn [seq loop flat_map].
  pose proof I as (new & Eh & W' & _). rewrite Eh, (get_nodes_app _ _ W W').
  destruct (@split_level_ok ops cut lv W Cl (at_level ops lv) olds st I) as (st1 & E1 & I1).
  { intros n Hn. apply (in_at_level _ _ W) in Hn as (l & L & Lv). exists l. split; [exact L|]. split; [exact Lv|].
    intros p l' -> C. inversion L; subst. eapply Hp; eauto. cbn. lia. }
  rewrite E1. cbn [bind]. destruct (IH (S lv) (olds ++ at_level ops lv) st1 ltac:(lia) I1) as (st' & E' & I').
  { intros p l C L Q. apply in_or_app. right. apply (in_at_level _ _ W). exists l. split; [exact L | lia]. }
  exists st'. split; [exact E'|]. rewrite <- app_assoc in I'. exact I'.
Qed.

Lemma fold_max_spec : forall ls l x, In x (l :: ls) -> x <= fold_left Nat.max ls l.
Proof.
  induction ls as [|y ls IH]; intros l x [->|I]; cbn; try lia; [destruct I | |].
  - transitivity (Nat.max x y); [lia|]. apply IH. now left.
  - destruct I as [->|I]; [transitivity (Nat.max l x); [lia|]; apply IH; now left | apply IH; now right].
Qed.
Lemma max_level_spec ops : valid ops -> ops <> [] -> exists top, M_Nodes.max_level (create ops) (seq 0 (length ops)) = Ok top /\ forall n l, line ops n l -> length l < top.
Proof.
  intros W N. unfold M_Nodes.max_level. destruct (length ops) as [|m] eqn:Lm; [destruct ops; [contradiction | discriminate]|].
  cbn [seq map]. eexists. split; [reflexivity|]. intros n l L. rewrite <- (inv_level (create_inv W) L), Nat.add_1_r. apply Nat.lt_succ_r. apply fold_max_spec.
  pose proof (line_bound L). change (level (create ops) 0 :: map (level (create ops)) (seq 1 m)) with (map (level (create ops)) (seq 0 (S m))). apply in_map, in_seq. lia.
Qed.
End Nodes.

(** ** Properties *)
Lemma c98_lines__p :
  forall (V : Type) (ops : list (string * option (list V) * option nat)) n o,
    valid ops -> nth_error ops n = Some o ->
    exists c l, nth_error (create ops) n = Some c /\ c_name c = fst (fst o) /\ c_data c = snd (fst o) /\ c_parent c = snd o /\
      line ops n l /\ c_level c = length l /\ get_all_ancestors (length (create ops)) (create ops) n = l /\
      StronglySorted lt (c_children c) /\ forall m, In m (c_children c) <-> exists o', nth_error ops m = Some o' /\ snd o' = Some n.
Proof.
  intros V ops n o W E. pose proof (create_inv W) as I. pose proof I as (Lh & N). destruct (N n o E) as (c & C0 & C1 & C2 & C3 & C4 & C5).
  destruct (@line_exists V ops W n) as (l & L); [apply nth_error_Some; congruence|]. exists c, l.
  do 4 (split; [assumption|]). split; [exact L|]. split; [auto|]. split.
  - apply (ancestors_line I L). rewrite Lh. pose proof (line_length W L). pose proof (line_bound L). lia.
  - rewrite C4. split; [|intros m; apply in_kids]. unfold kids. clear. generalize 0 at 1. generalize (length ops) as m. induction m as [|k IH]; intros s; [constructor|]. cbn.
    destruct (child_of ops n s); [|apply IH]. constructor; [apply IH|]. apply Forall_forall. intros x Ix. apply filter_In in Ix as (Ix & _). apply in_seq in Ix. lia.
Qed.
Lemma c98_descendents__p :
  forall (V : Type) (ops : list (string * option (list V) * option nat)) n,
    valid ops -> n < length ops ->
    NoDup (get_all_descendents (length (create ops)) (create ops) n) /\
    (forall m, In m (get_all_descendents (length (create ops)) (create ops) n) <-> below ops n m) /\
    get_n_descendents (length (create ops)) (create ops) n = length (get_all_descendents (length (create ops)) (create ops) n).
Proof.
  intros V ops n W B. pose proof (create_inv W) as I. pose proof I as (Lh & _). rewrite Lh. split; [apply (NoDup_descendents W I B); lia|].
  split; [apply (descendents_below W I B); lia | apply n_descendents_length].
Qed.
Lemma c98_generations__p :
  forall (V : Type) (ops : list (string * option (list V) * option nat)) n,
    valid ops -> n < length ops ->
    exists l, NoDup l /\ (forall m, In m l <-> (m = n \/ below ops n m) /\ inner ops m) /\
      get_n_generations (length (create ops)) (create ops) n = length l.
Proof.
  intros V ops n W B. pose proof (create_inv W) as I. pose proof I as (Lh & _). rewrite Lh.
  exists (filter (is_inner (create ops)) (n :: get_all_descendents (length ops) (create ops) n)).
  assert (D : forall m, In m (get_all_descendents (length ops) (create ops) n) <-> below ops n m) by (apply (descendents_below W I B); lia).
  split; [|split; [|apply (n_generations_count W I B); lia]].
  - apply NoDup_filter. constructor; [|apply (NoDup_descendents W I B); lia]. intros H. apply D in H as (l & L & Il). pose proof (line_lt W L n Il). lia.
  - intros m. rewrite filter_In. cbn [In]. rewrite D.
    assert (Q : m = n \/ below ops n m -> (is_inner (create ops) m = true <-> inner ops m)).
    { intros H. assert (Bm : m < length ops) by (destruct H as [->|(l & L & _)]; [exact B | eapply line_bound; exact L]).
      unfold is_inner, inner. rewrite (inv_children I Bm). split.
      - intros E. destruct (kids ops m) as [|j js] eqn:K; [discriminate|]. assert (J : In j (kids ops m)) by (rewrite K; now left).
        apply in_kids in J as (o & ? & ?). eauto.
      - intros (i & o & E & S). assert (J : In i (kids ops m)) by (apply in_kids; eauto). destruct (kids ops m); [destruct J | reflexivity]. }
    split; intros (H & E); (split; [intuition congruence|]); apply Q in E; auto; intuition congruence.
Qed.
Lemma c98_families__p :
  forall (V : Type) (ops : list (string * option (list V) * option nat)),
    valid ops ->
    Permutation (List.concat (get_family_trees (create ops) (seq 0 (length ops)))) (seq 0 (length ops)) /\
    forall f, In f (get_family_trees (create ops) (seq 0 (length ops))) -> exists r, line ops r nil /\ forall m, In m f <-> m = r \/ below ops r m.
Proof.
  intros V ops W. pose proof (create_inv W) as I. pose proof I as (Lh & _).
  assert (Rt : forall r, In r (get_roots (create ops) (seq 0 (length ops))) <-> line ops r []).
  { intros r. unfold get_roots. rewrite filter_In, in_seq, (inv_parent r I). split.
    - intros (B & E). destruct (nth_error ops r) as [o|] eqn:Eo; [|apply nth_error_None in Eo; lia]. destruct (snd o) eqn:S; [discriminate|]. econstructor; eauto.
    - intros L. pose proof (line_bound L). split; [lia|]. inversion L as [r' o Eo S|]; subst. now rewrite Eo, S. }
  assert (Fm : forall r, line ops r [] -> forall m, In m (get_subtree (create ops) r) <-> m = r \/ below ops r m).
  { intros r L m. unfold get_subtree. cbn [In]. rewrite Lh, (descendents_below W I (line_bound L)) by lia. intuition congruence. }
  split; [|intros f If; apply in_map_iff in If as (r & <- & Ir); exists r; split; [now apply Rt | apply Fm; now apply Rt]].
  apply NoDup_Permutation; [|apply seq_NoDup|].
  - unfold get_family_trees. rewrite <- flat_map_concat_map.
    assert (X : forall rs, NoDup rs -> (forall r, In r rs -> line ops r []) -> NoDup (flat_map (get_subtree (create ops)) rs)).
    { induction rs as [|r rs IH]; intros N H; [constructor|]. inversion N as [|? ? N1 N2]; subst. cbn [flat_map]. pose proof (H r (or_introl eq_refl)) as Lr. apply NoDup_app.
      - unfold get_subtree. constructor; [|apply (NoDup_descendents W I (line_bound Lr)); lia]. rewrite Lh. intros Q. apply (descendents_below W I (line_bound Lr)) in Q; [|lia].
        destruct Q as (l & L & Il). pose proof (line_lt W L r Il). lia.
      - apply IH; [exact N2 | intros r' Ir; apply H; now right].
      - intros m M1 M2. apply in_flat_map in M2 as (r' & Ir' & M2). pose proof (H r' (or_intror Ir')) as Lr'. apply N1.
        apply (Fm r Lr) in M1. apply (Fm r' Lr') in M2.
        assert (Y : forall a, line ops a [] -> m = a \/ below ops a m -> forall l, line ops m l -> (l = [] /\ m = a) \/ exists l', l = l' ++ [a]).
        { intros a La Ha l L. destruct Ha as [->|(l' & L' & Ia)]; [left; split; [apply (line_fun L La) | reflexivity]|].
          rewrite (line_fun L L'). apply in_split in Ia as (l1 & l2 & ->). pose proof (line_cut L' _ _ _ eq_refl) as X2. rewrite (line_fun X2 La). right. now exists l1. }
        assert (Bm : m < length ops) by (destruct M1 as [->|(l & L & _)]; [eapply line_bound; exact Lr | eapply line_bound; exact L]).
        destruct (line_exists W Bm) as (l & L).
        destruct (Y r Lr M1 l L) as [(E1 & F1)|(l1 & E1)], (Y r' Lr' M2 l L) as [(E2 & F2)|(l2 & E2)].
        + now subst.
        + subst l. destruct l2; discriminate.
        + subst l. destruct l1; discriminate.
        + rewrite E1 in E2. apply app_inj_tail in E2 as (_ & ->). exact Ir'. }
    apply X; [apply NoDup_filter, seq_NoDup | intros r Ir; now apply Rt].
  - intros m. rewrite in_concat, in_seq. split.
    + intros (f & If & Im). apply in_map_iff in If as (r & <- & Ir). apply Rt in Ir. apply (Fm r Ir) in Im. split; [lia|].
      destruct Im as [->|(l & L & _)]; [exact (line_bound Ir) | exact (line_bound L)].
    + intros (_ & B). destruct (@line_exists V ops W m B) as (l & L).
      destruct (rev l) as [|r l'] eqn:R.
      * assert (l = []) as -> by (rewrite <- (rev_involutive l), R; reflexivity).
        exists (get_subtree (create ops) m). split; [apply in_map; now apply Rt | now left].
      * assert (l = rev l' ++ [r]) as -> by (rewrite <- (rev_involutive l), R; reflexivity). pose proof (line_cut L _ _ _ eq_refl) as Lr.
        exists (get_subtree (create ops) r). split; [apply in_map; now apply Rt|]. apply (Fm r Lr). right. exists (rev l' ++ [r]). split; [exact L|]. apply in_or_app. right. now left.
Qed.
Lemma c98_split__p :
  forall (V : Type) (ops : list (string * option (list V) * option nat)) cut,
    valid ops -> ops <> nil ->
    exists olds new, split_tree (create ops) (seq 0 (length ops)) cut = Ok (create (ops ++ new), seq (length ops) (length olds)) /\
      valid (ops ++ new) /\ length new = length olds /\
      NoDup olds /\ (forall n, In n olds <-> exists l, line ops n l /\ cut <= length l) /\
      forall j n o l, nth_error olds j = Some n -> nth_error ops n = Some o -> line ops n l ->
        exists c, nth_error (create (ops ++ new)) (length ops + j) = Some c /\ c_name c = fst (fst o) /\ c_data c = None /\ c_level c = length l - cut /\
          (length l = cut -> c_parent c = None) /\
          (cut < length l -> exists p k, snd o = Some p /\ nth_error olds k = Some p /\ c_parent c = Some (length ops + k)).
Proof.
  intros V ops cut W N. destruct (max_level_spec W N) as (top & Et & Ht).
  assert (I0 : split_inv ops cut [] (create ops, [], [])).
  { exists []. cbn [fst snd]. rewrite app_nil_r. split; [reflexivity|]. split; [exact W|]. split; [split; [reflexivity | intros [|j] ? ? E; discriminate]|].
    split; [reflexivity | intros p []]. }
  destruct (@split_levels_ok V ops cut W (top - cut) cut [] _ (le_n _) I0) as (((h, m), pruned) & El & (new & Eh & W' & (Ln & Cp) & Pr & _)); [intros; lia|].
  cbn [app fst snd] in *. set (olds := flat_map (at_level ops) (seq cut (top - cut))) in *. exists olds, new. subst h pruned.
  split; [|split; [exact W'|split; [exact Ln|split; [|split]]]].
  - unfold split_tree. rewrite Et. cbn [bind]. rewrite El. reflexivity.
  - unfold olds. assert (X : forall lvs, NoDup lvs -> NoDup (flat_map (at_level ops) lvs)).
    { induction lvs as [|lv lvs IH]; intros Nd; [constructor|]. inversion Nd as [|? ? N1 N2]; subst. cbn. apply NoDup_app; [apply NoDup_filter, seq_NoDup | now apply IH|].
      intros x X1 X2. apply in_flat_map in X2 as (lv' & Il & X2). apply (in_at_level _ _ W) in X1 as (l1 & L1 & E1). apply (in_at_level _ _ W) in X2 as (l2 & L2 & E2).
      rewrite (line_fun L1 L2) in E1. apply N1. congruence. }
    apply X, seq_NoDup.
  - intros n. unfold olds. rewrite in_flat_map. split.
    + intros (lv & Il & X). apply in_seq in Il. apply (in_at_level _ _ W) in X as (l & L & E). exists l. split; [exact L | lia].
    + intros (l & L & C). exists (length l). split; [apply in_seq; specialize (Ht n l L); lia | apply (in_at_level _ _ W); eauto].
  - assert (Lv : forall j n l, nth_error olds j = Some n -> line ops n l -> exists l', line (ops ++ new) (length ops + j) l' /\ length l' = length l - cut).
    { intros j. induction (lt_wf j) as [j _ IH]. intros n l Ej L. destruct (Cp j n l Ej L) as (o & Eo & _ & _ & [(C & S)|(C & p & k & l1 & -> & Nk & Kj & S)]).
      - exists []. split; [|cbn; lia]. eapply line_root; [rewrite nth_error_app2 by lia; replace (length ops + j - length ops) with j by lia; exact Eo | exact S].
      - inversion L as [|? o1 ? ? E1 Q1 L1]; subst. destruct (IH k Kj p l1 Nk L1) as (l' & L' & Le). exists ((length ops + k) :: l'). split; [|cbn [length] in *; lia].
        eapply line_child; [rewrite nth_error_app2 by lia; replace (length ops + j - length ops) with j by lia; exact Eo | exact S | exact L']. }
    intros j n o l Ej En L. destruct (Cp j n l Ej L) as (o' & Eo & C1 & C2 & C3).
    destruct (create_inv W') as (_ & Nh). destruct (Nh (length ops + j) o') as (c & C0 & A1 & A2 & A3 & _ & A5).
    { rewrite nth_error_app2 by lia. now replace (length ops + j - length ops) with j by lia. }
    exists c. split; [exact C0|]. split; [rewrite A1, C1; unfold name_of; now rewrite En|]. split; [congruence|].
    split; [destruct (Lv j n l Ej L) as (l' & L' & <-); auto|]. split.
    + intros Ec. destruct C3 as [(_ & S)|(X & _)]; [congruence | lia].
    + intros Ec. destruct C3 as [(X & _)|(_ & p & k & l1 & -> & Nk & _ & S)]; [lia|]. exists p, k. inversion L as [|? o1 ? ? E1 Q1 L1]; subst.
      rewrite En in E1. injection E1 as <-. split; [exact Q1|]. split; [exact Nk | congruence].
Qed.
Lemma c98_build__p :
  forall (V : Type) (d : list (string * item V)) h nodes,
    M_Nodes.build_tree d = (h, nodes) ->
    (exists ops, valid ops /\ h = create ops) /\ nodes = seq 0 (length h) /\
    Forall2 (fun x m => exists p, stored h p (fst x) (snd x) m) (tree_nodes (M_Output.build_tree d)) nodes /\
    Forall2 (fun t r => stored h None 0 t r /\
               Forall2 (fun x m => exists p, stored h p (fst x) (snd x) m) (all_descendents 0 t) (get_all_descendents (length h) h r) /\
               n_descendents t = get_n_descendents (length h) h r)
            (M_Output.build_tree d) (get_roots h nodes).
Proof.
  intros V d h nodes E. rewrite build_tree_flat in E. injection E as <- <-. set (ops := flat_list None 0 d).
  assert (W : valid ops).
  { apply (@valid_app V [] None ops); [intros [|i] o p X; discriminate | exact I | apply flat_list_bound']. }
  pose proof (create_inv W) as Iv. pose proof Iv as (Lh & _). rewrite Lh.
  split; [eauto|]. split; [reflexivity|].
  assert (St : forall s l, In s (starts None 0 d) -> line ops s l -> length l = 0).
  { intros s l Is L. apply starts_kids in Is as (i & o & Ei & -> & Q). cbn in L. fold ops in Ei. inversion L as [|? o1 ? ? E1 Q1 _]; subst; [reflexivity|]. congruence. }
  destruct (@list_ok V d (proj2 (Forall_forall _ d) (fun kv _ => @entry_all V (snd kv))) ops (create ops) [] [] None 0 W Iv) as (S1 & F1).
  { cbn [app length]. now rewrite app_nil_r. }
  { exact I. }
  { intros o q []. }
  { exact St. }
  cbn [length] in *. fold ops in F1. split; [exact F1|].
  assert (R : get_roots (create ops) (seq 0 (length ops)) = starts None 0 d).
  { unfold get_roots.
    assert (X : forall (d : list (string * item V)) pre post, filter (fun n => match nth_error (pre ++ flat_list None (length pre) d ++ post) n with Some o => match snd o with None => true | Some _ => false end | None => true end)
                 (seq (length pre) (length (flat_list None (length pre) d))) = starts None (length pre) d).
    { clear. induction d as [|(k, v) d IH]; intros pre post; [reflexivity|]. cbn [flat_list starts]. set (e := flat_entry None (length pre) k v).
      assert (Le : length (pre ++ e) = length pre + length e) by apply app_length.
      rewrite app_length, seq_app, filter_app. specialize (IH (pre ++ e) post). rewrite Le in IH. rewrite <- app_assoc in *. rewrite IH.
      change (length pre :: ?x) with ([length pre] ++ x). f_equal.
      destruct (flat_entry_head None (length pre) k v) as (o & os & E & Q). fold e in E.
      assert (N : forall i, i < length e -> match nth_error (pre ++ e ++ flat_list None (length pre + length e) d ++ post) (length pre + i) with Some o => match snd o with None => true | Some _ => false end | None => true end = match i with 0 => true | _ => false end).
      { intros i Bi. rewrite nth_mid by assumption. destruct (nth_error e i) as [o'|] eqn:Ei; [|apply nth_error_None in Ei; lia].
        destruct i as [|i]; [rewrite E in Ei; cbn in Ei; injection Ei as <-; now rewrite Q|].
        unfold e in Ei. destruct v as [l|dd]; [destruct i; discriminate|]. rewrite flat_entry_sub in Ei. cbn in Ei.
        destruct (flat_list_bound' _ _ _ _ Ei) as [Y|(q & Y & _)]; now rewrite Y. }
      revert N. generalize (pre ++ e ++ flat_list None (length pre + length e) d ++ post) as F. intros F N.
      assert (Pe : 0 < length e) by (rewrite E; cbn; lia). destruct (length e) as [|m]; [lia|]. cbn [seq filter].
      pose proof (N 0 ltac:(lia)) as N0. rewrite Nat.add_0_r in N0. rewrite N0. f_equal. apply filter_none.
      intros x Ix. apply in_seq in Ix. specialize (N (x - length pre) ltac:(lia)). replace (length pre + (x - length pre)) with x in N by lia.
      rewrite N. destruct (x - length pre) eqn:X; [lia | reflexivity]. }
    specialize (X d [] []). cbn [length app] in X. fold ops in X. rewrite app_nil_r in X. rewrite <- X. apply filter_ext. intros n. rewrite (inv_parent n Iv).
    destruct (nth_error ops n) as [o|]; [destruct (snd o)|]; reflexivity. }
  rewrite R. apply stored_list_Forall2 in S1.
  assert (B : forall s, In s (starts None 0 d) -> s < length ops).
  { intros s Is. apply starts_kids in Is as (i & o & Ei & -> & _). fold ops in Ei. apply nth_error_Some. cbn. congruence. }
  clear R St. revert S1 B. generalize (starts None 0 d) as ss. generalize (M_Output.build_tree d) as ts. intros ts ss S1.
  induction S1 as [|t s ts ss H _ IH]; intros B; [constructor|]. constructor; [|apply IH; intros x Ix; apply B; now right].
  split; [exact H|]. apply (@stored_descendents V ops (create ops) W Iv (length ops) t None 0 s); [apply B; now left | lia | exact H].
Qed.
Lemma c98_generations_refuted__p :
  exists (ops : list (string * option (list nat) * option nat)) n,
    valid ops /\ generations ops n 2 /\ get_n_generations (length (create ops)) (create ops) n = 3.
Proof.
  exists [("a", None, None); ("b", None, Some 0); ("c", None, Some 0); ("d", None, Some 1); ("e", None, Some 2)], 0.
  assert (Ln : forall n l, line [("a", None, None); ("b", @None (list nat), Some 0); ("c", None, Some 0); ("d", None, Some 1); ("e", None, Some 2)] n l ->
    In (n, l) [(0, []); (1, [0]); (2, [0]); (3, [1; 0]); (4, [2; 0])]).
  { induction 1 as [n o E P|n o p l E P L IH].
    - do 5 (destruct n as [|n]; [cbn in E; injection E as <-; try discriminate; cbn; tauto|]). destruct n; discriminate.
    - do 5 (destruct n as [|n]; [cbn in E; injection E as <-; try discriminate; cbn in P; injection P as <-; cbn in IH;
        repeat (destruct IH as [IH|IH]; [try discriminate IH; injection IH as <-; cbn; tauto|]); destruct IH|]). destruct n; discriminate. }
  split; [|split; [|reflexivity]].
  - intros i o p E P. do 5 (destruct i as [|i]; [cbn in E; injection E as <-; try discriminate; cbn in P; injection P as <-; lia|]). destruct i; discriminate.
  - right. split; [lia|]. split.
    + exists 3, [1], []. split; [|reflexivity]. eapply line_child; [reflexivity | reflexivity|]. eapply line_child; [reflexivity | reflexivity|]. eapply line_root; reflexivity.
    + intros d l l' L. apply Ln in L. cbn in L. repeat (destruct L as [L|L]; [injection L as _ L; destruct l as [|? [|? [|]]]; try discriminate L; cbn; lia|]). destruct L.
Qed.
Lemma c98_split_data_refuted__p :
  exists (ops : list (string * option (list nat) * option nat)) h,
    valid ops /\ (forall o, In o ops -> snd (fst o) <> None) /\
    split_tree (create ops) (seq 0 (length ops)) 0 = Ok (h, length ops :: nil) /\ map (@c_data nat) h = (Some (1 :: nil) :: None :: nil).
Proof.
  exists [("a", Some [1], None)]. eexists. split; [|split; [|split; [reflexivity | reflexivity]]].
  - intros [|[|i]] o p E P; try discriminate. cbn in E. injection E as <-. discriminate.
  - intros o [<-|[]]. discriminate.
Qed.

Lemma c98_selections__p :
  forall (V : Type) (ops : list (string * option (list V) * option nat)) n,
    valid ops ->
    (In n (get_leaves (create ops) (seq 0 (length ops))) <-> n < length ops /\ ~ inner ops n) /\
    (In n (get_roots (create ops) (seq 0 (length ops))) <-> line ops n nil) /\
    forall lv, In n (get_nodes (create ops) (seq 0 (length ops)) lv) <-> exists l, line ops n l /\ length l = lv.
Proof.
  intros V ops n W. pose proof (create_inv W) as I. pose proof I as (Lh & N). split; [|split].
  - unfold get_leaves. rewrite filter_In, in_seq. split.
    + intros ((_ & B) & E). split; [lia|]. destruct (nth_error ops n) as [o|] eqn:Eo; [|apply nth_error_None in Eo; lia].
      destruct (@c98_lines__p V ops n o W Eo) as (c & l & C & _ & _ & _ & _ & _ & _ & _ & K). unfold children in E. rewrite C in E. intros (i & o' & Ei & Eo'). apply Nat.eqb_eq in E.
      assert (X : In i (c_children c)) by (apply K; eauto). destruct (c_children c); [destruct X|discriminate].
    + intros (B & NI). split; [lia|]. destruct (nth_error ops n) as [o|] eqn:Eo; [|apply nth_error_None in Eo; lia].
      destruct (@c98_lines__p V ops n o W Eo) as (c & l & C & _ & _ & _ & _ & _ & _ & _ & K). unfold children. rewrite C. destruct (c_children c) as [|m ms]; [reflexivity|]. exfalso. apply NI.
      destruct (proj1 (K m) (or_introl eq_refl)) as (o' & Em & Q). exists m, o'. auto.
  - unfold get_roots. rewrite filter_In, in_seq. split.
    + intros ((_ & B) & E). destruct (nth_error ops n) as [o|] eqn:Eo; [|apply nth_error_None in Eo; lia]. eapply line_root; [exact Eo|].
      destruct (@c98_lines__p V ops n o W Eo) as (c & l & C & _ & _ & P & _). unfold get_parent in E. rewrite C, P in E. now destruct (snd o).
    + intros L. inversion L as [n' o Eo P|]; subst. split; [split; [lia|apply nth_error_Some; congruence]|]. destruct (@c98_lines__p V ops n o W Eo) as (c & l & C & _ & _ & Pc & _). unfold get_parent. now rewrite C, Pc, P.
  - intros lv. exact (@in_at_level V ops lv n W).
Qed.
