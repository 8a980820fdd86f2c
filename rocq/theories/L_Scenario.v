(** Proofs for C07-C10: scenarios and optimizer flags. *)
From Verif Require Import Py PyStr NdArray M_Primitives M_Utilities M_ScenarioHeap.

Lemma has_repeat_NoDup l : has_repeat l = false <-> NoDup l.
Proof.
  induction l as [|x l IH]; simpl.
  - split; [constructor|reflexivity].
  - rewrite orb_false_iff, IH, mem_str_nIn. split.
    + intros (H1 & H2). constructor; auto.
    + intros H. inversion H; auto.
Qed.

Section Ops.
Context {V : Type}.
Implicit Types (d s : dict V).

Lemma apply_op_spec op d k v d' :
  apply_op op d (k, v) = Ok d' ->
  exists old new, dget k d = Some old /\ op old v = Ok new /\ d' = dset k new d.
Proof.
  unfold apply_op. simpl. intros H. apply bind_ok in H as (old & Ho & H).
  apply bind_ok in H as (new & Hn & H). inversion H.
  unfold dgetitem in Ho. destruct (dget k d) eqn:E; inversion Ho; subst.
  exists old, new. auto.
Qed.

Lemma fold_op_spec op shocks d d' :
  NoDup (dkeys shocks) ->
  fold_res (apply_op op) d shocks = Ok d' ->
  dkeys d' = dkeys d /\
  (forall k, match dget k shocks with
             | Some v => exists old new, dget k d = Some old /\ op old v = Ok new /\ dget k d' = Some new
             | None => dget k d' = dget k d
             end).
Proof.
  revert d. induction shocks as [|[k0 v0] shocks IH]; intros d Hnd H; simpl in H.
  - inversion H; subst. split; auto. intros k; reflexivity.
  - apply bind_ok in H as (d1 & H1 & H). apply apply_op_spec in H1 as (old & new & Ho & Hn & ->).
    inversion Hnd as [|? ? Hni Hnd']; subst.
    destruct (IH _ Hnd' H) as (Hk & Hg). split.
    + rewrite Hk, dkeys_dset.
      replace (mem_str k0 (dkeys d)) with true; auto. symmetry. apply mem_str_In.
      apply dget_Some_key. eauto.
    + intros k. simpl. specialize (Hg k). destruct (String.eqb_spec k k0) as [->|Hne].
      * destruct (dget k0 shocks) eqn:E.
        { exfalso. apply Hni. apply dget_Some_key. eauto. }
        exists old, new. repeat split; auto. rewrite Hg. apply dget_dset_same.
      * rewrite dget_dset_other in Hg by auto. exact Hg.
Qed.

Lemma fold_op_total op shocks d :
  NoDup (dkeys shocks) ->
  (forall k v, In (k, v) shocks -> exists old new, dget k d = Some old /\ op old v = Ok new) ->
  exists d', fold_res (apply_op op) d shocks = Ok d'.
Proof.
  revert d. induction shocks as [|[k0 v0] shocks IH]; intros d Hnd H; simpl.
  - eauto.
  - destruct (H k0 v0) as (old & new & Ho & Hn); [simpl; auto|].
    unfold apply_op at 1, dgetitem. simpl. rewrite Ho. simpl. rewrite Hn. simpl.
    inversion Hnd as [|? ? Hni Hnd']; subst. apply IH; auto.
    intros k v Hin. destruct (H k v) as (o & n & Hg & Hop); [simpl; auto|].
    exists o, n. split; auto. rewrite dget_dset_other; auto.
    intros ->. apply Hni. apply in_map_iff. exists (k0, v); auto.
Qed.

End Ops.

Lemma dupdate_keys {V} (d2 d1 : dict V) :
  NoDup (dkeys d2) ->
  dkeys (dupdate d1 d2) = dkeys d1 ++ filter (fun k => negb (mem_str k (dkeys d1))) (dkeys d2).
Proof.
  unfold dupdate. revert d1. induction d2 as [|[k v] d2 IH]; intros d1 Hn; simpl.
  - now rewrite app_nil_r.
  - inversion Hn as [|? ? Hni Hn']; subst. rewrite IH by auto. rewrite dkeys_dset.
    destruct (mem_str k (dkeys d1)) eqn:E; simpl; auto.
    rewrite <- app_assoc. simpl. f_equal. f_equal. apply filter_ext_in.
    intros k' Hk'. f_equal. unfold mem_str. rewrite existsb_app. simpl.
    destruct (String.eqb_spec k' k); [subst; tauto|]. now rewrite !orb_false_r.
Qed.

(** Specification: the value of parameter [k] after the shock. *)
Definition opt {V} (o : option (dict V)) : dict V := match o with Some d => d | None => [] end.

Section Main.
Context {V : Type} (vadd vmul : V -> V -> res V).

Lemma create_cases init (fv fd fp : option (dict V)) s :
  create_final_param_dict vadd vmul init fv fd fp = Ok s ->
  let all := dkeys (opt fv) ++ dkeys (opt fd) ++ dkeys (opt fp) in
  all <> [] /\ NoDup all /\
  exists s1, fold_res (apply_op vadd) (dupdate init (opt fv)) (opt fd) = Ok s1 /\
             fold_res (apply_op vmul) s1 (opt fp) = Ok s.
Proof.
  unfold create_final_param_dict. fold (opt fv) (opt fd) (opt fp). intros H.
  set (all := dkeys (opt fv) ++ dkeys (opt fd) ++ dkeys (opt fp)) in *.
  destruct all eqn:E; [discriminate|]. split; [discriminate|].
  destruct (has_repeat (s0 :: l)) eqn:ER; [discriminate|].
  split; [now apply has_repeat_NoDup|].
  apply bind_ok in H as (s1 & H1 & H2). eauto.
Qed.

End Main.

Lemma c07_scenario_values__p :
  forall {V : Type} (vadd vmul : V -> V -> res V)
         (init : dict V) (fv fd fp : option (dict V)) (s : dict V),
  create_final_param_dict vadd vmul init fv fd fp = Ok s ->
  (forall k v, dget k (opt fv) = Some v -> dget k s = Some v) /\
  (forall k v, dget k (opt fd) = Some v ->
     exists old new, dget k init = Some old /\ vadd old v = Ok new /\ dget k s = Some new) /\
  (forall k v, dget k (opt fp) = Some v ->
     exists old new, dget k init = Some old /\ vmul old v = Ok new /\ dget k s = Some new) /\
  (forall k, ~ In k (dkeys (opt fv)) -> ~ In k (dkeys (opt fd)) -> ~ In k (dkeys (opt fp)) ->
     dget k s = dget k init) /\
  dkeys s = dkeys init ++ filter (fun k => negb (mem_str k (dkeys init))) (dkeys (opt fv)).
Proof.
  intros V vadd vmul init fv fd fp s H. apply create_cases in H as (Hne & Hnd & s1 & H1 & H2).
  apply NoDup_app_inv in Hnd as (Nv & Ndp & Dv). apply NoDup_app_inv in Ndp as (Nd & Np & Dd).
  destruct (@fold_op_spec V _ _ _ _ Nd H1) as (K1 & G1). destruct (@fold_op_spec V _ _ _ _ Np H2) as (K2 & G2).
  assert (G0 : forall k, dget k (dupdate init (opt fv)) =
                         match dget k (opt fv) with Some v => Some v | None => dget k init end).
  { intros k. rewrite dget_dupdate, dget_rev_NoDup by auto. reflexivity. }
  assert (KN : forall (d : dict V) k, ~ In k (dkeys d) -> dget k d = None) by (intros; now apply dget_None).
  repeat split.
  - intros k v Hk. assert (Hin : In k (dkeys (opt fv))) by (apply dget_Some_key; eauto).
    specialize (G1 k). specialize (G2 k). specialize (Dv k Hin). rewrite in_app_iff in Dv.
    rewrite (KN _ k) in G1 by tauto. rewrite (KN _ k) in G2 by tauto.
    rewrite G2, G1, G0, Hk. reflexivity.
  - intros k v Hk. assert (Hin : In k (dkeys (opt fd))) by (apply dget_Some_key; eauto).
    specialize (G1 k). specialize (G2 k). rewrite Hk in G1.
    rewrite (KN _ k) in G2 by (now apply Dd).
    destruct G1 as (old & new & Ho & Hop & Hn). exists old, new. rewrite G2. repeat split; auto.
    rewrite G0, KN in Ho; auto. intros Hi. apply (Dv k Hi). apply in_or_app; auto.
  - intros k v Hk. assert (Hin : In k (dkeys (opt fp))) by (apply dget_Some_key; eauto).
    specialize (G1 k). specialize (G2 k). rewrite Hk in G2.
    rewrite (KN _ k) in G1 by (intros Hi; now apply (Dd k)).
    destruct G2 as (old & new & Ho & Hop & Hn). exists old, new. repeat split; auto.
    rewrite G1, G0, KN in Ho; auto. intros Hi. apply (Dv k Hi). apply in_or_app; auto.
  - intros k A B C. specialize (G1 k). specialize (G2 k). rewrite KN in G1 by auto. rewrite KN in G2 by auto.
    rewrite G2, G1, G0, KN by auto. reflexivity.
  - rewrite K2, K1. now apply dupdate_keys.
Qed.

(** C08 *)
Lemma c08_accepted_iff__p :
  forall {V : Type} (vadd vmul : V -> V -> res V)
         (init : dict V) (fv fd fp : option (dict V)),
  (exists s, create_final_param_dict vadd vmul init fv fd fp = Ok s) <->
  let all := dkeys (opt fv) ++ dkeys (opt fd) ++ dkeys (opt fp) in
  all <> [] /\ NoDup all /\
  (forall k v, In (k, v) (opt fd) -> exists old new, dget k init = Some old /\ vadd old v = Ok new) /\
  (forall k v, In (k, v) (opt fp) -> exists old new, dget k init = Some old /\ vmul old v = Ok new).
Proof.
  intros V vadd vmul init fv fd fp. split.
  - intros (s & H). pose proof H as H'. apply create_cases in H' as (Hne & Hnd & _).
    apply c07_scenario_values__p in H as (_ & Hd & Hp & _).
    split; [auto|]. split; [auto|].
    apply NoDup_app_inv in Hnd as (Nv & Ndp & Dv). apply NoDup_app_inv in Ndp as (Nd & Np & Dd).
    split; intros k v Hin; apply dget_In_NoDup in Hin; auto.
    + destruct (Hd k v Hin) as (o & n & ? & ? & ?); eauto.
    + destruct (Hp k v Hin) as (o & n & ? & ? & ?); eauto.
  - intros (Hne & Hnd & Hd & Hp).
    pose proof Hnd as Hrep. apply has_repeat_NoDup in Hrep.
    apply NoDup_app_inv in Hnd as (Nv & Ndp & Dv). apply NoDup_app_inv in Ndp as (Nd & Np & Dd).
    assert (G0 : forall k, ~ In k (dkeys (opt fv)) -> dget k (dupdate init (opt fv)) = dget k init).
    { intros k Hk. rewrite dget_dupdate, dget_rev_NoDup by auto. apply dget_None in Hk. now rewrite Hk. }
    destruct (@fold_op_total V vadd (opt fd) (dupdate init (opt fv)) Nd) as (s1 & H1).
    { intros k v Hin. destruct (Hd k v Hin) as (o & n & Ho & Hop). exists o, n. split; auto.
      rewrite G0; auto. intros Hi. apply (Dv k Hi). apply in_or_app. left.
      apply in_map_iff. exists (k, v); auto. }
    destruct (@fold_op_spec V _ _ _ _ Nd H1) as (_ & G1).
    destruct (@fold_op_total V vmul (opt fp) s1 Np) as (s2 & H2).
    { intros k v Hin. destruct (Hp k v Hin) as (o & n & Ho & Hop). exists o, n. split; auto.
      assert (Hk : In k (dkeys (opt fp))) by (apply in_map_iff; exists (k, v); auto).
      specialize (G1 k). assert (N : dget k (opt fd) = None).
      { apply dget_None. intros Hi. now apply (Dd k). }
      rewrite N in G1. rewrite G1, G0; auto. intros Hi. apply (Dv k Hi). apply in_or_app; auto. }
    exists s2. unfold create_final_param_dict. fold (opt fv) (opt fd) (opt fp). rewrite Hrep.
    destruct (dkeys (opt fv) ++ dkeys (opt fd) ++ dkeys (opt fp)); [congruence|].
    rewrite H1. exact H2.
Qed.

(** The error classes of C08. *)
Lemma c08_error_class__p :
  forall {V : Type} (vadd vmul : V -> V -> res V)
         (init : dict V) (fv fd fp : option (dict V)),
  let all := dkeys (opt fv) ++ dkeys (opt fd) ++ dkeys (opt fp) in
  (all = [] \/ ~ NoDup all -> create_final_param_dict vadd vmul init fv fd fp = Err ValueError) /\
  (forall k v, all <> [] -> NoDup all ->
     (forall a b, exists n, vadd a b = Ok n) -> (forall a b, exists n, vmul a b = Ok n) ->
     In (k, v) (opt fd ++ opt fp) -> ~ In k (dkeys init) ->
     create_final_param_dict vadd vmul init fv fd fp = Err KeyError).
Proof.
  intros V vadd vmul init fv fd fp all. unfold create_final_param_dict.
  fold (opt fv) (opt fd) (opt fp). fold all. split.
  - intros [->|H]; [reflexivity|].
    destruct (has_repeat all) eqn:E.
    + destruct all; reflexivity.
    + apply has_repeat_NoDup in E. tauto.
  - intros k v Hne Hnd Ha Hm Hin Hk. pose proof Hnd as E. apply has_repeat_NoDup in E.
    rewrite E. unfold all in Hnd.
    apply NoDup_app_inv in Hnd as (Nv & Ndp & Dv). apply NoDup_app_inv in Ndp as (Nd & Np & Dd).
    assert (Hall : In k (dkeys (opt fd) ++ dkeys (opt fp))).
    { unfold dkeys. rewrite <- map_app. apply in_map_iff. exists (k, v). auto. }
    assert (Hfv : ~ In k (dkeys (opt fv))) by (intros Hi; now apply (Dv k Hi)).
    assert (G0 : dget k (dupdate init (opt fv)) = None).
    { rewrite dget_dupdate, dget_rev_NoDup by auto. apply dget_None in Hfv. rewrite Hfv. now apply dget_None. }
    assert (KE : forall op sh (s : dict V), (forall a b, exists n, op a b = Ok n) -> NoDup (dkeys sh) ->
                 In k (dkeys sh) -> dget k s = None -> fold_res (apply_op op) s sh = Err KeyError).
    { clear. intros op sh s Hop. revert s. induction sh as [|[k0 v0] sh IH]; simpl; intros s Hn Hi Hg; [tauto|].
      unfold apply_op at 1, dgetitem. simpl. destruct (dget k0 s) eqn:E0; simpl; auto.
      destruct (Hop v v0) as (n & ->). simpl. inversion Hn; subst.
      destruct Hi as [->|Hi]; [congruence|]. apply IH; auto.
      rewrite dget_dset_other; auto. intros ->. auto. }
    assert (KO : forall op sh (s : dict V), (forall a b, exists n, op a b = Ok n) ->
                 (exists s', fold_res (apply_op op) s sh = Ok s') \/ fold_res (apply_op op) s sh = Err KeyError).
    { clear. intros op sh s Hop. revert s. induction sh as [|[k0 v0] sh IH]; simpl; intros s; [eauto|].
      unfold apply_op at 1 3, dgetitem. simpl. destruct (dget k0 s) eqn:E0; simpl; auto.
      destruct (Hop v v0) as (n & ->). simpl. apply IH. }
    destruct all; [congruence|]. clear E Hne.
    rewrite in_app_iff in Hall. destruct Hall as [Hd|Hp].
    + rewrite KE; auto.
    + destruct (KO vadd (opt fd) (dupdate init (opt fv)) Ha) as [(s1 & H1)|H1]; rewrite H1; simpl; auto.
      apply KE; auto. destruct (@fold_op_spec V _ _ _ _ Nd H1) as (_ & G1). specialize (G1 k).
      assert (N : dget k (opt fd) = None).
      { apply dget_None. intros Hi. now apply (Dd k). }
      rewrite N in G1. congruence.
Qed.

(** C10 *)
Lemma c10_flags__p :
  forall (table : dict mode_kwargs) (g h hp : option bool) (method : string) (g' h' hp' : bool),
  get_method_defaults table g h hp method = Ok (g', h', hp') ->
  h' && hp' = false /\
  (forall b, g = Some b -> g' = b) /\
  (forall b, hp = Some b -> hp' = b) /\
  (h = Some false -> h' = false) /\
  (h = Some true -> hp' = false -> h' = true) /\
  (forall row, dget method table = Some row ->
     (g = None -> g' = uses_grad row) /\
     (hp = None -> hp' = uses_hessp row) /\
     (h = None -> h' = uses_hess row && negb hp')).
Proof.
  intros table g h hp method g' h' hp' H. unfold get_method_defaults in H.
  unfold dgetitem in H.
  destruct (dget method table) as [row|]; destruct g as [[|]|], h as [[|]|], hp as [[|]|]; simpl in H;
    inversion H; subst; repeat split; intros; try congruence; try discriminate;
    repeat match goal with
           | H : Some _ = Some _ |- _ => inversion H; subst; clear H
           end; auto;
    try (destruct (uses_hess row), (uses_hessp row); simpl in *; congruence);
    try (destruct (uses_hess row0), (uses_hessp row0); simpl in *; congruence).
Qed.

(** The call succeeds iff all flags are given or the method is known. *)
Lemma c10_unknown_method__p :
  forall (table : dict mode_kwargs) (g h hp : option bool) (method : string),
  (exists r, get_method_defaults table g h hp method = Ok r) <->
  (g <> None /\ h <> None /\ hp <> None) \/ In method (dkeys table).
Proof.
  intros. rewrite dget_Some_key. unfold get_method_defaults, dgetitem.
  destruct (dget method table) as [row|]; destruct g, h, hp; simpl; split; intros H; eauto;
    try (destruct H as (? & H); discriminate);
    try (left; repeat split; discriminate);
    destruct H as [(? & ? & ?)|(? & ?)]; congruence.
Qed.

(** ** In-place arithmetic *)
Section HeapProofs.
Context {V : Type}.
Implicit Types (h : heap V).

Lemma hset_length h l v : length (hset h l v) = length h.
Proof. revert l. induction h; destruct l; simpl; auto. Qed.

Lemma nth_hset h l v k : nth_error (hset h l v) k =
  if Nat.eqb k l then match nth_error h k with Some _ => Some v | None => None end else nth_error h k.
Proof.
  revert l k. induction h as [|x h IH]; intros l k.
  - destruct l; simpl; destruct k; destruct (Nat.eqb _ _); reflexivity.
  - destruct l, k; simpl; auto.
Qed.

(** invariant of copies: entries of the copy live above [n] *)
Definition above (n : nat) (x : pyval V) : Prop := match x with VNum _ => True | VRef l => n <= l end.

Lemma deepcopy_go_spec n d h memo h' d' :
  n <= length h -> (forall a b, In (a, b) memo -> n <= b) ->
  (forall l, In (VRef l) (dvals d) -> l < n) ->
  deepcopy_go h memo d = Ok (h', d') ->
  (exists ext, h' = h ++ ext) /\ dkeys d' = dkeys d /\ Forall (above n) (dvals d').
Proof.
  revert h memo h' d'. induction d as [|[k [v|l]] d IH]; intros h memo h' d' Hn Hm Hd H; simpl in H.
  - inversion H; subst. split; [exists []; now rewrite app_nil_r|]. split; auto. constructor.
  - apply bind_ok in H as ([h1 d1] & H1 & H). inversion H; subst. simpl in *.
    destruct (IH _ _ _ _ Hn Hm (fun l0 Hl0 => Hd l0 (or_intror Hl0)) H1) as (E & K & F).
    split; [exact E|split; [simpl; f_equal; exact K|constructor; simpl; auto]].
  - destruct (memo_get l memo) as [l'|] eqn:Em.
    + apply bind_ok in H as ([h1 d1] & H1 & H). inversion H; subst. simpl in *.
      destruct (IH _ _ _ _ Hn Hm (fun l0 Hl0 => Hd l0 (or_intror Hl0)) H1) as (E & K & F).
      split; [exact E|split; [simpl; f_equal; exact K|constructor; simpl; auto]].
      assert (Hin : In (l, l') memo).
      { clear -Em. induction memo as [|[a b] memo IH]; simpl in *; [discriminate|].
        destruct (Nat.eqb_spec l a); [inversion Em; subst; auto|auto]. }
      eauto.
    + destruct (nth_error h l) as [v|]; [|discriminate].
      apply bind_ok in H as ([h1 d1] & H1 & H). inversion H; subst. simpl in *.
      apply IH in H1 as ((ext & E) & K & F).
      * repeat split.
        -- exists (v :: ext). rewrite E, <- app_assoc. reflexivity.
        -- simpl. f_equal. exact K.
        -- constructor; simpl; auto.
      * rewrite app_length. simpl. lia.
      * intros a b [E|E]; [inversion E; subst; auto|eauto].
      * intros l0 Hl0. apply Hd. simpl. auto.
Qed.

Lemma apply_op_heap_frame op n h d kv h' d' :
  Forall (above n) (map snd (filter (fun e => mem_str (fst e) [fst kv]) d)) ->
  apply_op_heap op (h, d) kv = Ok (h', d') ->
  length h' = length h /\ (forall l, l < n -> nth_error h' l = nth_error h l).
Proof.
  intros Hab H. unfold apply_op_heap in H. apply bind_ok in H as (old & Ho & H).
  destruct (deref h (snd kv)) as [v|]; [|discriminate].
  destruct old as [o|l].
  - apply bind_ok in H as (x & _ & H). inversion H; subst. auto.
  - destruct (nth_error h l); [|discriminate].
    apply bind_ok in H as (x & _ & H). inversion H; subst.
    split; [apply hset_length|]. intros l0 Hl0. rewrite nth_hset.
    destruct (Nat.eqb_spec l0 l); auto. subst. exfalso.
    unfold dgetitem in Ho. destruct (dget (fst kv) d') eqn:E; inversion Ho; subst.
    apply dget_In in E. rewrite Forall_forall in Hab.
    assert (A : above n (VRef l)).
    { apply Hab. apply in_map_iff. exists (fst kv, VRef l). split; auto.
      apply filter_In. split; auto. simpl. rewrite String.eqb_refl. reflexivity. }
    simpl in A. lia.
Qed.

Lemma dset_num_above n k v (d : dict (pyval V)) (P : string -> Prop) :
  (forall k' x, P k' -> In (k', x) d -> above n x) ->
  (forall k' x, P k' -> In (k', x) (dset k (VNum v) d) -> above n x).
Proof.
  intros H k' x HP Hin. induction d as [|[k0 x0] d IH]; simpl in *.
  - destruct Hin as [E|[]]. inversion E. exact I.
  - destruct (String.eqb_spec k k0); simpl in Hin.
    + destruct Hin as [E|Hin]; [inversion E; exact I|]. eapply H; eauto.
    + destruct Hin as [E|Hin]; [eapply H; eauto|]. apply IH; auto. intros; eapply H; eauto.
Qed.

Lemma fold_op_heap_frame op n sh h d h' d' :
  (forall k x, In k (dkeys sh) -> In (k, x) d -> above n x) ->
  fold_res (apply_op_heap op) (h, d) sh = Ok (h', d') ->
  length h' = length h /\ (forall l, l < n -> nth_error h' l = nth_error h l) /\
  (forall P : string -> Prop, (forall k x, P k -> In (k, x) d -> above n x) ->
             forall k x, P k -> In (k, x) d' -> above n x).
Proof.
  revert h d. induction sh as [|kv sh IH]; intros h d Hab H; simpl in H.
  - inversion H; subst. auto.
  - apply bind_ok in H as ([h1 d1] & H1 & H).
    assert (F := H1). apply apply_op_heap_frame with (n := n) in F.
    2:{ apply Forall_forall. intros x Hx. apply in_map_iff in Hx as ([k0 x0] & <- & Hf).
        apply filter_In in Hf as (Hin & Hm). apply mem_str_In in Hm. simpl in Hm.
        eapply Hab; [|exact Hin]. simpl. tauto. }
    destruct F as (Hl & Hn).
    assert (PP : forall P : string -> Prop, (forall k x, P k -> In (k, x) d -> above n x) ->
                  forall k x, P k -> In (k, x) d1 -> above n x).
    { intros P HP. unfold apply_op_heap in H1. apply bind_ok in H1 as (old & Ho & H1).
      destruct (deref h (snd kv)); [|discriminate]. destruct old.
      - apply bind_ok in H1 as (x & _ & H1). inversion H1; subst. now apply dset_num_above.
      - destruct (nth_error h loc); [|discriminate].
        apply bind_ok in H1 as (x & _ & H1). inversion H1; subst. exact HP. }
    apply IH in H.
    + destruct H as (Hl2 & Hn2 & P2). split; [lia|]. split.
      * intros l Hlt. rewrite Hn2, Hn; auto.
      * intros P HP. apply P2. apply PP. exact HP.
    + intros k x Hk. apply (PP (fun k => In k (dkeys sh))); auto.
      intros k' x' Hk'. apply Hab. simpl. auto.
Qed.

End HeapProofs.

Lemma in_dupdate_l {V} k (d2 d1 : dict V) x :
  ~ In k (dkeys d2) -> In (k, x) (dupdate d1 d2) -> In (k, x) d1.
Proof.
  unfold dupdate. revert d1. induction d2 as [|[k0 v0] d2 IH]; simpl; intros d1 Hn Hin; auto.
  apply IH in Hin; [|tauto]. clear -Hn Hin. induction d1 as [|[k1 v1] d1 IH]; simpl in *.
  - destruct Hin as [E|[]]. inversion E; subst. tauto.
  - destruct (String.eqb_spec k0 k1); simpl in Hin.
    + destruct Hin as [E|Hin]; auto. inversion E; subst. tauto.
    + destruct Hin as [E|Hin]; auto.
Qed.

(** C07, aliasing part: the caller's arrays are never written. *)
Lemma c07_caller_data_unchanged__p :
  forall {V : Type} (vadd vmul : V -> V -> res V) (h : heap V)
         (init fv fd fp : dict (pyval V)) (h' : heap V) (s : dict (pyval V)),
  (forall l, In (VRef l) (dvals init) -> l < length h) ->
  create_final_param_dict_heap vadd vmul h init fv fd fp = Ok (h', s) ->
  forall x, (match x with VRef l => l < length h | VNum _ => True end) -> deref h' x = deref h x.
Proof.
  intros V vadd vmul h init fv fd fp h' s Hi H. unfold create_final_param_dict_heap in H.
  apply bind_ok in H as ([h0 c0] & Hc & H). simpl in H.
  set (all := dkeys fv ++ dkeys fd ++ dkeys fp) in *.
  destruct all eqn:E; [discriminate|]. rewrite <- E in H. unfold all in H.
  destruct (has_repeat _) eqn:ER in H; [discriminate|]. apply has_repeat_NoDup in ER.
  apply NoDup_app_inv in ER as (Nv & Ndp & Dv).
  apply bind_ok in H as ([h1 d1] & H1 & H2).
  apply deepcopy_go_spec with (n := length h) in Hc; auto; [|simpl; tauto].
  destruct Hc as ((ext & ->) & Kc & Fc). rewrite Forall_forall in Fc.
  assert (AB : forall k x, In k (dkeys fd ++ dkeys fp) -> In (k, x) (dupdate c0 fv) -> above (length h) x).
  { intros k x Hk Hin. apply in_dupdate_l in Hin.
    - apply Fc. apply in_map_iff. exists (k, x); auto.
    - intros Hv. now apply (Dv k). }
  apply fold_op_heap_frame with (n := length h) in H1.
  2:{ intros k x Hk. apply AB. apply in_or_app; auto. }
  destruct H1 as (L1 & N1 & P1).
  apply fold_op_heap_frame with (n := length h) in H2.
  2:{ intros k x Hk. apply (P1 (fun k => In k (dkeys fp))); auto.
      intros k' x' Hk'. apply AB. apply in_or_app; auto. }
  destruct H2 as (L2 & N2 & _).
  intros [v|loc] Hloc; simpl; auto. rewrite N2, N1; auto. now rewrite nth_error_app1.
Qed.

(** ** Without sharing, the heap version computes the pure one *)

(** [d'] lists the numbers and array contents the entries of [d] denote. *)
Definition reads {V} (h : heap V) (d : dict (pyval V)) (d' : dict V) : Prop :=
  Forall2 (fun a b => fst a = fst b /\ deref h (snd a) = Some (snd b)) d d'.

(** Locations referred to by a dictionary. *)
Fixpoint refs {V} (d : dict (pyval V)) : list nat :=
  match d with
  | [] => []
  | (_, VRef l) :: d' => l :: refs d'
  | (_, VNum _) :: d' => refs d'
  end.

Section Refine.
Context {V : Type}.
Implicit Types (h : heap V).

Lemma reads_keys h d (d' : dict V) : reads h d d' -> dkeys d = dkeys d'.
Proof. induction 1; simpl; auto. destruct H. congruence. Qed.

Lemma reads_weaken h h2 d (d' : dict V) :
  reads h d d' -> (forall l, In l (refs d) -> nth_error h2 l = nth_error h l) -> reads h2 d d'.
Proof.
  intros H Hr. induction H as [|[k x] [k' v] d d' (Hk & Hv) HF IH]; constructor.
  - simpl in *. split; auto. destruct x; simpl in *; auto. rewrite Hr; auto.
  - apply IH. intros l Hl. apply Hr. destruct x; simpl; auto.
Qed.

Lemma reads_valid h d (d' : dict V) l : reads h d d' -> In l (refs d) -> l < length h.
Proof.
  induction 1 as [|[k x] [k' v] d d' (Hk & Hv) HF IH]; simpl; [tauto|].
  destruct x; auto. intros [->|Hi]; auto. apply nth_error_Some. simpl in Hv. congruence.
Qed.

Lemma reads_dget h d (d' : dict V) k : reads h d d' ->
  match dget k d with
  | Some x => exists v, deref h x = Some v /\ dget k d' = Some v
  | None => dget k d' = None
  end.
Proof.
  induction 1 as [|[k1 x] [k2 v] d d' (Hk & Hv) HF IH]; simpl; auto.
  simpl in *. subst. destruct (String.eqb k k2); eauto.
Qed.

Lemma reads_dset h d (d' : dict V) k x v :
  reads h d d' -> deref h x = Some v -> reads h (dset k x d) (dset k v d').
Proof.
  induction 1 as [|[k1 y] [k2 w] d d' (Hk & Hv) HF IH]; simpl; intros Hx.
  - constructor; [auto|constructor].
  - simpl in *. subst. destruct (String.eqb k k2); constructor; auto. now apply IH.
Qed.

Lemma reads_dupdate h d (d' : dict V) u u' :
  reads h d d' -> reads h u u' -> reads h (dupdate d u) (dupdate d' u').
Proof.
  intros H Hu. revert d d' H. induction Hu as [|[k1 y] [k2 w] u u' (Hk & Hv) HF IH]; intros d d' H.
  - exact H.
  - simpl in Hk, Hv. subst. unfold dupdate. simpl. apply IH. now apply reads_dset.
Qed.

Lemma deepcopy_reads n d h memo (d0 : dict V) :
  reads h d d0 -> n <= length h -> NoDup (refs d) ->
  (forall l, In l (refs d) -> l < n) ->
  (forall l, In l (refs d) -> memo_get l memo = None) ->
  exists h' c ext, deepcopy_go h memo d = Ok (h', c) /\ h' = h ++ ext /\ reads h' c d0 /\ NoDup (refs c) /\ (forall l, In l (refs c) -> length h <= l).
Proof.
  intros H. revert h memo H. revert d0.
  induction d as [|[k x] d IH]; intros d0 h memo H Hn Hnd Hv Hm.
  - exists h, [], []. simpl. rewrite app_nil_r. inversion H; subst.
    repeat split; auto; try constructor. simpl; tauto.
  - inversion H as [|? [k' v] ? d1 (Hk & Hx) HF]; subst. simpl in Hk, Hx. subst.
    destruct x as [v0|l]; simpl in *.
    + destruct (IH d1 h memo HF Hn Hnd Hv Hm) as (h' & c & ext & E & -> & R & N & A).
      rewrite E. simpl. exists (h ++ ext), ((k', VNum v0) :: c), ext. repeat split; auto.
      constructor; auto.
    + rewrite Hm by auto. rewrite Hx. inversion Hnd as [|? ? Hni Hnd']; subst.
      assert (HF' : reads (h ++ [v]) d d1).
      { eapply reads_weaken; eauto. intros l0 Hl0. rewrite nth_error_app1; auto.
        eapply reads_valid; eauto. }
      destruct (IH d1 (h ++ [v]) ((l, length h) :: memo) HF') as (h' & c & ext & E & -> & R & N & A); auto.
      * rewrite app_length. simpl. lia.
      * intros l0 Hl0. simpl. destruct (Nat.eqb_spec l0 l); [subst; tauto|auto].
      * rewrite E. simpl. exists ((h ++ [v]) ++ ext), ((k', VRef (length h)) :: c), (v :: ext).
        rewrite app_length in A. simpl in A. repeat split.
        -- now rewrite <- app_assoc.
        -- constructor; auto. simpl. split; auto.
           rewrite <- app_assoc. rewrite nth_error_app2 by auto. now rewrite Nat.sub_diag.
        -- simpl. constructor; auto. intros Hi. apply A in Hi. lia.
        -- intros l0 [<-|Hi]; auto. apply A in Hi. lia.
Qed.

(** locations at or above [n] are not shared *)
Definition unshared n (d : dict (pyval V)) : Prop := NoDup (filter (Nat.leb n) (refs d)).

Lemma reads_hset n h d (d' : dict V) k l v :
  reads h d d' -> unshared n d -> n <= l -> l < length h -> dget k d = Some (VRef l) ->
  reads (hset h l v) d (dset k v d').
Proof.
  intros H. induction H as [|[k1 x] [k2 w] d d' (Hk & Hv) HF IH]; simpl; intros Hu Hn Hl Hg; [discriminate|].
  simpl in *. subst. unfold unshared in *. destruct (String.eqb k k2) eqn:E.
  - inversion Hg; subst. simpl in Hu. apply Nat.leb_le in Hn. rewrite Hn in Hu.
    inversion Hu; subst. constructor.
    + simpl. split; auto. rewrite nth_hset, Nat.eqb_refl.
      destruct (nth_error h l) eqn:En; auto. apply nth_error_None in En. lia.
    + eapply reads_weaken; eauto. intros l0 Hl0. rewrite nth_hset.
      destruct (Nat.eqb_spec l0 l); auto. subst. exfalso. apply H1. apply filter_In. auto.
  - constructor.
    + simpl. split; auto. destruct x as [|lx]; simpl in *; auto. rewrite nth_hset.
      destruct (Nat.eqb_spec lx l); auto. subst. exfalso.
      apply Nat.leb_le in Hn. rewrite Hn in Hu. inversion Hu; subst. apply H1.
      apply filter_In. split; auto. clear -Hg. induction d as [|[k3 y] d IH]; simpl in *; [discriminate|].
      destruct (String.eqb k k3).
      * inversion Hg; subst. simpl. auto.
      * destruct y; simpl; auto.
    + apply IH; auto. destruct x as [|lx]; simpl in Hu; auto.
      destruct (Nat.leb n lx); auto. now inversion Hu.
Qed.

Lemma refs_dset_num k (v : V) d : incl (refs (dset k (VNum v) d)) (refs d) /\
  forall n, unshared n d -> unshared n (dset k (VNum v) d).
Proof.
  unfold unshared. induction d as [|[k1 x] d (I & U)]; simpl.
  - split; [intros l []|auto].
  - destruct (String.eqb k k1).
    + destruct x; simpl; split; auto.
      * apply incl_refl.
      * now apply incl_tl, incl_refl.
      * intros n Hn. destruct (Nat.leb n loc); auto. now inversion Hn.
    + destruct x; simpl; split; auto.
      * intros l [->|Hl]; simpl; auto.
      * intros n Hn. destruct (Nat.leb n loc) eqn:E; auto. inversion Hn; subst. constructor; auto.
        intros Hi. apply H1. apply filter_In in Hi as (Hi & Hb). apply filter_In. auto.
Qed.

Lemma fold_op_reads op n sh (sh' : dict V) h d (d' : dict V) :
  reads h d d' -> reads h sh sh' -> unshared n d -> (forall l, In l (refs sh) -> l < n) ->
  (forall k l, In k (dkeys sh) -> dget k d = Some (VRef l) -> n <= l) ->
  forall r, fold_res (apply_op_heap op) (h, d) sh = r ->
  match r with
  | Ok (h2, d2) => exists d2', fold_res (apply_op op) d' sh' = Ok d2' /\ reads h2 d2 d2' /\ unshared n d2 /\
                     (forall l, l < n -> nth_error h2 l = nth_error h l) /\
                     (forall k l, dget k d2 = Some (VRef l) -> dget k d = Some (VRef l))
  | Err e => fold_res (apply_op op) d' sh' = Err e
  end.
Proof.
  intros H Hs. revert h d d' H Hs. revert sh'.
  induction sh as [|[k x] sh IH]; intros sh' h d d' H Hs Hu Hlt Hab r <-.
  - inversion Hs; subst. simpl. exists d'. repeat split; auto.
  - inversion Hs as [|? [k' v] ? sh1 (Hk & Hx) HF]; subst. simpl in Hk, Hx. subst.
    assert (G := @reads_dget h d d' k' H). simpl.
    unfold apply_op at 1 3, dgetitem. unfold dgetitem. cbn [fst snd].
    destruct (dget k' d) as [y|] eqn:Eg; [|rewrite G; reflexivity].
    destruct G as (o & Ho & ->). simpl. rewrite Hx.
    destruct y as [o'|l]; simpl in Ho.
    + inversion Ho; subst. destruct (op o v) as [nv|e]; simpl; [|reflexivity].
      destruct (refs_dset_num k' nv d) as (_ & U).
      specialize (IH sh1 h (dset k' (VNum nv) d) (dset k' nv d')
                     (@reads_dset h d d' k' (VNum nv) nv H eq_refl) HF (U n Hu)).
      assert (L1 : forall l, In l (refs sh) -> l < n).
      { intros l Hl. apply Hlt. destruct x; simpl; auto. }
      specialize (IH L1).
      match type of IH with ?P -> _ => assert (L2 : P) end.
      { intros k l Hk Hg. rewrite dget_dset in Hg. destruct (String.eqb k k'); [discriminate|].
        eapply Hab; eauto. simpl; auto. }
      specialize (IH L2 _ eq_refl).
      destruct (fold_res (apply_op_heap op) (h, dset k' (VNum nv) d) sh) as [[h2 d2]|e].
      * destruct IH as (d2' & E & R & U2 & N2 & K2).
        exists d2'. repeat split; auto. intros k l Hg. apply K2 in Hg. rewrite dget_dset in Hg.
        destruct (String.eqb k k'); [discriminate|auto].
      * exact IH.
    + rewrite Ho. destruct (op o v) as [nv|e]; simpl; [|reflexivity].
      assert (Hnl : n <= l) by (eapply Hab; eauto; simpl; auto).
      assert (Hll : l < length h) by (apply nth_error_Some; congruence).
      assert (R' : reads (hset h l nv) d (dset k' nv d')) by (eapply reads_hset; eauto).
      assert (Hlt' : forall l0, In l0 (refs sh) -> l0 < n).
      { intros l0 Hl0. apply Hlt. destruct x; simpl; auto. }
      assert (HF' : reads (hset h l nv) sh sh1).
      { eapply reads_weaken; eauto. intros l0 Hl0. rewrite nth_hset.
        destruct (Nat.eqb_spec l0 l); auto. subst. apply Hlt' in Hl0. lia. }
      specialize (IH sh1 (hset h l nv) d (dset k' nv d') R' HF' Hu Hlt' (fun k l0 Hk => Hab k l0 (or_intror Hk)) _ eq_refl).
      destruct (fold_res (apply_op_heap op) (hset h l nv, d) sh) as [[h2 d2]|e].
      * destruct IH as (d2' & E & R & U2 & N2 & K2).
        exists d2'. repeat split; auto. intros l0 Hl0. rewrite N2 by auto. rewrite nth_hset.
        destruct (Nat.eqb_spec l0 l); auto. lia.
      * exact IH.
Qed.

Lemma unshared_dset n k x (d : dict (pyval V)) :
  unshared n d -> (match x with VRef l => l < n | _ => True end) -> unshared n (dset k x d).
Proof.
  destruct x as [v|l]; intros Hu Hx.
  - now apply refs_dset_num.
  - unfold unshared in *. apply Nat.leb_gt in Hx. induction d as [|[k1 y] d IH]; simpl in *.
    + rewrite Hx. constructor.
    + destruct (String.eqb k k1); simpl.
      * rewrite Hx. destruct y; auto. simpl in Hu. destruct (Nat.leb n loc); auto. now inversion Hu.
      * destruct y as [|ly]; simpl in *; auto. destruct (Nat.leb n ly) eqn:E; auto.
        inversion Hu as [|? ? Hni Hnd]; subst. constructor; auto. intros Hi. apply Hni.
        apply filter_In in Hi as (Hi & Hb). apply filter_In. split; auto.
        clear -Hi Hb Hx. induction d as [|[k2 z] d IHd]; simpl in *.
        -- destruct Hi as [->|[]]. congruence.
        -- destruct (String.eqb k k2); simpl in Hi.
           ++ destruct Hi as [->|Hi]; [congruence|]. destruct z; simpl; auto.
           ++ destruct z; simpl in *; auto. destruct Hi; auto.
Qed.

Lemma unshared_dupdate n u (d : dict (pyval V)) :
  unshared n d -> (forall l, In l (refs u) -> l < n) -> unshared n (dupdate d u).
Proof.
  unfold dupdate. revert d. induction u as [|[k x] u IH]; simpl; intros d Hd Hu; auto.
  apply IH.
  - apply unshared_dset; auto. destruct x; auto. apply Hu. simpl; auto.
  - intros l Hl. apply Hu. destruct x; simpl; auto.
Qed.

End Refine.

Lemma dget_in_refs {V} k l (d : dict (pyval V)) : dget k d = Some (VRef l) -> In l (refs d).
Proof.
  induction d as [|[k1 x] d IH]; simpl; [discriminate|]. destruct (String.eqb k k1); intros H.
  - inversion H; subst. simpl; auto.
  - destruct x; simpl; auto.
Qed.

(** C07: when no two initial entries share an array, the in-place version
    computes exactly what the pure one does, error cases included. *)
Lemma c07_in_place_refines__p :
  forall {V : Type} (vadd vmul : V -> V -> res V) (h : heap V)
         (init fv fd fp : dict (pyval V)) (init' fv' fd' fp' : dict V),
  reads h init init' -> reads h fv fv' -> reads h fd fd' -> reads h fp fp' ->
  NoDup (refs init) ->
  match create_final_param_dict_heap vadd vmul h init fv fd fp with
  | Ok (h2, s) => exists s', create_final_param_dict vadd vmul init' (Some fv') (Some fd') (Some fp') = Ok s'
                             /\ reads h2 s s'
  | Err e => create_final_param_dict vadd vmul init' (Some fv') (Some fd') (Some fp') = Err e
  end.
Proof.
  intros V vadd vmul h init fv fd fp init' fv' fd' fp' Ri Rv Rd Rp Hnd.
  unfold create_final_param_dict_heap, create_final_param_dict, deepcopy.
  destruct (@deepcopy_reads V (length h) init h [] init' Ri (Nat.le_refl _) Hnd)
    as (h1 & c & ext & -> & -> & Rc & Nc & Ac); auto.
  { intros l Hl. exact (reads_valid l Ri Hl). }
  simpl fst. simpl snd. simpl bind.
  rewrite (reads_keys Rv), (reads_keys Rd), (reads_keys Rp).
  set (all := dkeys fv' ++ dkeys fd' ++ dkeys fp').
  destruct all as [|a0 rest] eqn:E; [reflexivity|]. rewrite <- E.
  destruct (has_repeat all) eqn:ER; [reflexivity|]. apply has_repeat_NoDup in ER.
  unfold all in ER. apply NoDup_app_inv in ER as (Nv & Ndp & Dv).
  apply NoDup_app_inv in Ndp as (Nd & Np & Dd).
  assert (W : forall (d : dict (pyval V)) d', reads h d d' -> reads (h ++ ext) d d').
  { intros d d' R. eapply reads_weaken; eauto. intros l Hl. rewrite nth_error_app1; auto.
    exact (reads_valid l R Hl). }
  assert (R0 := @reads_dupdate V _ _ _ _ _ Rc (W _ _ Rv)).
  assert (U0 : unshared (length h) (dupdate c fv)).
  { apply unshared_dupdate.
    - unfold unshared. apply NoDup_filter. exact Nc.
    - intros l Hl. exact (reads_valid l Rv Hl). }
  assert (A0 : forall k l, In k (dkeys fd' ++ dkeys fp') -> dget k (dupdate c fv) = Some (VRef l) -> length h <= l).
  { intros k l Hk Hg. apply Ac. rewrite dget_dupdate in Hg.
    assert (N : dget k (rev fv) = None).
    { apply dget_None. unfold dkeys. rewrite map_rev. rewrite <- in_rev. fold (dkeys fv).
      rewrite (reads_keys Rv). intros Hi. now apply (Dv k). }
    rewrite N in Hg. eapply dget_in_refs; eauto. }
  assert (F1 := @fold_op_reads V vadd (length h) fd fd' (h ++ ext) (dupdate c fv) (dupdate init' fv')
                  R0 (W _ _ Rd) U0 (fun l Hl => reads_valid l Rd Hl)).
  match type of F1 with ?P -> _ => assert (HP : P) end.
  { intros k l Hk. apply A0. apply in_or_app. left. now rewrite <- (reads_keys Rd). }
  match goal with |- match bind ?t _ with _ => _ end => destruct t as [[h2 d2]|e] eqn:EF end;
    specialize (F1 HP _ eq_refl); clear HP EF; cbv beta iota in F1.
  2:{ simpl. rewrite F1. reflexivity. }
  destruct F1 as (d2' & -> & R2 & U2 & N2 & K2). simpl.
  assert (Rp2 : reads h2 fp fp').
  { eapply reads_weaken; [exact Rp|]. intros l Hl. assert (Hlt := reads_valid l Rp Hl).
    rewrite N2 by auto. now rewrite nth_error_app1. }
  assert (F2 := @fold_op_reads V vmul (length h) fp fp' h2 d2 d2' R2 Rp2 U2 (fun l Hl => reads_valid l Rp Hl)).
  match type of F2 with ?P -> _ => assert (HP : P) end.
  { intros k l Hk Hg. apply (A0 k). - apply in_or_app. right. now rewrite <- (reads_keys Rp).
    - now apply K2. }
  match goal with |- match ?t with _ => _ end => destruct t as [[h3 d3]|e] eqn:EF end;
    specialize (F2 HP _ eq_refl); clear HP EF; cbv beta iota in F2; auto.
  destruct F2 as (d3' & E3 & R3 & _). eauto.
Qed.

(** C07, aliasing part: a shock to one of two entries that share an array
    changes the other. *)
Lemma c07_shared_array_refuted__p :
  exists (h h' : heap Z) (init fd s : dict (pyval Z)) (k : string),
    ~ In k (dkeys fd) /\
    create_final_param_dict_heap (fun a b => Ok (a + b)%Z) (fun a b => Ok (a * b)%Z) h init [] fd [] = Ok (h', s) /\
    match dget k init with Some x => deref h x | None => None end = Some 1%Z /\
    match dget k s with Some x => deref h' x | None => None end = Some 11%Z.
Proof.
  exists [1%Z], [1%Z; 11%Z], [("a"%string, VRef 0); ("b"%string, VRef 0)], [("a"%string, VNum 10%Z)],
         [("a"%string, VRef 1); ("b"%string, VRef 1)], "b"%string.
  repeat split; try reflexivity. simpl. intuition discriminate.
Qed.
