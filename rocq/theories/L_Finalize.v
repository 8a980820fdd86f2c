(** Proofs of C88. *)
From Verif Require Import Py PyStr NdArray M_Primitives M_Utilities M_Registry M_Finalize S_Layout S_Finalize L_Utilities L_Layout.
From Coq Require Import Sorting.Sorted Sorting.Permutation.
Local Open Scope string_scope.
Local Open Scope list_scope.

Lemma before_trans a b : before a b -> forall c, before b c -> before a c.
Proof.
  induction 1; intros x H'; inversion H'; subst;
    first [solve [constructor]|solve [apply before_char; lia]|solve [apply before_tail; auto]].
Qed.

Lemma compare_before a b :
  match String.compare a b with Eq => a = b | Lt => before a b | Gt => before b a end.
Proof.
  revert b. induction a as [|x a IH]; intros [|y b]; cbn; try constructor.
  unfold Ascii.compare. destruct (N.compare_spec (N_of_ascii x) (N_of_ascii y)) as [H|H|H].
  - apply (f_equal ascii_of_N) in H. rewrite !ascii_N_embedding in H. subst y.
    specialize (IH b). destruct (String.compare a b); [now subst|now constructor|now constructor].
  - constructor. unfold nat_of_ascii. lia.
  - constructor. unfold nat_of_ascii. lia.
Qed.

Lemma insert_perm o l : Permutation (o :: l) (insert_object o l).
Proof.
  induction l as [|x l IH]; cbn; auto. destruct (name_leb _ _); auto.
  eapply perm_trans; [apply perm_swap|]. now constructor.
Qed.

Lemma sort_perm l : Permutation l (sort_objects l).
Proof.
  induction l as [|o l IH]; cbn; auto. eapply perm_trans; [|apply insert_perm]. now constructor.
Qed.

Lemma insert_sorted o l :
  ~ In (o_name o) (map o_name l) -> StronglySorted before (map o_name l) -> StronglySorted before (map o_name (insert_object o l)).
Proof.
  induction l as [|x l IH]; intros Hn H; cbn.
  - constructor; constructor.
  - inversion H as [|? ? Hs Hf]; subst. unfold name_leb.
    pose proof (compare_before (o_name o) (o_name x)) as C.
    destruct (String.compare (o_name o) (o_name x)) eqn:E; cbn.
    + cbn in Hn. exfalso. apply Hn. left. now symmetry.
    + constructor; auto. constructor; auto. rewrite Forall_forall in *. intros y Hy.
      eapply before_trans; eauto.
    + constructor.
      * apply IH; auto. intro; apply Hn; now right.
      * rewrite Forall_forall in *. intros y Hy.
        apply in_map_iff in Hy as (z & <- & Hz). apply (Permutation_in _ (Permutation_sym (insert_perm o l))) in Hz as [<-|Hz]; auto.
        apply Hf. now apply in_map.
Qed.

Lemma sort_sorted l : NoDup (map o_name l) -> StronglySorted before (map o_name (sort_objects l)).
Proof.
  induction l as [|o l IH]; cbn; intros H; [constructor|]. inversion H; subst.
  apply insert_sorted; auto. intro K. apply H2.
  apply (Permutation_in _ (Permutation_map o_name (Permutation_sym (sort_perm l)))) in K. exact K.
Qed.

Lemma shape_eqb_spec a b : shape_eqb a b = true <-> a = b.
Proof. unfold shape_eqb. destruct (list_eq_dec Nat.eq_dec a b); split; congruence. Qed.
Lemma shape_eqb_neg a b : shape_eqb a b = false <-> a <> b.
Proof. rewrite <- shape_eqb_spec. destruct (shape_eqb a b); split; congruence. Qed.

Lemma get_object_one m n : get_object m n = get_one m n.
Proof.
  unfold get_object, get. cbn. destruct (get_one m n); reflexivity.
Qed.

Definition all_objects (m : model) : list mobj := dvals (m_vars m) ++ dvals (m_pars m).

Lemma app_same_length {A} (l1 l1' l2 l2' : list A) : length l1 = length l1' -> l1 ++ l2 = l1' ++ l2' -> l1 = l1' /\ l2 = l2'.
Proof.
  revert l1'. induction l1 as [|x l1 IH]; intros [|y l1'] L H; try discriminate; [auto|].
  cbn in *. injection L as L. injection H as -> H. destruct (IH _ L H) as [-> ->]. auto.
Qed.

Lemma names_split {V} (d1 d2 : dict V) (f : V -> string) :
  map f (dvals d1 ++ dvals d2) = dkeys d1 ++ dkeys d2 -> map f (dvals d1) = dkeys d1 /\ map f (dvals d2) = dkeys d2.
Proof.
  rewrite map_app. intros H. apply app_same_length in H; auto.
  unfold dvals, dkeys. now rewrite !map_length.
Qed.

Lemma self_named (d : dict mobj) o :
  map o_name (dvals d) = dkeys d -> NoDup (dkeys d) -> In o (dvals d) -> dget (o_name o) d = Some o.
Proof.
  intros H N Ho. apply dget_In_NoDup; auto.
  clear N. unfold dvals, dkeys in *. induction d as [|[k v] d IH]; cbn in *; [tauto|].
  injection H as H1 H2. destruct Ho as [<-|Ho]; [left; congruence|right; auto].
Qed.

Lemma get_one_registered m o : registry_ok m -> In o (all_objects m) -> get_one m (o_name o) = Ok o.
Proof.
  intros (Hn & Hd & _) Ho. destruct (names_split _ _ _ Hn) as [N1 N2].
  pose proof (NoDup_app_inv _ _ Hd) as (D1 & D2 & D3).
  unfold get_one. unfold all_objects in Ho. rewrite in_app_iff in Ho.
  destruct (mem_str (o_name o) (dkeys (m_vars m))) eqn:E.
  - destruct Ho as [Ho|Ho].
    + unfold dgetitem. now rewrite (self_named _ _ N1 D1 Ho).
    + exfalso. apply mem_str_In in E. apply (D3 _ E). rewrite <- N2. now apply in_map.
  - destruct Ho as [Ho|Ho].
    + exfalso. apply mem_str_nIn in E. apply E. rewrite <- N1. now apply in_map.
    + pose proof (self_named _ _ N2 D2 Ho) as G.
      assert (M : mem_str (o_name o) (dkeys (m_pars m)) = true).
      { apply mem_str_In. rewrite <- N2. now apply in_map. }
      rewrite M. unfold dgetitem. now rewrite G.
Qed.

Lemma shape_exists m o : registry_ok m -> In o (all_objects m) -> exists shape, has_shape (m_coords m) o shape.
Proof.
  intros (_ & _ & H) Ho. specialize (H o). unfold has_shape.
  assert (K : forall d, In d (o_dims o) -> In d (dkeys (m_coords m))) by (intros; now apply H).
  clear H Ho. induction (o_dims o) as [|d ds IH]; [exists []; constructor|].
  destruct IH as (s & Hs); [intros; apply K; now right|].
  destruct (proj1 (dget_Some_key d (m_coords m)) (K d (or_introl eq_refl))) as (ls & Hl).
  exists (length ls :: s). constructor; eauto.
Qed.

Section Values.
Context {V : Type}.
Implicit Types a : arr V.

Definition settle (shape : list nat) a : arr V :=
  if (shape_eqb (ashape a) [1] || shape_eqb (ashape a) []) && shape_eqb shape [] then squeeze a else a.

Lemma settle_received shape a : received shape a (settle shape a).
Proof.
  unfold settle, received. destruct (shape_eqb (ashape a) [1]) eqn:E1; cbn [orb].
  - apply shape_eqb_spec in E1. destruct (shape_eqb shape []) eqn:E2; cbn [andb].
    + apply shape_eqb_spec in E2. left. split; [auto|split; [auto|]]. unfold squeeze. now rewrite E1.
    + apply shape_eqb_neg in E2. right. tauto.
  - apply shape_eqb_neg in E1. right. split; [tauto|].
    destruct (shape_eqb (ashape a) []) eqn:E2; cbn [andb]; auto.
    apply shape_eqb_spec in E2. destruct (shape_eqb shape []); auto.
    unfold squeeze. destruct a as [s d]. cbn in *. now subst.
Qed.

Lemma received_fun shape a a1 a2 : received shape a a1 -> received shape a a2 -> a1 = a2.
Proof. unfold received. intros [(A & B & C)|(A & C)] [(A' & B' & C')|(A' & C')]; subst; tauto. Qed.

Lemma check_shape_ok m o shape a :
  registry_ok m -> In o (all_objects m) -> has_shape (m_coords m) o shape ->
  check_shape m a (o_name o) =
    Ok (settle shape a, if shape_eqb (ashape (settle shape a)) shape then [] else [WrongShape (o_name o) (ashape (settle shape a)) shape]).
Proof.
  intros R Ho H. unfold check_shape. rewrite get_object_one, (@get_one_registered m o R Ho). cbn [bind].
  apply infer_shape_spec in H. rewrite H. reflexivity.
Qed.

Variables (m : model) (locals : dict (local_value V)).
Hypothesis R : registry_ok m.

Definition shape_of (o : mobj) : list nat := match infer_shape (m_coords m) o with Ok s => s | Err _ => [] end.
Lemma shape_of_ok o : In o (all_objects m) -> has_shape (m_coords m) o (shape_of o).
Proof.
  intros Ho. destruct (@shape_exists m o R Ho) as (s & H). unfold shape_of.
  pose proof (proj2 (infer_shape_spec _ _ _) H) as E. now rewrite E.
Qed.
Definition found (o : mobj) : option (arr V) :=
  if String.eqb (o_name o) "_" then None else option_map values_of (dget (o_name o) locals).
Definition entry (o : mobj) : list (string * arr V) :=
  match found o with Some a => [(o_name o, settle (shape_of o) a)] | None => [] end.
Definition said (o : mobj) : list message :=
  match found o with
  | Some a => if shape_eqb (ashape (settle (shape_of o) a)) (shape_of o) then [] else [WrongShape (o_name o) (ashape (settle (shape_of o) a)) (shape_of o)]
  | None => [NotFound (o_name o)]
  end.

Lemma finalize_loop_ok objs d out :
  (forall o, In o objs -> In o (all_objects m)) -> NoDup (map o_name objs) ->
  (forall o, In o objs -> ~ In (o_name o) (dkeys d)) ->
  finalize_loop m locals objs d out = Ok (d ++ flat_map entry objs, out ++ flat_map said objs).
Proof.
  revert d out. induction objs as [|o objs IH]; intros d out Hin Hnd Hd; cbn [finalize_loop flat_map map].
  - now rewrite !app_nil_r.
  - cbn [map] in Hnd. inversion Hnd; subst. unfold entry at 1, said at 1, found.
    destruct (String.eqb (o_name o) "_") eqn:E; [|destruct (dget (o_name o) locals) as [v|] eqn:G]; cbn [option_map].
    + rewrite IH; [now rewrite <- !app_assoc|firstorder|auto|firstorder].
    + rewrite (@check_shape_ok m o _ (values_of v) R (Hin o (or_introl eq_refl)) (@shape_of_ok o (Hin o (or_introl eq_refl)))).
      cbn [bind fst snd]. rewrite IH.
      * rewrite dset_new by (apply Hd; now left). now rewrite <- !app_assoc.
      * firstorder.
      * auto.
      * intros o' Ho'. rewrite dset_new by (apply Hd; now left). unfold dkeys. rewrite map_app, in_app_iff.
        intros [K|[K|[]]]; [apply (Hd o'); [now right|exact K]|].
        cbn in K. apply H1. rewrite K. now apply in_map.
    + rewrite IH; [now rewrite <- !app_assoc|firstorder|auto|firstorder].
Qed.

Lemma entries_keys objs : dkeys (flat_map entry objs) = filter (fun n => negb (String.eqb n "_") && dmem n locals)%bool (map o_name objs).
Proof.
  induction objs as [|o objs IH]; cbn; auto. unfold dkeys in *. rewrite map_app, IH.
  unfold entry, found. destruct (String.eqb (o_name o) "_"); cbn; auto.
  destruct (dget (o_name o) locals) eqn:E; cbn.
  - rewrite (proj2 (dmem_true _ _) (ex_intro _ _ E)). reflexivity.
  - rewrite (proj2 (dmem_false _ _) E). reflexivity.
Qed.

Lemma found_given o a : o_name o <> "_" -> given locals (o_name o) a -> found o = Some a.
Proof.
  intros N G. unfold found. apply String.eqb_neq in N. rewrite N. destruct G as [G|G]; now rewrite G.
Qed.

Lemma entry_get objs o a :
  In o objs -> NoDup (map o_name objs) -> found o = Some a ->
  dget (o_name o) (flat_map entry objs) = Some (settle (shape_of o) a).
Proof.
  intros Ho N F. apply dget_In_NoDup.
  - rewrite entries_keys. now apply NoDup_filter.
  - apply in_flat_map. exists o. split; auto. unfold entry. rewrite F. now left.
Qed.

End Values.

Lemma sorted_objects m :
  registry_ok m ->
  let objs := sort_objects (dvals (m_vars m)) ++ sort_objects (dvals (m_pars m)) in
  Permutation (all_objects m) objs /\ NoDup (map o_name objs) /\
  alphabetical (dkeys (m_vars m)) (map o_name (sort_objects (dvals (m_vars m)))) /\
  alphabetical (dkeys (m_pars m)) (map o_name (sort_objects (dvals (m_pars m)))).
Proof.
  intros (Hn & Hd & _) objs. destruct (names_split _ _ _ Hn) as [N1 N2].
  pose proof (NoDup_app_inv _ _ Hd) as (D1 & D2 & D3).
  assert (P : Permutation (all_objects m) objs) by (apply Permutation_app; apply sort_perm).
  split; auto. split.
  - eapply Permutation_NoDup; [apply Permutation_map; exact P|]. unfold all_objects. rewrite Hn. exact Hd.
  - split; split.
    + rewrite <- N1. apply Permutation_map, sort_perm.
    + apply sort_sorted. now rewrite N1.
    + rewrite <- N2. apply Permutation_map, sort_perm.
    + apply sort_sorted. now rewrite N2.
Qed.

Lemma c88_collected__p :
  forall {V : Type} (m : model) (locals : dict (local_value V)),
    registry_ok m ->
    exists vs ps d out,
      alphabetical (dkeys (m_vars m)) vs /\ alphabetical (dkeys (m_pars m)) ps /\
      finalize_calibration m locals = Ok (d, out) /\
      dkeys d = filter (fun n => negb (String.eqb n "_") && dmem n locals)%bool (vs ++ ps)%list /\
      (forall o shape a, In o (dvals (m_vars m) ++ dvals (m_pars m))%list -> o_name o <> "_"%string ->
         has_shape (m_coords m) o shape -> given locals (o_name o) a ->
         exists a', dget (o_name o) d = Some a' /\ received shape a a') /\
      (forall n got expected, In (WrongShape n got expected) out <->
         got <> expected /\ exists o a, In o (dvals (m_vars m) ++ dvals (m_pars m))%list /\ o_name o = n /\
           has_shape (m_coords m) o expected /\ dget n d = Some a /\ ashape a = got) /\
      (forall n, In (NotFound n) out <-> In n (vs ++ ps)%list /\ (n = "_"%string \/ ~ In n (dkeys locals))).
Proof.
  intros V m locals R. destruct (sorted_objects R) as (P & N & A1 & A2).
  set (objs := sort_objects (dvals (m_vars m)) ++ sort_objects (dvals (m_pars m))) in *.
  assert (I : forall o, In o objs <-> In o (all_objects m)).
  { intros o. split; apply Permutation_in; [now apply Permutation_sym|exact P]. }
  assert (L : finalize_calibration m locals = Ok (flat_map (entry m locals) objs, flat_map (said m locals) objs)).
  { unfold finalize_calibration. rewrite finalize_loop_ok; auto; try reflexivity. intros o. apply I. }
  assert (K : dkeys (flat_map (entry m locals) objs) = filter (fun n => negb (String.eqb n "_") && dmem n locals)%bool (map o_name objs))
    by apply entries_keys.
  do 4 eexists. split; [exact A1|]. split; [exact A2|]. split; [exact L|]. rewrite <- map_app. fold objs. split; [exact K|].
  split; [|split].
  - intros o shape a Ho Hn Hs G. apply I in Ho. exists (settle (shape_of m o) a). split.
    + apply entry_get; auto. now apply found_given.
    + rewrite <- (has_shape_fun (@shape_of_ok m R o (proj1 (I o) Ho)) Hs). apply settle_received.
  - intros n g e. rewrite in_flat_map. split.
    + intros (o & Ho & H). unfold said in H. destruct (found locals o) as [a|] eqn:F; [|destruct H as [H|[]]; discriminate].
      destruct (shape_eqb _ _) eqn:E; [destruct H|]. destruct H as [H|[]]. injection H as <- <- <-. apply shape_eqb_neg in E. split; auto.
      exists o, (settle (shape_of m o) a). split; [now apply I|]. split; auto. split; [apply shape_of_ok; auto; now apply I|].
      split; auto. now apply entry_get.
    + intros (Hne & o & a & Ho & <- & Hs & G & <-). apply I in Ho. exists o. split; auto.
      apply (has_shape_fun (@shape_of_ok m R o (proj1 (I o) Ho))) in Hs.
      unfold said. destruct (found locals o) as [a0|] eqn:F.
      * rewrite (@entry_get V m locals objs o _ Ho N F) in G. injection G as <-. subst e.
        apply shape_eqb_neg in Hne. rewrite Hne. now left.
      * exfalso. apply dget_In in G. assert (J : In (o_name o) (dkeys (flat_map (entry m locals) objs))) by (apply in_map_iff; exists (o_name o, a); auto).
        rewrite K in J. apply filter_In in J as [_ J]. apply andb_prop in J as [J1 J2].
        unfold found in F. destruct (String.eqb (o_name o) "_"); [discriminate|].
        apply dmem_true in J2 as (v & J2). rewrite J2 in F. discriminate.
  - intros n. rewrite in_flat_map. split.
    + intros (o & Ho & H). unfold said in H. destruct (found locals o) as [a|] eqn:F.
      * destruct (shape_eqb _ _); [destruct H|]. destruct H as [H|[]]; discriminate.
      * destruct H as [H|[]]. injection H as <-. split; [now apply in_map|].
        unfold found in F. destruct (String.eqb (o_name o) "_") eqn:E; [left; now apply String.eqb_eq|right].
        apply dget_None. destruct (dget (o_name o) locals); [discriminate|reflexivity].
    + intros (Hn & H). apply in_map_iff in Hn as (o & <- & Ho). exists o. split; auto. unfold said.
      assert (F : found locals o = None).
      { unfold found. destruct H as [H|H]; [now rewrite H|]. destruct (String.eqb (o_name o) "_"); auto.
        apply dget_None in H. now rewrite H. }
      rewrite F. now left.
Qed.

(** When nothing is reported, the dictionary is what the flat vectors need. *)
Lemma c88_usable__p :
  forall {V : Type} (m : model) (locals : dict (local_value V)),
    registry_ok m -> m_vars m <> nil -> m_pars m <> nil ->
    (forall o, In o (dvals (m_vars m) ++ dvals (m_pars m))%list -> o_name o <> "_"%string /\
       exists shape a, has_shape (m_coords m) o shape /\ given locals (o_name o) a /\ arr_wf a /\
         (ashape a = shape \/ (shape = nil /\ ashape a = (1 :: nil)%list))) ->
    exists d v p d',
      finalize_calibration m locals = Ok (d, nil) /\
      variable_dict_to_flat_array d (dvals (m_vars m)) (dvals (m_pars m)) = Ok (v, p) /\
      flat_array_to_variable_dict (v ++ p)%list (dvals (m_vars m) ++ dvals (m_pars m))%list (m_coords m) = Ok d' /\
      dkeys d' = (dkeys (m_vars m) ++ dkeys (m_pars m))%list /\
      forall o a, In o (dvals (m_vars m) ++ dvals (m_pars m))%list -> given locals (o_name o) a ->
        exists a', dget (o_name o) d' = Some a' /\ adata a' = adata a.
Proof.
  intros V m locals R Hv Hp H.
  destruct (c88_collected__p locals R) as (vs & ps & d & out & A1 & A2 & E & _ & C & W & NF).
  pose proof R as (Hn & Hd & _).
  assert (F : forall o, In o (all_objects m) -> exists a, dget (o_name o) d = Some a /\ fits (m_coords m) o a).
  { intros o Ho. destruct (H o Ho) as (Hne & shape & a & Hs & G & Wf & Sh).
    destruct (C o shape a Ho Hne Hs G) as (a' & Ga & Rc). exists a'. split; auto.
    destruct Rc as [(E1 & E2 & ->)|(E1 & ->)].
    - split; [|subst; exact Hs]. unfold arr_wf in *. rewrite E2 in Wf. cbn in *. lia.
    - split; auto. destruct Sh as [->|Sh]; [auto|tauto]. }
  assert (N : out = []).
  { destruct out as [|[n g e|n] out]; auto; exfalso.
    - destruct (proj1 (W n g e) (or_introl eq_refl)) as (Hne & o & a & Ho & <- & Hs & G & <-).
      destruct (F o Ho) as (a' & Ga & _ & Hf). rewrite G in Ga. injection Ga as <-. apply Hne. eapply has_shape_fun; eauto.
    - destruct (proj1 (NF n) (or_introl eq_refl)) as (Hi & K).
      assert (J : In n (map o_name (all_objects m))).
      { unfold all_objects. rewrite Hn. rewrite in_app_iff in *. destruct A1 as [P1 _], A2 as [P2 _].
        destruct Hi as [Hi|Hi]; [left|right]; eapply Permutation_in; try eassumption; now apply Permutation_sym. }
      apply in_map_iff in J as (o & <- & Ho). destruct (H o Ho) as (Hne & shape & a & _ & G & _).
      destruct K as [K|K]; [tauto|]. apply K. destruct G as [G|G]; apply dget_Some_key; eauto. }
  subst out.
  destruct (@c01_pack_unpack__p V (m_coords m) (dvals (m_vars m)) (dvals (m_pars m)) d) as (v & p & d' & E1 & E2 & E3 & E4).
  - destruct (m_vars m); [tauto|discriminate].
  - destruct (m_pars m); [tauto|discriminate].
  - rewrite Hn. exact Hd.
  - exact F.
  - exists d, v, p, d'. split; auto. split; auto. split; auto. split; [now rewrite E3|].
    intros o a Ho G. rewrite (E4 o Ho). destruct (H o Ho) as (Hne & shape & a0 & Hs & _).
    destruct (C o shape a Ho Hne Hs G) as (a' & Ga & Rc). exists a'. split; auto.
    destruct Rc as [(_ & _ & ->)|(_ & ->)]; reflexivity.
Qed.

(** An array of the wrong shape is returned all the same. *)
Lemma c88_wrong_shape_refuted__p :
  forall {V : Type} (m : model) (locals : dict (local_value V)) o shape a,
    registry_ok m -> In o (dvals (m_vars m) ++ dvals (m_pars m))%list -> o_name o <> "_"%string ->
    has_shape (m_coords m) o shape -> shape <> nil -> given locals (o_name o) a -> ashape a <> shape ->
    exists d out, finalize_calibration m locals = Ok (d, out) /\ dget (o_name o) d = Some a.
Proof.
  intros V m locals o shape a R Ho Hn Hs Hne G Ha.
  destruct (c88_collected__p locals R) as (vs & ps & d & out & _ & _ & E & _ & C & _).
  exists d, out. split; auto. destruct (C o shape a Ho Hn Hs G) as (a' & Ga & [(E1 & _)|(_ & ->)]); [tauto|auto].
Qed.

(** A missing value is left out of the result. *)
Lemma c88_missing_refuted__p :
  forall {V : Type} (m : model) (locals : dict (local_value V)) o,
    registry_ok m -> m_vars m <> nil -> In o (dvals (m_vars m) ++ dvals (m_pars m))%list -> (o_name o = "_"%string \/ ~ In (o_name o) (dkeys locals)) ->
    exists d out, finalize_calibration m locals = Ok (d, out) /\ ~ In (o_name o) (dkeys d) /\
      variable_dict_to_flat_array d (dvals (m_vars m)) (dvals (m_pars m)) = Err KeyError.
Proof.
  intros V m locals o R Hv Ho Hn.
  destruct (c88_collected__p locals R) as (vs & ps & d & out & _ & _ & E & K & _).
  assert (M : ~ In (o_name o) (dkeys d)).
  { rewrite K. intros J. apply filter_In in J as [_ J]. apply andb_prop in J as [J1 J2]. destruct Hn as [Hn|Hn].
    - rewrite Hn in J1. discriminate.
    - apply Hn. apply dmem_true in J2. now apply dget_Some_key. }
  exists d, out. split; auto. split; auto.
  assert (B : forall objs, In o objs -> concat_named d objs = Err KeyError).
  { intros objs Hi. unfold concat_named.
    assert (X : map_res (fun o => let* a := dgetitem (o_name o) d in Ok (ravel a)) objs = Err KeyError).
    { clear -Hi M. induction objs as [|x objs IH]; [destruct Hi|]. cbn [map_res]. unfold dgetitem at 1.
      destruct Hi as [->|Hi].
      - apply dget_None in M. now rewrite M.
      - destruct (dget (o_name x) d); [|reflexivity]. cbn [bind]. now rewrite (IH Hi). }
    now rewrite X. }
  assert (Z : forall objs, objs <> [] -> concat_named d objs = Err KeyError \/ exists x, concat_named d objs = Ok x).
  { intros objs Hne. unfold concat_named.
    assert (X : map_res (fun o => let* a := dgetitem (o_name o) d in Ok (ravel a)) objs = Err KeyError \/
      exists parts, map_res (fun o => let* a := dgetitem (o_name o) d in Ok (ravel a)) objs = Ok parts /\ length parts = length objs).
    { clear Hne. induction objs as [|x objs IH]; [right; now exists []|]. cbn [map_res]. unfold dgetitem at 1 3.
      destruct (dget (o_name x) d) as [a|]; [|now left]. cbn [bind].
      destruct IH as [IH|(parts & IH & L)]; rewrite IH; [now left|right]. eexists. split; [reflexivity|]. cbn. now rewrite L. }
    destruct X as [X|(parts & X & L)]; rewrite X; [now left|right]. cbn [bind].
    destruct parts; [|eauto]. destruct objs; [tauto|discriminate]. }
  unfold variable_dict_to_flat_array.
  destruct (Z (dvals (m_vars m))) as [Ev|(x & Ev)]; [destruct (m_vars m); [tauto|discriminate]| |]; rewrite Ev; [reflexivity|]. cbn [bind].
  rewrite (B (dvals (m_pars m))); [reflexivity|]. apply in_app_iff in Ho as [Ho|Ho]; auto.
  rewrite (B _ Ho) in Ev. discriminate.
Qed.

Lemma c88_unknown__p :
  forall {V : Type} (m : model) (a : arr V) n (x : V), ~ In n (dkeys (m_vars m) ++ dkeys (m_pars m))%list ->
    check_shape m a n = Err ValueError /\ initialize_parameter m n x = Err ValueError /\ get_shape m n = Err ValueError.
Proof.
  intros V m a n x H. rewrite in_app_iff in H.
  assert (E : get_object m n = Err ValueError).
  { rewrite get_object_one. unfold get_one.
    rewrite (proj2 (mem_str_nIn n (dkeys (m_vars m)))) by tauto.
    rewrite (proj2 (mem_str_nIn n (dkeys (m_pars m)))) by tauto. reflexivity. }
  unfold check_shape, initialize_parameter, get_shape. rewrite E. auto.
Qed.

Lemma c88_initialize__p :
  forall {V : Type} (m : model) o (x : V), registry_ok m -> In o (dvals (m_vars m) ++ dvals (m_pars m))%list ->
    exists a, initialize_parameter m (o_name o) x = Ok a /\ fits (m_coords m) o a /\ get_shape m (o_name o) = Ok (ashape a) /\
      forall idx, in_range (ashape a) idx -> aget a idx = Ok x.
Proof.
  intros V m o x R Ho. destruct (@shape_exists m o R Ho) as (shape & Hs).
  unfold initialize_parameter, get_shape. rewrite get_object_one, (@get_one_registered m o R Ho). cbn [bind].
  rewrite (proj2 (infer_shape_spec _ _ _) Hs). cbn [bind]. eexists. split; [reflexivity|].
  assert (W : arr_wf (mkArr shape (repeat x (prodn shape)))) by (unfold arr_wf; cbn; now rewrite repeat_length).
  split; [now split|]. split; [reflexivity|]. intros idx Hi. unfold aget. rewrite (proj2 (in_rangeb_spec _ _) Hi).
  destruct (nth_error _ _) as [v|] eqn:E.
  - apply nth_error_In in E. cbn in E. apply repeat_spec in E. now subst.
  - exfalso. apply nth_error_None in E. cbn in *. rewrite repeat_length in E.
    pose proof (offset_lt Hi). lia.
Qed.
