(** Proofs for C93. *)
From Coq Require Import Reals Lra.
From Verif Require Import Py PyStr NdArray M_Primitives M_Utilities M_Wrappers M_Simulate M_SimResult M_Build M_Expand M_SymExpr M_Calculus M_Simplify M_Graph M_NumbaModel M_SympyTensor M_Lambdify M_Solve.
From Verif Require Import S_Layout S_Calculus S_Reduce S_Simplify S_Lambdify S_NumbaModel S_SympyTensor S_Solve S_Solved L_Wrappers L_SimResult L_Solve L_Reduce L_Simplify L_NumbaModel L_SympyTensor2 L_Scenario.
Local Open Scope string_scope.
Local Open Scope list_scope.

(** ** States *)
Lemma shape_fun c o s t : has_shape c o s -> has_shape c o t -> s = t.
Proof.
  unfold has_shape. generalize (o_dims o). intros ds H. revert t. induction H as [|d n ds s (l & E & L) H IH]; intros t H'; inversion H' as [|? ? ? ? (l' & E' & L')]; subst; [reflexivity|].
  rewrite E in E'. injection E' as <-. f_equal. now apply IH.
Qed.

Lemma holds_same {V} c (d d' : dict (arr V)) objs x : S_Solve.holds c o_name d objs x -> S_Solve.holds c o_name d' objs x ->
  forall o, In o objs -> dget (o_name o) d = dget (o_name o) d'.
Proof.
  intros (as_ & F & ->) (bs & G & E). revert bs G E.
  induction F as [|o a objs as_ (A1 & A2 & A3) F IH]; intros bs G E q Hq; [destruct Hq|]. inversion G as [|? b ? bs' (B1 & B2 & B3) G']; subst.
  cbn in E. pose proof (shape_fun A3 B3) as Sh. assert (L : length (adata a) = length (adata b)) by (unfold arr_wf in *; rewrite A2, B2, Sh; reflexivity).
  destruct (split_same _ _ _ _ E L) as (E1 & E2). destruct Hq as [<-|Hq]; [|now apply (IH bs')].
  rewrite A1, B1. f_equal. destruct a, b; cbn in *; now subst.
Qed.

Lemma state_same {V} c vars params (d d' : dict (arr V)) x th : state_is c vars params d x th -> state_is c vars params d' x th -> forall k, dget k d = dget k d'.
Proof.
  intros (A & B & K) (A' & B' & K') k. destruct (dget k d) as [a|] eqn:E.
  - assert (I : In k (map o_name (vars ++ params))) by (apply K; apply dget_Some_key; eauto). apply in_map_iff in I as (o & <- & Ho). rewrite <- E.
    apply in_app_or in Ho as [Ho|Ho]; [eapply holds_same with (1 := A); eauto|eapply holds_same with (1 := B); eauto].
  - destruct (dget k d') as [a|] eqn:E'; [|reflexivity]. exfalso. assert (I : In k (dkeys d)). { apply K, K', dget_Some_key. eauto. }
    apply dget_Some_key in I as (b & Eb). congruence.
Qed.

(** Functions that look their keyword arguments up *)
Definition looks_up {V W} (h : dict (arr V) -> res W) : Prop :=
  forall d d', (forall k, dget k d = dget k d') -> (forall k, In k (dkeys d) <-> In k (dkeys d')) -> h d = h d'.

Lemma looks_up_state {V W} c vars params (h : dict (arr V) -> res W) d d' x th : looks_up h ->
  state_is c vars params d x th -> state_is c vars params d' x th -> h d = h d'.
Proof.
  intros L A B. apply L; [exact (state_same A B)|]. destruct A as (_ & _ & K), B as (_ & _ & K'). intros k. now rewrite K, K'.
Qed.

Definition on_state {V W} c vars params (h : dict (arr V) -> res W) (x th : list V) : res W :=
  let* d := flat_array_to_variable_dict (x ++ th) (vars ++ params) c in h d.

Lemma on_state_eq {V W} c vars params (h : dict (arr V) -> res W) d x th : S_Solve.declared c vars params -> looks_up h ->
  state_is c vars params d x th -> on_state c vars params h x th = h d.
Proof.
  intros D L S. destruct (@decoded_state V c vars params x th D) as (d' & E & S').
  - destruct S as (A & _). eapply holds_sized; eauto.
  - destruct S as (_ & A & _). eapply holds_sized; eauto.
  - unfold on_state. rewrite E. cbn [bind]. eapply looks_up_state; eauto.
Qed.

Lemma kw_evaluates {V W} c vars params (h : dict (arr V) -> res W) : S_Solve.declared c vars params -> looks_up h ->
  evaluates c vars params (Kw h) (on_state c vars params h).
Proof. intros D L d x th S. symmetry. now apply on_state_eq. Qed.

(** ** The functions of the backends look their arguments up *)
Lemma forallb_keys {A B} (p : string -> bool) (d : dict A) (d' : dict B) : (forall k, In k (dkeys d) <-> In k (dkeys d')) -> forallb p (dkeys d) = forallb p (dkeys d').
Proof.
  intros K. destruct (forallb p (dkeys d')) eqn:E.
  - rewrite forallb_forall in *. intros k Hk. apply E. now apply K.
  - destruct (forallb p (dkeys d)) eqn:E'; [|reflexivity]. rewrite <- E. symmetry. rewrite forallb_forall in *. intros k Hk. apply E'. now apply K.
Qed.

Lemma mem_str_same l l' k : (In k l <-> In k l') -> mem_str k l = mem_str k l'.
Proof.
  intros H. destruct (mem_str k l') eqn:E; [apply mem_str_In; apply H; now apply mem_str_In|].
  destruct (mem_str k l) eqn:E'; [|reflexivity]. rewrite <- E. symmetry. apply mem_str_In, H. now apply mem_str_In.
Qed.

Lemma call_looks {A} inputs (f : dict (arr R) -> res A) : (forall d d', (forall k, dget k d = dget k d') -> f d = f d') -> looks_up (call inputs f).
Proof.
  intros F d d' G K. unfold call. rewrite (forallb_keys _ _ _ K). replace (forallb (fun n => mem_str n (dkeys d)) inputs) with (forallb (fun n => mem_str n (dkeys d')) inputs); [now rewrite (F d d')|].
  induction inputs as [|n l IH]; [reflexivity|]. cbn [forallb]. rewrite IH. f_equal. apply mem_str_same. now rewrite K.
Qed.

Lemma graph_value_same d d' replace point e : (forall k, dget k d = dget k d') -> graph_value d replace point e = graph_value d' replace point e.
Proof.
  intros G. induction e; cbn [graph_value]; try reflexivity.
  - unfold packed_value. destruct (dgetitem s replace) as [p|]; [|reflexivity]. cbn [bind]. unfold dgetitem. now rewrite G.
  - now rewrite IHe1, IHe2.
  - now rewrite IHe.
Qed.

Lemma map_res_same {A B} (f g : A -> res B) l : (forall x, f x = g x) -> map_res f l = map_res g l.
Proof. intros H. induction l as [|x l IH]; [reflexivity|]. cbn [map_res]. now rewrite H, IH. Qed.

Lemma sympytensor_looks sub_into set_order dict_order evals order c n vars params eqs f :
  compile_sympytensor_cge_functions sub_into set_order dict_order evals order c n vars params eqs = Ok f ->
  looks_up (sf_system f) /\ looks_up (sf_jac f) /\ looks_up (sf_resid f) /\ looks_up (sf_grad f) /\ looks_up (sf_hess f) /\ looks_up (sf_hessp f).
Proof.
  unfold compile_sympytensor_cge_functions. intros H.
  repeat (match type of H with bind ?r _ = _ => destruct r; cbn [bind] in H; [|discriminate] end; cbv zeta in H).
  apply (f_equal (fun r => match r with Ok g => g | Err _ => f end)) in H. cbv beta iota in H. subst f. cbn [sf_system sf_jac sf_resid sf_grad sf_hess sf_hessp].
  repeat match goal with |- _ /\ _ => split end; unfold matrix_function; apply call_looks; intros d d' G.
  - apply map_res_same. intros. now apply graph_value_same.
  - apply map_res_same. intros. apply map_res_same. intros. now apply graph_value_same.
  - now apply graph_value_same.
  - apply map_res_same. intros. now apply graph_value_same.
  - apply map_res_same. intros. apply map_res_same. intros. now apply graph_value_same.
  - unfold point_vector. rewrite (map_res_same (fun o => dgetitem (o_name o ++ "_point")%string d) (fun o => dgetitem (o_name o ++ "_point")%string d')) by (intros; unfold dgetitem; now rewrite G).
    match goal with |- bind ?r _ = _ => destruct r; [|reflexivity] end. cbn [bind]. apply map_res_same. intros. now apply graph_value_same.
Qed.

(** ** Steps of the returned groups *)
Lemma aget_row {V} (a : arr V) n s k idx : arr_wf a -> ashape a = n :: s -> k < n -> aget (row a k) idx = aget a (k :: idx).
Proof.
  intros W E H. unfold aget. assert (B : in_rangeb (ashape a) (k :: idx) = in_rangeb s idx).
  { rewrite E. unfold in_rangeb. cbn [length combine forallb fst snd]. apply Nat.ltb_lt in H. now rewrite H, Bool.andb_true_l. }
  assert (Er : ashape (row a k) = s) by (unfold row; cbn [ashape]; now rewrite E). rewrite Er, B. destruct (in_rangeb s idx) eqn:I; [|reflexivity].
  apply in_rangeb_spec in I. pose proof (offset_lt I) as O. rewrite E. cbn [offset].
  unfold row. cbn [adata]. rewrite E. cbn [tl]. unfold slice. rewrite nth_firstn_lt by exact O. now rewrite nth_error_skipn_.
Qed.

Lemma Forall2_In_l {A B} (P : A -> B -> Prop) l l' x : Forall2 P l l' -> In x l -> exists y, In y l' /\ P x y.
Proof. intros F. induction F as [|a b l l' H F IH]; intros I; [destruct I|]. destruct I as [<-|I]; [exists b; cbn; auto|]. destruct (IH I) as (y & Hy & P'). exists y. cbn. auto. Qed.

(** The state at a step of the returned groups *)
Lemma group_row {V} c (ds : dataset V) objs k x o : step_of ds k c objs x -> In o objs ->
  exists a n s, dget (o_name o) ds = Some ("step" :: o_dims o, a) /\ arr_wf a /\ ashape a = n :: s /\ k < n.
Proof.
  intros (K & arrays & n & Hk & T & F & _) Ho. clear K. induction T as [|q a objs arrays (W & s & Es & _) T IH]; inversion F as [|? ? ? ? F1 F2]; subst; [destruct Ho|].
  destruct Ho as [<-|Ho]; [exists a, n, s; auto|now apply IH].
Qed.

Lemma final_state {V} c vars params (ds_v ds_p : dataset V) k x th : S_Solve.declared c vars params -> step_of ds_v k c vars x -> step_of ds_p k c params th ->
  let d := dupdate (state_at ds_v k) (state_at ds_p k) in
  state_is c vars params d x th /\
  (forall o, In o vars -> dget (o_name o) d = option_map (fun e => row (snd e) k) (dget (o_name o) ds_v)) /\
  (forall o, In o params -> dget (o_name o) d = option_map (fun e => row (snd e) k) (dget (o_name o) ds_p)).
Proof.
  intros D Sv Sp d. pose proof D as (N1 & N2 & Nd & Hd).
  pose proof Sv as (Kv & av & nv & _ & _ & Fv & _). pose proof Sp as (Kp & ap & np & _ & _ & Fp & _).
  destruct (joint_entry k k Nd (conj Kv Fv) (conj Kp Fp)) as (Jv & Jp). fold d in Jv, Jp. split; [|split; assumption].
  split; [eapply step_holds; eauto|]. split; [eapply step_holds; eauto|].
  intros q. assert (Np : NoDup (dkeys (state_at ds_p k))). { rewrite state_keys, Kp. rewrite map_app in Nd. now apply NoDup_app_inv in Nd. }
  unfold d. rewrite (@dupdate_keys _ _ _ Np), !state_keys, Kv, Kp, map_app, !in_app_iff, filter_In. destruct (mem_str q (map o_name vars)) eqn:Q; cbn [negb]; [|intuition].
  apply mem_str_In in Q. intuition.
Qed.

Lemma returned_data c vars params (ds_v ds_p : dataset R) k x th v w : S_Solve.declared (lab_coords c) vars params ->
  step_of ds_v k (lab_coords c) vars x -> step_of ds_p k (lab_coords c) params th ->
  returned c vars params ds_v ds_p k v w <-> data_of c (vars ++ params) (dupdate (state_at ds_v k) (state_at ds_p k)) v w.
Proof.
  intros D Sv Sp. destruct (final_state D Sv Sp) as (_ & Jv & Jp). set (d := dupdate (state_at ds_v k) (state_at ds_p k)) in *.
  assert (Fw : forall o a, returned_array vars params ds_v ds_p o a -> In o (vars ++ params) /\ dget (o_name o) d = Some (row a k) /\ forall idx, aget (row a k) idx = aget a (k :: idx)).
  { intros o a [(Ho & E)|(Ho & E)]; (split; [apply in_or_app; auto|]).
    - split; [rewrite (Jv o Ho), E; reflexivity|]. destruct (group_row _ Sv Ho) as (a' & n & s & E' & W & Sh & L). rewrite E in E'. injection E' as <-. intros idx. eapply aget_row; eauto.
    - split; [rewrite (Jp o Ho), E; reflexivity|]. destruct (group_row _ Sp Ho) as (a' & n & s & E' & W & Sh & L). rewrite E in E'. injection E' as <-. intros idx. eapply aget_row; eauto. }
  assert (Bw : forall o a, In o (vars ++ params) -> dget (o_name o) d = Some a -> exists a', returned_array vars params ds_v ds_p o a' /\ a = row a' k).
  { intros o a Ho E. apply in_app_or in Ho as [Ho|Ho].
    - destruct (group_row _ Sv Ho) as (a' & n & s & E' & _). exists a'. split; [left; auto|]. rewrite (Jv o Ho), E' in E. cbn in E. congruence.
    - destruct (group_row _ Sp Ho) as (a' & n & s & E' & _). exists a'. split; [right; auto|]. rewrite (Jp o Ho), E' in E. cbn in E. congruence. }
  assert (Ev : forall b ls r, (exists o a idx, returned_array vars params ds_v ds_p o a /\ o_name o = b /\ o_dims o <> [] /\ labels_of c (o_dims o) idx ls /\ aget a (k :: idx) = Ok r) <->
    exists o a idx, In o (vars ++ params) /\ o_name o = b /\ o_dims o <> [] /\ dget b d = Some a /\ labels_of c (o_dims o) idx ls /\ aget a idx = Ok r).
  { intros b ls r. split.
    + intros (o & a & idx & Ra & <- & Dn & L & G). destruct (Fw o a Ra) as (I & E & Gr). exists o, (row a k), idx. rewrite Gr. repeat (split; [assumption || reflexivity|]). exact G.
    + intros (o & a & idx & I & <- & Dn & E & L & G). destruct (Bw o a I E) as (a' & Ra & ->). destruct (Fw o a' Ra) as (_ & _ & Gr). exists o, a', idx.
      rewrite <- Gr. repeat (split; [assumption || reflexivity|]). exact G. }
  assert (Ew : forall b r, (exists o a, returned_array vars params ds_v ds_p o a /\ o_name o = b /\ o_dims o = [] /\ aget a [k] = Ok r) <->
    exists o a, In o (vars ++ params) /\ o_name o = b /\ o_dims o = [] /\ dget b d = Some a /\ aget a [] = Ok r).
  { intros b r. split.
    + intros (o & a & Ra & <- & Dn & G). destruct (Fw o a Ra) as (I & E & Gr). exists o, (row a k). rewrite Gr. repeat (split; [assumption || reflexivity|]). exact G.
    + intros (o & a & I & <- & Dn & E & G). destruct (Bw o a I E) as (a' & Ra & ->). destruct (Fw o a' Ra) as (_ & _ & Gr). exists o, a'.
      rewrite <- Gr. repeat (split; [assumption || reflexivity|]). exact G. }
  split; intros (Rv & Rw); (split; [intros b ls r; rewrite Rv|intros b r; rewrite Rw]); first [apply Ev | apply Ew | symmetry; apply Ev | symmetry; apply Ew].
Qed.

(** ** Residuals *)
Lemma equation_dims_fun c e d1 d2 : equation_dims c e d1 -> equation_dims c e d2 -> d1 = d2.
Proof.
  intros (_ & (f & E1) & H1) (_ & (g & E2) & H2). rewrite E1, E2. apply filter_ext_in. intros k Hk.
  assert (B : f k = true <-> g k = true).
  { split; intros T.
    - assert (I : In k d2) by (apply H2, H1; rewrite E1; apply filter_In; auto). rewrite E2 in I. now apply filter_In in I.
    - assert (I : In k d1) by (apply H1, H2; rewrite E2; apply filter_In; auto). rewrite E1 in I. now apply filter_In in I. }
  destruct (f k), (g k); try reflexivity; [symmetry|]; now apply B.
Qed.

Lemma labels_exist c dims shape idx : dims_shape c dims shape -> in_range shape idx -> exists ls, labels_of c dims idx ls.
Proof.
  intros D. revert idx. induction D as [|d n dims shape (all & E & L) D IH]; intros idx I; inversion I as [|i ? ? ? Hi I']; subst.
  - exists []. split; [reflexivity|constructor].
  - destruct (IH _ I') as (ls & L1 & L2). destruct (nth_error all i) as [lab|] eqn:El; [|apply nth_error_None in El; lia].
    exists (lab :: ls). split; [cbn; now f_equal|]. cbn. constructor; [|exact L2]. exists all. auto.
Qed.

Lemma labels_range c dims shape idx ls : dims_shape c dims shape -> labels_of c dims idx ls -> in_range shape idx.
Proof.
  intros D. revert idx ls. induction D as [|d n dims shape (all & E & L) D IH]; intros idx ls (L1 & L2); destruct idx as [|i idx]; try discriminate; [constructor|].
  cbn in L2. inversion L2 as [|? l ? ls' (all' & E' & N) F]; subst. cbn in E', N. rewrite E in E'. injection E' as <-. constructor.
  - apply nth_error_Some. congruence.
  - apply (IH idx ls'). split; [now injection L1|exact F].
Qed.

Lemma zero_residuals c v w lr block : residuals c v w lr block -> ((forall r, In r block -> r = 0%R) <-> satisfied c v w lr).
Proof.
  intros (dims & shape & Ed & Sh & L & N). split.
  - intros Z dims' idx ls Ed' La. rewrite (equation_dims_fun Ed' Ed) in La |- *. pose proof (N idx ls La) as Q.
    pose proof (offset_lt (labels_range Sh La)) as O. destruct (nth_error block (offset shape idx)) as [r|] eqn:E; [|apply nth_error_None in E; lia].
    apply nth_error_In in E as I. apply Z in I. subst r. unfold written in Q. cbn [den] in Q.
    destruct (den c v w (assign dims ls) (fst lr)) as [p|]; [|discriminate]. destruct (den c v w (assign dims ls) (snd lr)) as [q|]; [|discriminate].
    cbn in Q. injection Q as Q. exists p. split; [reflexivity|]. f_equal. lra.
  - intros H r I. apply In_nth_error in I as (p & E). assert (Hp : p < prodn shape) by (rewrite <- L; apply nth_error_Some; congruence).
    destruct (nth_error (ndindex shape) p) as [idx|] eqn:Ei; [|apply nth_error_None in Ei; rewrite ndindex_length in Ei; lia].
    apply offset_nth_ndindex in Ei as (Rg & Of). destruct (labels_exist Sh Rg) as (ls & La). pose proof (N idx ls La) as Q. rewrite Of, E in Q.
    destruct (H dims idx ls Ed La) as (z & A & B). unfold written in Q. cbn [den] in Q. rewrite A, B in Q. cbn in Q. injection Q as ->. lra.
Qed.

Lemma all_residuals c v w eqs blocks : Forall2 (residuals c v w) eqs blocks ->
  ((forall r, In r (List.concat blocks) -> r = 0%R) <-> forall lr, In lr eqs -> satisfied c v w lr).
Proof.
  intros F. induction F as [|lr b eqs blocks H F IH]; cbn [List.concat]; [split; intros Q ? []|]. pose proof (zero_residuals H) as Z. split.
  - intros Q l [<-|I]; [apply Z; intros; apply Q; apply in_or_app; auto|]. revert l I. apply IH. intros. apply Q. apply in_or_app. auto.
  - intros Q r I. apply in_app_or in I as [I|I]; [apply Z; auto; apply Q; now left|]. apply IH; [|exact I]. intros. apply Q. now right.
Qed.

(** ** Data of a state *)
Fixpoint place (l : string) (all : list string) : option nat :=
  match all with [] => None | x :: r => if String.eqb x l then Some 0 else option_map S (place l r) end.
Lemma place_nth l all : forall n, place l all = Some n -> nth_error all n = Some l.
Proof.
  induction all as [|x all IH]; intros n H; [discriminate|]. cbn in H. destruct (String.eqb_spec x l) as [->|N]; [injection H as <-; reflexivity|].
  destruct (place l all); [|discriminate]. injection H as <-. cbn. now apply IH.
Qed.
Lemma nth_place l all n : NoDup all -> nth_error all n = Some l -> place l all = Some n.
Proof.
  revert n. induction all as [|x all IH]; intros n N H; [destruct n; discriminate|]. inversion N as [|? ? Nx N']; subst. cbn. destruct n as [|n]; cbn in H.
  - injection H as ->. now rewrite String.eqb_refl.
  - destruct (String.eqb_spec x l) as [->|_]; [exfalso; apply Nx; eapply nth_error_In; eauto|]. now rewrite (IH n N' H).
Qed.
Fixpoint places (c : dict (list string)) (ds ls : list string) : option (list nat) :=
  match ds, ls with
  | [], [] => Some []
  | d :: ds, l :: ls => match dget d c with
                        | Some all => match place l all, places c ds ls with Some n, Some r => Some (n :: r) | _, _ => None end
                        | None => None
                        end
  | _, _ => None
  end.
Lemma places_labels c ds : (forall i ls, dget i c = Some ls -> NoDup ls) -> forall ls idx, labels_of c ds idx ls <-> places c ds ls = Some idx.
Proof.
  intros N. induction ds as [|d ds IH]; intros ls idx.
  - split.
    + intros (L & F). destruct idx; [|discriminate]. inversion F. reflexivity.
    + destruct ls; [|discriminate]. intros H. injection H as <-. split; [reflexivity|constructor].
  - split.
    + intros (L & F). destruct idx as [|n idx]; [discriminate|]. cbn in F. inversion F as [|? l ? ls' (all & E & H) F']; subst. cbn in E, H. cbn [places]. rewrite E, (nth_place _ (N d all E) H).
      assert (Q : places c ds ls' = Some idx) by (apply IH; split; [now injection L|exact F']). now rewrite Q.
    + destruct ls as [|l ls]; [discriminate|]. cbn [places]. destruct (dget d c) as [all|] eqn:E; [|discriminate]. destruct (place l all) as [n|] eqn:P; [|discriminate].
      destruct (places c ds ls) as [r|] eqn:Q; [|discriminate]. intros H. injection H as <-. apply IH in Q as (L & F). split; [cbn; now f_equal|]. cbn. constructor; [|exact F].
      exists all. split; [exact E|]. now apply place_nth.
Qed.

Lemma data_exists c objs (d : dict (arr R)) : (forall i ls, dget i c = Some ls -> NoDup ls) -> NoDup (map o_name objs) -> exists v w, data_of c objs d v w.
Proof.
  intros N Nd.
  exists (fun b ls => match find (fun o => String.eqb (o_name o) b) objs, dget b d with
                      | Some o, Some a => match o_dims o with [] => None | _ => match places c (o_dims o) ls with Some idx => match aget a idx with Ok r => Some r | Err _ => None end | None => None end end
                      | _, _ => None end).
  exists (fun s => match find (fun o => String.eqb (o_name o) s) objs, dget s d with
                   | Some o, Some a => match o_dims o with [] => match aget a [] with Ok r => Some r | Err _ => None end | _ => None end
                   | _, _ => None end).
  assert (Fd : forall b o, find (fun o => String.eqb (o_name o) b) objs = Some o <-> In o objs /\ o_name o = b).
  { intros b o. split.
    - intros H. apply find_some in H as (I & E). apply String.eqb_eq in E. auto.
    - intros (I & <-). clear N d. induction objs as [|q objs IH]; [destruct I|]. inversion Nd as [|? ? Nq Nd']; subst. cbn. destruct I as [->|I]; [now rewrite String.eqb_refl|].
      destruct (String.eqb_spec (o_name q) (o_name o)) as [E|_]; [|now apply IH]. exfalso. apply Nq. rewrite E. now apply in_map. }
  split.
  - intros b ls r. split.
    + destruct (find _ objs) as [o|] eqn:F; [|discriminate]. destruct (dget b d) as [a|] eqn:E; [|discriminate]. apply Fd in F as (I & Ob).
      destruct (o_dims o) as [|x xs] eqn:Eo; [discriminate|]. destruct (places c (x :: xs) ls) as [idx|] eqn:P; [|discriminate]. destruct (aget a idx) as [r'|] eqn:G; [|discriminate].
      intros H. injection H as <-. exists o, a, idx. split; [exact I|]. split; [exact Ob|]. rewrite Eo. split; [discriminate|]. split; [reflexivity|]. split; [|exact G]. now apply places_labels.
    + intros (o & a & idx & I & Ob & Dn & E & L & G). rewrite (proj2 (Fd b o) (conj I Ob)), E. apply (@places_labels c (o_dims o) N ls idx) in L. destruct (o_dims o) as [|x xs]; [now destruct Dn|]. now rewrite L, G.
  - intros b r. split.
    + destruct (find _ objs) as [o|] eqn:F; [|discriminate]. destruct (dget b d) as [a|] eqn:E; [|discriminate]. apply Fd in F as (I & Ob).
      destruct (o_dims o) eqn:Eo; [|discriminate]. destruct (aget a []) as [r'|] eqn:G; [|discriminate]. intros H. injection H as <-. exists o, a. auto.
    + intros (o & a & I & Ob & Dn & E & G). now rewrite (proj2 (Fd b o) (conj I Ob)), E, Dn, G.
Qed.

Lemma state_arguments c vars params d v w x th : S_Solve.declared (lab_coords c) vars params -> (forall o, In o (vars ++ params) -> S_Simplify.declared c o) ->
  state_is (lab_coords c) vars params d x th -> data_of c (vars ++ params) d v w -> arguments c vars params d v w x th.
Proof.
  intros D Do (A & B & K) Dt. split.
  { intros o Ho. split; [now apply Do|]. apply in_app_or in Ho as [Ho|Ho]; [destruct A as (as_ & F & _)|destruct B as (as_ & F & _)]; destruct (Forall2_In_l _ F Ho) as (a & _ & E & Ft); eauto. }
  split; [intros k Hk; now apply K|]. split; [exact (holds_vector D A B)|exact Dt].
Qed.

Lemma concat_named_holds {V} c (d : dict (arr V)) objs x : (forall o, In o objs -> exists a, dget (o_name o) d = Some a /\ fits c o a) ->
  objs <> [] -> concat_named d objs = Ok x -> S_Solve.holds c o_name d objs x.
Proof.
  intros H Ne E. assert (G : exists arrays, Forall2 (fun o a => dget (o_name o) d = Some a /\ fits c o a) objs arrays).
  { clear Ne E. induction objs as [|o objs IH]; [exists []; constructor|]. destruct (H o (or_introl eq_refl)) as (a & Ha). destruct IH as (l & F); [intros; apply H; now right|]. exists (a :: l). now constructor. }
  destruct G as (arrays & F). assert (Hx : S_Solve.holds c o_name d objs (List.concat (map (@adata V) arrays))) by (exists arrays; auto).
  rewrite (holds_flat Ne Hx) in E. injection E as <-. exact Hx.
Qed.

Lemma arguments_state c vars params d v w x th : vars <> [] -> params <> [] -> arguments c vars params d v w x th -> state_is (lab_coords c) vars params d x th.
Proof.
  intros Nv Np (Hd & K & E & _). unfold variable_dict_to_flat_array in E. destruct (concat_named d vars) as [x'|] eqn:Ex; [|discriminate]. cbn [bind] in E.
  destruct (concat_named d params) as [t'|] eqn:Et; [|discriminate]. injection E as <- <-. split; [|split].
  - apply concat_named_holds; auto. intros o Ho. apply Hd. apply in_or_app. auto.
  - apply concat_named_holds; auto. intros o Ho. apply Hd. apply in_or_app. auto.
  - intros k. split; [apply K|]. intros I. apply in_map_iff in I as (o & <- & Ho). destruct (Hd o Ho) as (_ & a & Ea & _). apply dget_Some_key. eauto.
Qed.

(** The functions with a direction *)
Lemma holds_same_ {V} c name (d d' : dict (arr V)) objs x : S_Solve.holds c name d objs x -> S_Solve.holds c name d' objs x ->
  forall o, In o objs -> dget (name o) d = dget (name o) d'.
Proof.
  intros (as_ & F & ->) (bs & G & E). revert bs G E.
  induction F as [|o a objs as_ (A1 & A2 & A3) F IH]; intros bs G E q Hq; [destruct Hq|]. inversion G as [|? b ? bs' (B1 & B2 & B3) G']; subst.
  cbn in E. pose proof (shape_fun A3 B3) as Sh. assert (L : length (adata a) = length (adata b)) by (unfold arr_wf in *; rewrite A2, B2, Sh; reflexivity).
  destruct (split_same _ _ _ _ E L) as (E1 & E2). destruct Hq as [<-|Hq]; [|now apply (IH bs')].
  rewrite A1, B1. f_equal. destruct a, b; cbn in *; now subst.
Qed.

Lemma kw_evaluates3 {V W} c vars params (h : dict (arr V) -> res W) : S_Solve.declared c vars params -> no_point vars params -> looks_up h ->
  evaluates3 c vars params (Kw3 h) (wrap_pytensor_func_for_scipy_p h vars params c).
Proof.
  intros D NP L d x p th Hx Ht Hp K.
  destruct (@holds_sized _ _ _ _ _ _ Hx) as (sv & Fv & Lv). destruct (@holds_sized _ _ _ _ _ _ Ht) as (sp & Fp & Lp). destruct (@holds_sized _ _ _ _ _ _ Hp) as (sv' & Fv' & Lv').
  assert (sv' = sv). { clear -Fv Fv'. revert sv' Fv'. induction Fv; intros sv' F; inversion F; subst; [reflexivity|]. f_equal; [eapply shape_fun; eauto|auto]. }
  subst sv'. pose proof D as (N1 & N2 & Nd & _).
  destruct (@c34_hessp_arguments__p V W h c vars params sv sp x p th Nd NP Fv Fp Lv Lv' Lp) as (d' & Ed & K' & Dv & Dp). rewrite Ed.
  assert (Kk : forall k, In k (dkeys d) <-> In k (dkeys d')) by (intros k; rewrite K; now rewrite K'). apply L; [|exact Kk].
  assert (Hx' : S_Solve.holds c o_name d' vars x) by (apply (@holds_blocks V c o_name vars sv x d' Fv Lv); intros j o s Ho Hs; now apply (Dv j o s)).
  assert (Ht' : S_Solve.holds c o_name d' params th) by (apply (@holds_blocks V c o_name params sp th d' Fp Lp); intros j o s Ho Hs; now apply (Dp j o s)).
  assert (Hp' : S_Solve.holds c (fun o => o_name o ++ "_point")%string d' vars p) by (apply (@holds_blocks V c (fun o => o_name o ++ "_point")%string vars sv p d' Fv Lv'); intros j o s Ho Hs; now apply (Dv j o s)).
  intros k. destruct (dget k d) as [a|] eqn:E.
  - assert (I : In k (dkeys d)) by (apply dget_Some_key; eauto). rewrite <- E. apply K in I. apply in_app_or in I as [I|I].
    + apply in_map_iff in I as (o & <- & Ho). apply in_app_or in Ho as [Ho|Ho]; [exact (holds_same_ Hx Hx' _ Ho)|exact (holds_same_ Ht Ht' _ Ho)].
    + apply in_map_iff in I as (o & <- & Ho). exact (holds_same_ Hp Hp' _ Ho).
  - destruct (dget k d') as [a|] eqn:E'; [|reflexivity]. exfalso. assert (I : In k (dkeys d)) by (apply Kk, dget_Some_key; eauto). apply dget_Some_key in I as (b & Eb). congruence.
Qed.

(** ** The solver and its result *)
Lemma declaration_declared order c vars params uv up : declaration order c vars params uv up -> vars <> [] -> params <> [] ->
  (forall o, In o (vars ++ params) -> S_Simplify.declared c o /\ ~ In "step" (o_dims o)) -> S_Solve.declared (lab_coords c) vars params.
Proof.
  intros (_ & _ & _ & _ & _ & _ & Nd) Nv Np H. split; [exact Nv|]. split; [exact Np|]. split; [exact Nd|]. intros o Ho. destruct (H o Ho) as ((A & _ & _ & B) & C).
  split; [exact A|]. split; [exact C|]. intros d Hd. rewrite dkeys_lab. now apply B.
Qed.

(** A system [sys] of flat vectors that returns the residuals *)
Definition residual_system {W} (c : dict (list string)) (vars params : list mobj) (equations : list (sexpr * sexpr)) (enc : list R -> W) (sys : list R -> list R -> res W) : Prop :=
  forall d v w x th, arguments c vars params d v w x th -> (forall lr, In lr equations -> has_value c v w lr) ->
    exists blocks, Forall2 (residuals c v w) equations blocks /\ sys x th = Ok (enc (List.concat blocks)).

Lemma means c vars params equations {W} (enc : list R -> W) sys f (ds_v ds_p : dataset R) x theta :
  S_Solve.declared (lab_coords c) vars params -> (forall o, In o (vars ++ params) -> S_Simplify.declared c o) -> (forall i ls, dget i c = Some ls -> NoDup ls) ->
  residual_system c vars params equations enc sys -> solver_sees (lab_coords c) vars params f sys ->
  step_of ds_v 1 (lab_coords c) vars x -> step_of ds_p 1 (lab_coords c) params theta ->
  result_means c vars params equations enc f ds_v ds_p x theta.
Proof.
  intros D Do Nl Rs Ss Sv Sp. set (d := dupdate (state_at ds_v 1) (state_at ds_p 1)).
  destruct (final_state D Sv Sp) as (St & _). fold d in St. destruct (@data_exists c (vars ++ params) d Nl) as (v & w & Dt); [apply D|].
  exists v, w. split; [now apply (@returned_data c vars params ds_v ds_p 1 x theta v w D Sv Sp)|]. intros Hv. destruct (Rs d v w x theta (state_arguments D Do St Dt) Hv) as (blocks & F & E).
  exists (List.concat blocks). split; [|split; [eauto|now apply all_residuals]]. destruct St as (A & B & _). rewrite Ss; [exact E| |]; eapply holds_sized; eauto.
Qed.

Lemma gives c vars params equations {W} (enc : list R -> W) sys f : vars <> [] -> params <> [] -> residual_system c vars params equations enc sys ->
  solver_sees (lab_coords c) vars params f sys -> gives_residuals c vars params equations enc f.
Proof.
  intros Nv Np Rs Ss d v w x th A Hv. destruct (Rs d v w x th A Hv) as (blocks & F & E). exists blocks. split; [exact F|].
  destruct (arguments_state Nv Np A) as (B & C & _). rewrite Ss; [exact E| |]; eapply holds_sized; eauto.
Qed.

Lemma solved_root c vars params equations {Sys Jac Loss Grad Hess Hessp} (enc : list R -> Sys) isnan vadd vmul table minimize f_euler
  (m : model R Sys Jac Loss Grad Hess Hessp) initial fv fd fp o x0 th0 theta start sys jac :
  S_Solve.declared (lab_coords c) vars params -> (forall o, In o (vars ++ params) -> S_Simplify.declared c o) -> (forall i ls, dget i c = Some ls -> NoDup ls) ->
  m_coords m = lab_coords c -> m_variables m = vars -> m_parameters m = params ->
  prepared isnan vadd vmul f_euler m initial fv fd fp o x0 th0 theta start -> optimizer_mode o = "root" -> in_compiled "root" (m_compiled m) = true ->
  made_by (m_backend m) (m_system m) -> evaluates (lab_coords c) vars params (m_system m) sys ->
  made_by (m_backend m) (m_jac m) -> evaluates (lab_coords c) vars params (m_jac m) jac ->
  residual_system c vars params equations enc sys ->
  exists P eu, rp_x0 P = start /\ rp_theta P = theta /\ gives_residuals c vars params equations enc (rp_f P) /\
    (wants_jac o -> exists j, rp_jac P = Some j /\ solver_sees (lab_coords c) vars params j jac) /\
    forall root ans, root P = Ok ans -> sized (lab_coords c) vars (a_x ans) ->
      exists ds_v ds_p, simulate isnan vadd vmul table root minimize f_euler m (SDict initial) fv fd fp o = Ok (MkOutcome eu (Some (ds_v, ds_p)) (negb (a_success ans))) /\
        equilibrium_errors m (ds_v, ds_p) 1 = call_flat (rp_f P) (a_x ans) theta /\
        result_means c vars params equations enc (rp_f P) ds_v ds_p (a_x ans) theta.
Proof.
  intros D Do Nl Ec Ev Ep (St & (final & xf & Ef & Hxf & Hth) & Uo & Sf) Om Co Ms Es Mj Ej Rs. subst vars params. rewrite <- Ec in D, Es, Ej.
  pose proof (@holds_sized _ _ _ _ _ _ Hth) as Zt.
  destruct (@c92_root__p R Sys Jac Loss Grad Hess Hessp isnan vadd vmul table minimize f_euler m initial final x0 th0 xf theta start fv fd fp o sys jac
    D St Ef Hxf Hth Uo Om Sf Ms Es Mj (fun _ => conj Ej Co)) as (P & eu & E1 & E2 & Ss & Sj & _ & _ & Rt).
  exists P, eu. split; [exact E1|]. split; [exact E2|]. rewrite Ec in Ss. split; [eapply gives; eauto; apply D|]. split; [rewrite <- Ec; exact Sj|].
  intros root ans Er Sz. rewrite <- Ec in Sz. destruct (proj2 (Rt root) ans Er Sz) as (ds_v & ds_p & Esim & _ & _ & V1 & P1). exists ds_v, ds_p. split; [exact Esim|]. split.
  - rewrite (@c92_equilibrium__p R Sys Jac Loss Grad Hess Hessp m ds_v ds_p 1 (a_x ans) theta sys D Ms Es V1 P1). symmetry. rewrite Ec in Sz, Zt. now apply Ss.
  - rewrite Ec in D, V1, P1. eapply means; eauto.
Qed.

(** ** The backends *)
Lemma sympytensor_residuals sub_into set_order dict_order evals order c axes vars params equations uv up f :
  walks_set set_order -> walks_set dict_order -> declaration order c vars params uv up -> vars <> [] -> params <> [] -> equations <> [] ->
  (forall o, In o (vars ++ params) -> S_Simplify.declared c o /\ ~ In "step" (o_dims o)) ->
  (forall lr, In lr equations -> flat_reductions c axes (written lr) /\
     exists es, equation_symbols sub_into set_order dict_order evals c None (uv ++ up) (fst lr) (snd lr) = Ok es) ->
  (forall o, In o (vars ++ params) -> exists lr es, In lr equations /\
     equation_symbols sub_into set_order dict_order evals c None (uv ++ up) (fst lr) (snd lr) = Ok es /\ occurs_in c es o) ->
  ~ In "hess_point" (map make_indexed_name (uv ++ up)) ->
  compile_sympytensor_cge_functions sub_into set_order dict_order evals order c None vars params equations = Ok f ->
  residual_system c vars params equations (fun r => r) (on_state (lab_coords c) vars params (sf_system f)) /\
  residual_system c vars params equations half_squares (on_state (lab_coords c) vars params (sf_resid f)).
Proof.
  intros Ws Wd De Nv Np Ne Do Eq Oc Hp Ef. pose proof (declaration_declared De Nv Np Do) as D. destruct (@sympytensor_looks _ _ _ _ _ _ _ _ _ _ _ Ef) as (L1 & _ & L2 & _).
  assert (Rs : forall d v w x th, arguments c vars params d v w x th -> (forall lr, In lr equations -> has_value c v w lr) ->
    exists blocks, Forall2 (residuals c v w) equations blocks /\ sf_system f d = Ok (List.concat blocks) /\ sf_resid f d = Ok (half_squares (List.concat blocks))).
  { intros d v w x th A Hv. destruct (@c85_system__p sub_into set_order dict_order evals order Ws Wd c axes vars params equations uv up d v w x th De A Nv Ne) as (f' & Ef' & (blocks & F & E1 & E2) & _); auto.
    { intros lr Hl. destruct (Eq lr Hl) as (Fl & Es). auto. }
    rewrite Ef in Ef'. injection Ef' as <-. exists blocks. auto. }
  split; intros d v w x th A Hv; destruct (Rs d v w x th A Hv) as (blocks & F & E1 & E2); exists blocks; (split; [exact F|]);
    rewrite (@on_state_eq _ _ _ _ _ _ d); auto; now apply (@arguments_state c vars params d v w).
Qed.

Lemma c93_sympytensor__p :
  forall sub_into set_order dict_order evals order, walks_set set_order -> walks_set dict_order ->
  forall c axes vars params equations uv up f,
    declaration order c vars params uv up -> vars <> [] -> params <> [] -> equations <> [] ->
    (forall o, In o (vars ++ params) -> S_Simplify.declared c o /\ ~ In "step"%string (o_dims o)) ->
    (forall lr, In lr equations -> flat_reductions c axes (written lr) /\
       exists es, equation_symbols sub_into set_order dict_order evals c None (uv ++ up) (fst lr) (snd lr) = Ok es) ->
    (forall o, In o (vars ++ params) -> exists lr es, In lr equations /\
       equation_symbols sub_into set_order dict_order evals c None (uv ++ up) (fst lr) (snd lr) = Ok es /\ occurs_in c es o) ->
    ~ In "hess_point"%string (map make_indexed_name (uv ++ up)) ->
    compile_sympytensor_cge_functions sub_into set_order dict_order evals order c None vars params equations = Ok f ->
  forall (Loss Grad Hess Hessp : Type) isnan vadd vmul table minimize f_euler (m : model R (list R) (list (list R)) Loss Grad Hess Hessp)
         initial fv fd fp o x0 th0 theta start,
    (* the compiled model *)
    m_coords m = lab_coords c -> m_variables m = vars -> m_parameters m = params -> m_backend m = "sympytensor"%string ->
    in_compiled "root"%string (m_compiled m) = true -> m_system m = Kw (sf_system f) -> m_jac m = Kw (sf_jac f) ->
    (* the call *)
    prepared isnan vadd vmul f_euler m initial fv fd fp o x0 th0 theta start -> optimizer_mode o = "root"%string ->
  exists P eu, rp_x0 P = start /\ rp_theta P = theta /\ gives_residuals c vars params equations (fun r => r) (rp_f P) /\
    (wants_jac o -> exists j, rp_jac P = Some j /\ forall d x th, state_is (lab_coords c) vars params d x th -> call_flat j x th = sf_jac f d) /\
    forall root ans, root P = Ok ans -> sized (lab_coords c) vars (a_x ans) ->
      exists ds_v ds_p, simulate isnan vadd vmul table root minimize f_euler m (SDict initial) fv fd fp o = Ok (MkOutcome eu (Some (ds_v, ds_p)) (negb (a_success ans))) /\
        equilibrium_errors m (ds_v, ds_p) 1 = call_flat (rp_f P) (a_x ans) theta /\
        result_means c vars params equations (fun r => r) (rp_f P) ds_v ds_p (a_x ans) theta.
Proof.
  intros sub_into set_order dict_order evals order Ws Wd c axes vars params equations uv up f De Nv Np Ne Do Eq Oc Hp Ef Loss Grad Hess Hessp isnan vadd vmul table minimize f_euler m
    initial fv fd fp o x0 th0 theta start Mc Mv Mp Mb Mr Ms Mj Pr Om.
  pose proof (declaration_declared De Nv Np Do) as D. destruct (@sympytensor_looks _ _ _ _ _ _ _ _ _ _ _ Ef) as (L1 & Lj & _).
  destruct (@sympytensor_residuals sub_into set_order dict_order evals order c axes vars params equations uv up f Ws Wd De Nv Np Ne Do Eq Oc Hp Ef) as (Rs & _).
  assert (Es : evaluates (lab_coords c) vars params (m_system m) (on_state (lab_coords c) vars params (sf_system f))) by (rewrite Ms; now apply kw_evaluates).
  assert (Ej : evaluates (lab_coords c) vars params (m_jac m) (on_state (lab_coords c) vars params (sf_jac f))) by (rewrite Mj; now apply kw_evaluates).
  assert (Bs : made_by (m_backend m) (m_system m)) by (rewrite Ms; now right). assert (Bj : made_by (m_backend m) (m_jac m)) by (rewrite Mj; now right).
  destruct (@solved_root c vars params equations _ _ Loss Grad Hess Hessp (fun r => r) isnan vadd vmul table minimize f_euler m initial fv fd fp o x0 th0 theta start _ _
    D (fun o Ho => proj1 (Do o Ho)) (proj1 (proj2 (proj2 De))) Mc Mv Mp Pr Om Mr Bs Es Bj Ej Rs) as (P & eu & E1 & E2 & G & J & Rt).
  exists P, eu. repeat (split; [assumption|]). split; [|exact Rt]. intros W. destruct (J W) as (j & Ej' & Sj). exists j. split; [exact Ej'|].
  intros d x th St. pose proof St as (A & B & _). rewrite Sj by (eapply holds_sized; eauto). now apply on_state_eq.
Qed.

Lemma numba_residuals sub_into set_order dict_order evals cse order c axes vars params equations uv up f :
  walks_set set_order -> walks_set dict_order -> eliminates cse -> declaration order c vars params uv up -> vars <> [] -> equations <> [] ->
  (forall n, In n (map make_indexed_name (uv ++ up)) -> is_name n = true /\ ~ In n reserved) ->
  (forall lr, In lr equations -> flat_reductions c axes (written lr) /\
     exists es, equation_symbols sub_into set_order dict_order evals c None (uv ++ up) (fst lr) (snd lr) = Ok es) ->
  compile_numba_cge_functions sub_into set_order dict_order evals cse order c None vars params equations = Ok f ->
  residual_system c vars params equations OVec (nf_system f) /\ residual_system c vars params equations (fun r => OScalar (half_squares r)) (nf_resid f).
Proof.
  intros Ws Wd Wc De Nv Ne Nm Eq Ef. pose proof De as (D1 & D2 & _ & D4 & D5 & D6 & _).
  assert (Rs : forall d v w x th, arguments c vars params d v w x th -> (forall lr, In lr equations -> has_value c v w lr) ->
    exists blocks, Forall2 (residuals c v w) equations blocks /\ nf_system f x th = Ok (OVec (List.concat blocks)) /\ nf_resid f x th = Ok (OScalar (half_squares (List.concat blocks)))).
  { intros d v w x th (A1 & A2 & A3 & A4) Hv. destruct (@c81_system__p sub_into set_order dict_order evals cse order Ws Wd Wc c axes None vars params equations d v w uv up x th D1 D2 A1 D4 D5 D6 Nm A3 A4 I Nv Ne) as (f' & Ef' & blocks & F & E1 & E2).
    { intros lr Hl. destruct (Eq lr Hl) as (Fl & Es). auto. }
    rewrite Ef in Ef'. injection Ef' as <-. exists blocks. auto. }
  split; intros d v w x th A Hv; destruct (Rs d v w x th A Hv) as (blocks & F & E1 & E2); exists blocks; auto.
Qed.

Lemma c93_numba__p :
  forall sub_into set_order dict_order evals cse order, walks_set set_order -> walks_set dict_order -> eliminates cse ->
  forall c axes vars params equations uv up f,
    declaration order c vars params uv up -> vars <> [] -> params <> [] -> equations <> [] ->
    (forall o, In o (vars ++ params) -> S_Simplify.declared c o /\ ~ In "step"%string (o_dims o)) ->
    (forall n, In n (map make_indexed_name (uv ++ up)) -> is_name n = true /\ ~ In n reserved) ->
    (forall lr, In lr equations -> flat_reductions c axes (written lr) /\
       exists es, equation_symbols sub_into set_order dict_order evals c None (uv ++ up) (fst lr) (snd lr) = Ok es) ->
    compile_numba_cge_functions sub_into set_order dict_order evals cse order c None vars params equations = Ok f ->
  forall (Loss Grad Hess Hessp : Type) isnan vadd vmul table minimize f_euler (m : model R outval outval Loss Grad Hess Hessp)
         initial fv fd fp o x0 th0 theta start,
    (* the compiled model *)
    m_coords m = lab_coords c -> m_variables m = vars -> m_parameters m = params -> m_backend m = "numba"%string ->
    in_compiled "root"%string (m_compiled m) = true -> m_system m = Pos (nf_system f) -> m_jac m = Pos (nf_jac f) ->
    (* the call *)
    prepared isnan vadd vmul f_euler m initial fv fd fp o x0 th0 theta start -> optimizer_mode o = "root"%string ->
  exists P eu, rp_x0 P = start /\ rp_theta P = theta /\ gives_residuals c vars params equations OVec (rp_f P) /\
    (wants_jac o -> exists j, rp_jac P = Some j /\ forall x th, sized (lab_coords c) vars x -> sized (lab_coords c) params th -> call_flat j x th = nf_jac f x th) /\
    forall root ans, root P = Ok ans -> sized (lab_coords c) vars (a_x ans) ->
      exists ds_v ds_p, simulate isnan vadd vmul table root minimize f_euler m (SDict initial) fv fd fp o = Ok (MkOutcome eu (Some (ds_v, ds_p)) (negb (a_success ans))) /\
        equilibrium_errors m (ds_v, ds_p) 1 = call_flat (rp_f P) (a_x ans) theta /\
        result_means c vars params equations OVec (rp_f P) ds_v ds_p (a_x ans) theta.
Proof.
  intros sub_into set_order dict_order evals cse order Ws Wd Wc c axes vars params equations uv up f De Nv Np Ne Do Nm Eq Ef Loss Grad Hess Hessp isnan vadd vmul table minimize f_euler m
    initial fv fd fp o x0 th0 theta start Mc Mv Mp Mb Mr Ms Mj Pr Om.
  pose proof (declaration_declared De Nv Np Do) as D.
  destruct (@numba_residuals sub_into set_order dict_order evals cse order c axes vars params equations uv up f Ws Wd Wc De Nv Ne Nm Eq Ef) as (Rs & _).
  assert (Es : evaluates (lab_coords c) vars params (m_system m) (nf_system f)) by (rewrite Ms; intros x th _ _; reflexivity).
  assert (Ej : evaluates (lab_coords c) vars params (m_jac m) (nf_jac f)) by (rewrite Mj; intros x th _ _; reflexivity).
  assert (Bs : made_by (m_backend m) (m_system m)) by (now rewrite Ms). assert (Bj : made_by (m_backend m) (m_jac m)) by (now rewrite Mj).
  exact (@solved_root c vars params equations _ _ Loss Grad Hess Hessp OVec isnan vadd vmul table minimize f_euler m initial fv fd fp o x0 th0 theta start _ _
    D (fun o Ho => proj1 (Do o Ho)) (proj1 (proj2 (proj2 De))) Mc Mv Mp Pr Om Mr Bs Es Bj Ej Rs).
Qed.

(** ** minimize *)
Lemma c93_loss__p :
  forall r, half_squares r = 0%R <-> forall z, In z r -> z = 0%R.
Proof.
  intros r. assert (P : (0 <= fold_right Rplus 0 (map (fun z => z * z) r))%R).
  { induction r as [|z r IH]; cbn; [lra|]. pose proof (Rle_0_sqr z) as Q. unfold Rsqr in Q. lra. }
  assert (E : half_squares r = 0%R <-> fold_right Rplus 0%R (map (fun z => z * z)%R r) = 0%R) by (unfold half_squares; split; lra). rewrite E. clear E P.
  induction r as [|z r IH]; cbn [map fold_right]; [split; [intros _ ? []|reflexivity]|].
  assert (P : (0 <= fold_right Rplus 0 (map (fun z => z * z) r))%R).
  { clear. induction r as [|z r IH]; cbn; [lra|]. pose proof (Rle_0_sqr z) as Q. unfold Rsqr in Q. lra. }
  pose proof (Rle_0_sqr z) as Q. unfold Rsqr in Q. split.
  - intros H. assert (Hz : (z * z = 0)%R) by lra. assert (Hr : fold_right Rplus 0%R (map (fun z => z * z)%R r) = 0%R) by lra.
    intros y [<-|Hy]; [destruct (Rmult_integral _ _ Hz); auto|]. now apply IH.
  - intros H. rewrite (H z (or_introl eq_refl)). rewrite (proj2 IH); [lra|]. intros. apply H. now right.
Qed.

Lemma solved_minimize c vars params equations {Sys Jac Loss Grad Hess Hessp} (enc : list R -> Loss) isnan vadd vmul table root f_euler
  (m : model R Sys Jac Loss Grad Hess Hessp) requested initial fv fd fp o x0 th0 theta start use_jac use_hess use_hessp loss grad hess hessp :
  S_Solve.declared (lab_coords c) vars params -> (forall o, In o (vars ++ params) -> S_Simplify.declared c o) -> (forall i ls, dget i c = Some ls -> NoDup ls) ->
  m_coords m = lab_coords c -> m_variables m = vars -> m_parameters m = params ->
  prepared isnan vadd vmul f_euler m initial fv fd fp o x0 th0 theta start -> optimizer_mode o = "minimize" -> m_mode m = recorded_mode requested ->
  in_compiled "minimize" (m_compiled m) = true ->
  simulate_minimize_passes table (kw_jac o) (kw_hess o) (kw_hessp o) (kw_method o) = Ok (use_jac, use_hess, use_hessp) ->
  made_by (m_backend m) (m_resid m) -> evaluates (lab_coords c) vars params (m_resid m) loss ->
  made_by (m_backend m) (m_grad m) -> (use_jac = true -> evaluates (lab_coords c) vars params (m_grad m) grad) ->
  made_by (m_backend m) (m_hess m) -> (use_hess = true -> evaluates (lab_coords c) vars params (m_hess m) hess) ->
  made_by3 (m_backend m) (m_hessp m) -> (use_hessp = true -> evaluates3 (lab_coords c) vars params (m_hessp m) hessp /\ no_point vars params) ->
  residual_system c vars params equations enc loss ->
  exists P eu, mp_x0 P = start /\ mp_theta P = theta /\ gives_residuals c vars params equations enc (mp_f P) /\ solver_sees (lab_coords c) vars params (mp_f P) loss /\
    (if use_jac then exists j, mp_jac P = Some j /\ solver_sees (lab_coords c) vars params j grad else mp_jac P = None) /\
    (if use_hess then exists j, mp_hess P = Some j /\ solver_sees (lab_coords c) vars params j hess else mp_hess P = None) /\
    (if use_hessp then exists j, mp_hessp P = Some j /\ solver_sees3 (lab_coords c) vars params j hessp else mp_hessp P = None) /\
    forall minimize ans, minimize P = Ok ans -> sized (lab_coords c) vars (a_x ans) ->
      exists ds_v ds_p, simulate isnan vadd vmul table root minimize f_euler m (SDict initial) fv fd fp o = Ok (MkOutcome eu (Some (ds_v, ds_p)) (negb (a_success ans))) /\
        result_means c vars params equations enc (mp_f P) ds_v ds_p (a_x ans) theta.
Proof.
  intros D Do Nl Ec Ev Ep (St & (final & xf & Ef & Hxf & Hth) & Uo & Sf) Om Mm Co Fl Ms Es Mj Ej Mh Eh Mp Eh3 Rs. subst vars params. rewrite <- Ec in D, Es, Ej, Eh, Eh3.
  destruct (@c92_minimize__p R Sys Jac Loss Grad Hess Hessp isnan vadd vmul table root f_euler m requested initial final x0 th0 xf theta start fv fd fp o use_jac use_hess use_hessp loss grad hess hessp
    D St Ef Hxf Hth Uo Om Sf Mm Co Fl Ms Es Mj Ej Mh Eh Mp Eh3) as (P & eu & E1 & E2 & Ss & Sj & Sh & Sp & _ & Rt).
  rewrite Ec in Ss, Sj, Sh, Sp. exists P, eu. split; [exact E1|]. split; [exact E2|]. split; [eapply gives; eauto; apply D|]. split; [exact Ss|]. split; [exact Sj|]. split; [exact Sh|]. split; [exact Sp|].
  intros minimize ans Er Sz. rewrite <- Ec in Sz. destruct (proj2 (Rt minimize) ans Er Sz) as (ds_v & ds_p & Esim & _ & _ & V1 & P1). exists ds_v, ds_p. split; [exact Esim|].
  rewrite Ec in D, V1, P1. eapply means; eauto.
Qed.

Lemma c93_minimize__p :
  forall sub_into set_order dict_order evals order, walks_set set_order -> walks_set dict_order ->
  forall c axes vars params equations uv up f,
    declaration order c vars params uv up -> vars <> [] -> params <> [] -> equations <> [] ->
    (forall o, In o (vars ++ params) -> S_Simplify.declared c o /\ ~ In "step"%string (o_dims o)) ->
    (forall lr, In lr equations -> flat_reductions c axes (written lr) /\
       exists es, equation_symbols sub_into set_order dict_order evals c None (uv ++ up) (fst lr) (snd lr) = Ok es) ->
    (forall o, In o (vars ++ params) -> exists lr es, In lr equations /\
       equation_symbols sub_into set_order dict_order evals c None (uv ++ up) (fst lr) (snd lr) = Ok es /\ occurs_in c es o) ->
    ~ In "hess_point"%string (map make_indexed_name (uv ++ up)) -> no_point vars params ->
    compile_sympytensor_cge_functions sub_into set_order dict_order evals order c None vars params equations = Ok f ->
  forall (Sys Jac : Type) isnan vadd vmul table root f_euler (m : model R Sys Jac R (list R) (list (list R)) (list R)) requested
         initial fv fd fp o x0 th0 theta start use_jac use_hess use_hessp,
    (* the compiled model *)
    m_coords m = lab_coords c -> m_variables m = vars -> m_parameters m = params -> m_backend m = "sympytensor"%string -> m_mode m = recorded_mode requested ->
    in_compiled "minimize"%string (m_compiled m) = true ->
    m_resid m = Kw (sf_resid f) -> m_grad m = Kw (sf_grad f) -> m_hess m = Kw (sf_hess f) -> m_hessp m = Kw3 (sf_hessp f) ->
    (* the call *)
    prepared isnan vadd vmul f_euler m initial fv fd fp o x0 th0 theta start -> optimizer_mode o = "minimize"%string ->
    simulate_minimize_passes table (kw_jac o) (kw_hess o) (kw_hessp o) (kw_method o) = Ok (use_jac, use_hess, use_hessp) ->
  exists P eu, mp_x0 P = start /\ mp_theta P = theta /\ gives_residuals c vars params equations half_squares (mp_f P) /\
    (forall d x th, state_is (lab_coords c) vars params d x th -> call_flat (mp_f P) x th = sf_resid f d) /\
    (if use_jac then exists j, mp_jac P = Some j /\ forall d x th, state_is (lab_coords c) vars params d x th -> call_flat j x th = sf_grad f d else mp_jac P = None) /\
    (if use_hess then exists j, mp_hess P = Some j /\ forall d x th, state_is (lab_coords c) vars params d x th -> call_flat j x th = sf_hess f d else mp_hess P = None) /\
    (if use_hessp then exists j, mp_hessp P = Some j /\ forall d x p th, S_Solve.holds (lab_coords c) o_name d vars x -> S_Solve.holds (lab_coords c) o_name d params th ->
         S_Solve.holds (lab_coords c) (fun o => o_name o ++ "_point")%string d vars p ->
         (forall k, In k (dkeys d) <-> In k (map o_name (vars ++ params) ++ point_names vars)) -> call_flat3 j x p th = sf_hessp f d
     else mp_hessp P = None) /\
    forall minimize ans, minimize P = Ok ans -> sized (lab_coords c) vars (a_x ans) ->
      exists ds_v ds_p, simulate isnan vadd vmul table root minimize f_euler m (SDict initial) fv fd fp o = Ok (MkOutcome eu (Some (ds_v, ds_p)) (negb (a_success ans))) /\
        result_means c vars params equations half_squares (mp_f P) ds_v ds_p (a_x ans) theta.
Proof.
  intros sub_into set_order dict_order evals order Ws Wd c axes vars params equations uv up f De Nv Np Ne Do Eq Oc Hp Hpt Ef Sys Jac isnan vadd vmul table root f_euler m requested
    initial fv fd fp o x0 th0 theta start use_jac use_hess use_hessp Mc Mv Mp Mb Mm Mr Ms Mg Mh Mq Pr Om Fl.
  pose proof (declaration_declared De Nv Np Do) as D. destruct (@sympytensor_looks _ _ _ _ _ _ _ _ _ _ _ Ef) as (_ & _ & L1 & L2 & L3 & L4).
  destruct (@sympytensor_residuals sub_into set_order dict_order evals order c axes vars params equations uv up f Ws Wd De Nv Np Ne Do Eq Oc Hp Ef) as (_ & Rs).
  assert (Es : evaluates (lab_coords c) vars params (m_resid m) (on_state (lab_coords c) vars params (sf_resid f))) by (rewrite Ms; now apply kw_evaluates).
  assert (Eg : evaluates (lab_coords c) vars params (m_grad m) (on_state (lab_coords c) vars params (sf_grad f))) by (rewrite Mg; now apply kw_evaluates).
  assert (Eh : evaluates (lab_coords c) vars params (m_hess m) (on_state (lab_coords c) vars params (sf_hess f))) by (rewrite Mh; now apply kw_evaluates).
  assert (Eq3 : evaluates3 (lab_coords c) vars params (m_hessp m) (wrap_pytensor_func_for_scipy_p (sf_hessp f) vars params (lab_coords c))) by (rewrite Mq; now apply kw_evaluates3).
  assert (Bs : made_by (m_backend m) (m_resid m)) by (rewrite Ms; now right). assert (Bg : made_by (m_backend m) (m_grad m)) by (rewrite Mg; now right).
  assert (Bh : made_by (m_backend m) (m_hess m)) by (rewrite Mh; now right). assert (Bq : made_by3 (m_backend m) (m_hessp m)) by (rewrite Mq; now right).
  destruct (@solved_minimize c vars params equations Sys Jac _ _ _ _ half_squares isnan vadd vmul table root f_euler m requested initial fv fd fp o x0 th0 theta start use_jac use_hess use_hessp _ _ _ _
    D (fun o Ho => proj1 (Do o Ho)) (proj1 (proj2 (proj2 De))) Mc Mv Mp Pr Om Mm Mr Fl Bs Es Bg (fun _ => Eg) Bh (fun _ => Eh) Bq (fun _ => conj Eq3 Hpt) Rs) as (P & eu & E1 & E2 & G & Sl & J & H & Q & Rt).
  exists P, eu. split; [exact E1|]. split; [exact E2|]. split; [exact G|].
  assert (On : forall (W : Type) (h : dict (arr R) -> res W) j, looks_up h -> solver_sees (lab_coords c) vars params j (on_state (lab_coords c) vars params h) ->
    forall d x th, state_is (lab_coords c) vars params d x th -> call_flat j x th = h d).
  { intros W h j L Sj d x th St. pose proof St as (A & B & _). rewrite Sj by (eapply holds_sized; eauto). now apply on_state_eq. }
  split; [now apply On|]. split; [destruct use_jac; [destruct J as (j & Ej & Sj); exists j; split; [exact Ej|now apply On]|exact J]|].
  split; [destruct use_hess; [destruct H as (j & Ej & Sj); exists j; split; [exact Ej|now apply On]|exact H]|].
  split; [|exact Rt]. destruct use_hessp; [|exact Q]. destruct Q as (j & Ej & Sj). exists j. split; [exact Ej|]. intros d x p th A B C K.
  rewrite Sj by (eapply holds_sized; eauto). rewrite Mq in Eq3. symmetry. now apply Eq3.
Qed.
