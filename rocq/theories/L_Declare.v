From Coq Require Import Lia.
From Verif Require Import Py PyStr M_Declare S_Declare L_NumbaModel.
Local Open Scope string_scope.
Local Open Scope list_scope.

(** The symbol of one entry *)
Definition sym1 (a : option assumptions) (ni : string * list string) : svalue :=
  inject_index (make_symbol (fst ni) (Nat.ltb 0 (length (snd ni))) a) (Nat.ltb 0 (length (snd ni))) (snd ni).

Lemma info_to_symbols_map a l : l <> [] -> info_to_symbols l a = Ok (map (sym1 a) l).
Proof.
  intros N. unfold info_to_symbols. destruct l as [| p l]; [congruence |]. generalize (p :: l). clear. intros l. f_equal.
  induction l as [| [n idx] l IH]; [reflexivity |]. cbn in IH |- *. f_equal. exact IH.
Qed.

Lemma sym1_declared a d n : i_name d = Some n ->
  declared_as a d (sym1 a (n, match i_index d with Some l => l | None => [] end)).
Proof.
  intros H. unfold declared_as, sym1, make_symbol, inject_index. cbn [fst snd].
  destruct (i_index d) as [[| x l] |], a; cbn; repeat split; auto.
Qed.

Lemma tuples a : forall (infos : list info),
  (forall d, In d infos -> i_name d <> None) ->
  exists ts, map_res (fun d => match i_name d with
                               | None => Err KeyError
                               | Some n => Ok (n, match i_index d with Some l => l | None => [] end)
                               end) infos = Ok ts /\
    length ts = length infos /\ Forall2 (fun d t => i_name d = Some (fst t) /\ declared_as a d (sym1 a t)) infos ts.
Proof.
  induction infos as [| d infos IH]; intros H; [exists []; repeat split; constructor |].
  destruct IH as (ts & E & L & F); [intros; apply H; now right |].
  destruct (i_name d) as [n |] eqn:En; [| exfalso; apply (H d (or_introl eq_refl)); exact En].
  exists ((n, match i_index d with Some l => l | None => [] end) :: ts). cbn. rewrite En, E. cbn. split; [reflexivity |]. split; [lia |].
  constructor; auto. split; [exact En | now apply sym1_declared].
Qed.

Lemma c102_symbols__p :
  forall (infos : list info) (a : option assumptions),
  infos <> [] -> (forall d, In d infos -> i_name d <> None) ->
  exists symbols updates, dict_info_to_symbols infos a = Ok (symbols, updates) /\ Forall2 (declared_as a) infos symbols.
Proof.
  intros infos a N H. destruct (@tuples a infos H) as (ts & E & L & F).
  exists (map (sym1 a) ts), (dict_of_list (combine (map fst ts) (map (sym1 a) ts))).
  unfold dict_info_to_symbols. rewrite E. unfold bind. rewrite info_to_symbols_map.
  - split; [reflexivity |]. clear - F. induction F as [| d t l ts (A & B) F IH]; cbn; constructor; auto.
  - intros ->. destruct infos; [congruence | discriminate L].
Qed.

Lemma last_wins {V} (l : list (string * V)) : forall i k v, nth_error l i = Some (k, v) ->
  (forall j k' v', i < j -> nth_error l j = Some (k', v') -> k' <> k) -> dget k (rev l) = Some v.
Proof.
  induction l as [| [kx vx] l IH] using rev_ind; intros i k v H N; [destruct i; discriminate |].
  rewrite rev_app_distr. cbn. destruct (lt_dec i (length l)) as [L | L].
  - assert (D : kx <> k) by (apply (N (length l) kx vx L); rewrite nth_error_app2, Nat.sub_diag by lia; reflexivity).
    replace (String.eqb kx k) with false by (symmetry; now apply String.eqb_neq).
    replace (String.eqb k kx) with false by (symmetry; apply String.eqb_neq; congruence).
    rewrite nth_error_app1 in H by exact L. apply IH with (i := i); auto.
    intros j k' v' J E. apply (N j k' v' J). rewrite nth_error_app1; auto. apply nth_error_Some. congruence.
  - rewrite nth_error_app2 in H by lia. destruct (i - length l) as [| n]; [| destruct n; discriminate].
    cbn in H. injection H as -> ->. now rewrite String.eqb_refl.
Qed.

Lemma tuple_pairs a (ts : list (string * list string)) : combine (map fst ts) (map (sym1 a) ts) = map (fun t => (fst t, sym1 a t)) ts.
Proof. induction ts as [| t ts IH]; cbn; congruence. Qed.

Lemma forall2_nth {A B} (P : A -> B -> Prop) l m : Forall2 P l m -> forall i x, nth_error l i = Some x -> exists y, nth_error m i = Some y /\ P x y.
Proof.
  induction 1 as [| a b l m H F IH]; intros [| i] x E; cbn in *; try discriminate.
  - injection E as <-. exists b. auto.
  - auto.
Qed.
Lemma forall2_nth_r {A B} (P : A -> B -> Prop) l m : Forall2 P l m -> forall i y, nth_error m i = Some y -> exists x, nth_error l i = Some x /\ P x y.
Proof.
  induction 1 as [| a b l m H F IH]; intros [| i] x E; cbn in *; try discriminate.
  - injection E as <-. exists a. auto.
  - auto.
Qed.

Lemma c102_updates__p :
  forall (infos : list info) (a : option assumptions) (symbols : list svalue) (updates : dict svalue),
  dict_info_to_symbols infos a = Ok (symbols, updates) ->
  (forall i d n s, nth_error infos i = Some d -> i_name d = Some n -> nth_error symbols i = Some s ->
     (forall j d', i < j -> nth_error infos j = Some d' -> i_name d' <> Some n) -> dget n updates = Some s) /\
  (forall n s, dget n updates = Some s -> exists i d, nth_error infos i = Some d /\ i_name d = Some n /\ nth_error symbols i = Some s).
Proof.
  intros infos a symbols updates H. unfold dict_info_to_symbols in H.
  assert (HN : forall d, In d infos -> i_name d <> None).
  { destruct (map_res _ infos) as [ts |] eqn:E in H; [| discriminate].
    intros d Hd N. clear H. revert ts E. induction infos as [| d' infos IH]; intros ts E; [destruct Hd |].
    cbn in E. destruct Hd as [-> | Hd]; [rewrite N in E; discriminate |].
    destruct (i_name d'); [| discriminate]. cbn in E. destruct (map_res _ infos) eqn:E'; [| discriminate]. exact (IH Hd _ eq_refl). }
  destruct (@tuples a infos HN) as (ts & E & L & F). rewrite E in H. unfold bind in H.
  destruct ts as [| t0 ts0] eqn:Ets; [discriminate H |]. rewrite <- Ets in *. clear t0 ts0 Ets.
  rewrite info_to_symbols_map in H by (intros ->; discriminate H). injection H as <- <-. rewrite tuple_pairs. split.
  - intros i d n s Hd Hn Hs Hlast. rewrite dget_dict_of_list. apply last_wins with (i := i).
    + destruct (forall2_nth F i Hd) as (t & Ht & En & _). rewrite nth_error_map in Hs |- *. rewrite Ht in *. cbn in *. congruence.
    + intros j k' v' J Hj. rewrite nth_error_map in Hj. destruct (nth_error ts j) as [t |] eqn:Ht; [| discriminate]. cbn in Hj. injection Hj as <- <-.
      destruct (forall2_nth_r F j Ht) as (d' & Hd' & En & _). intros Q. apply (Hlast j d' J Hd'). congruence.
  - intros n s Hg. rewrite dget_dict_of_list in Hg. apply dget_In in Hg. apply in_rev in Hg.
    apply In_nth_error in Hg as (i & Hi). rewrite nth_error_map in Hi. destruct (nth_error ts i) as [t |] eqn:Ht; [| discriminate].
    cbn in Hi. injection Hi as <- <-. destruct (forall2_nth_r F i Ht) as (d & Hd & En & _). exists i, d. repeat split; auto.
    now rewrite nth_error_map, Ht.
Qed.

Lemma c102_errors__p :
  forall (infos : list info) (a : option assumptions),
  dict_info_to_symbols [] a = Err ValueError /\
  (dict_info_to_symbols infos a = Err KeyError <-> exists d, In d infos /\ i_name d = None).
Proof.
  intros infos a. split; [reflexivity |]. split.
  - intros H. destruct (Exists_dec (fun d => i_name d = None) infos) as [X | X].
    + intros d. destruct (i_name d); [right; discriminate | left; reflexivity].
    + apply Exists_exists in X. exact X.
    + exfalso. destruct infos as [| d0 infos0] eqn:EI; [discriminate H |]. rewrite <- EI in *.
      destruct (@c102_symbols__p infos a) as (s & u & E & _); [rewrite EI; discriminate | | congruence].
      intros d Hd N. apply X. apply Exists_exists. exists d; auto.
  - intros (d & Hd & N). unfold dict_info_to_symbols.
    enough (E : map_res (fun d => match i_name d with
                                  | None => Err KeyError
                                  | Some n => Ok (n, match i_index d with Some l => l | None => [] end)
                                  end) infos = Err KeyError) by now rewrite E.
    induction infos as [| d' infos IH]; [destruct Hd |]. cbn. destruct Hd as [-> | Hd]; [now rewrite N |].
    destruct (i_name d'); [| reflexivity]. cbn. now rewrite IH.
Qed.

Lemma c102_repeated_refuted__p :
  exists (infos : list info) symbols updates i d s n,
    dict_info_to_symbols infos None = Ok (symbols, updates) /\ nth_error infos i = Some d /\ nth_error symbols i = Some s /\
    i_name d = Some n /\ dget n updates <> Some s.
Proof.
  exists [MkInfo (Some "X") (Some ["i"]); MkInfo (Some "X") None]. eexists _, _, 0, _, _, "X". cbn. repeat split; discriminate.
Qed.

Lemma c102_string_keys__p :
  forall (K V : Type) (d : list (key K * V)) (k : key K) (v : V),
  In (k, v) (remove_string_keys d) <-> In (k, v) d /\ forall s, k <> KStr s.
Proof.
  intros K V d k v. unfold remove_string_keys. rewrite filter_In. cbn. split; intros (H & E); split; auto.
  - intros s ->. discriminate.
  - destruct k as [s | k]; [destruct (E s); reflexivity | reflexivity].
Qed.

Lemma elements_belong {A} (e : uelem A) y : In e (elements_of y) <-> belongs_to e y.
Proof.
  destruct y as [l | l | b]; cbn.
  - rewrite in_map_iff. split; intros (x & H1 & H2); exists x; auto.
  - split; [intros [<- | []]; reflexivity | intros ->; now left].
  - split; [intros [<- | []]; reflexivity | intros ->; now left].
Qed.

Lemma c102_union__p :
  forall (A : Type) (x : list (uelem A)) (args : list (uarg A)) (e : uelem A),
  In e (union_many x args) <-> In e x \/ exists y, In y args /\ belongs_to e y.
Proof.
  intros A x args e. unfold union_many. revert x. induction args as [| y args IH]; intros x; cbn.
  - split; [now left | intros [H | (y & [] & _)]; exact H].
  - rewrite IH, in_app_iff, elements_belong. split.
    + intros [[H | H] | (y' & H1 & H2)]; [now left | right; exists y; auto | right; exists y'; auto].
    + intros [H | (y' & [<- | H1] & H2)]; [auto | auto | right; exists y'; auto].
Qed.

Lemma c102_frozen_refuted__p :
  exists (x : list (uelem string)) (args : list (uarg string)) (a : string),
    (exists y, In y args /\ member_of a y) /\ ~ In (EOne a) (union_many x args).
Proof.
  exists [], [UFrozen ["a"]], "a". split; [exists (UFrozen ["a"]); cbn; auto |]. cbn. intros [H | []]. discriminate.
Qed.

(** LaTeX text *)
Lemma fold_append_acc l : forall s, fold_left append l s = (s ++ fold_left append l "")%string.
Proof.
  induction l as [| x l IH]; intros s; cbn; [now rewrite sapp_nil_r |].
  rewrite (IH (s ++ x)%string), (IH x), sapp_assoc. reflexivity.
Qed.
Lemma parts_ok (l : list eq_info) : (forall d, In d l -> e_name d <> None) -> exists ps, map_res equation_text l = Ok ps.
Proof.
  intros H. induction l as [| d l IH]; [now exists [] |]. destruct IH as (ps & E); [intros; apply H; now right |].
  cbn [map_res]. rewrite E. unfold equation_text. destruct (e_name d) eqn:N; [| exfalso; apply (H d); [now left | exact N]].
  eexists. reflexivity.
Qed.
Lemma map_res_append {A B} (f : A -> res B) l m ps qs : map_res f l = Ok ps -> map_res f m = Ok qs -> map_res f (l ++ m) = Ok (ps ++ qs).
Proof.
  revert ps. induction l as [| x l IH]; cbn; intros ps H1 H2; [injection H1 as <-; exact H2 |].
  destruct (f x) as [y |]; [| discriminate]. cbn in *. destruct (map_res f l) as [ys |]; [| discriminate]. cbn in *. injection H1 as <-.
  now rewrite (IH ys eq_refl H2).
Qed.

Lemma c104_in_order__p :
  forall (l m : list eq_info),
  (forall d, In d (l ++ m) -> e_name d <> None) ->
  exists s t, latex_print_equations l = Ok ("\begin{align}" ++ s ++ "\end{align}")%string /\
              latex_print_equations m = Ok ("\begin{align}" ++ t ++ "\end{align}")%string /\
              latex_print_equations (l ++ m)%list = Ok ("\begin{align}" ++ s ++ t ++ "\end{align}")%string.
Proof.
  intros l m H. destruct (@parts_ok l) as (ps & E1); [intros; apply H; apply in_or_app; auto |].
  destruct (@parts_ok m) as (qs & E2); [intros; apply H; apply in_or_app; auto |].
  exists (fold_left append ps ""), (fold_left append qs ""). unfold latex_print_equations.
  rewrite (map_res_append _ _ _ E1 E2), E1, E2. unfold bind. repeat split. rewrite fold_left_app, fold_append_acc.
  now rewrite sapp_assoc.
Qed.

Lemma c104_single__p :
  forall (d : eq_info) (n : string), e_name d = Some n ->
  latex_print_equations [d] =
    Ok ("\begin{align}\text{" ++ n ++ "} &\\" ++ e_latex d ++ "&\tag{" ++ e_id d ++ "}\\\end{align}")%string.
Proof.
  intros d n H. unfold latex_print_equations, equation_text. cbn [map_res]. rewrite H. unfold bind. cbn [fold_left].
  f_equal. cbn. rewrite !sapp_assoc. cbn. rewrite !sapp_assoc. cbn. rewrite !sapp_assoc. cbn. reflexivity.
Qed.

Lemma c104_missing__p :
  forall (l : list eq_info),
  latex_print_equations l = Err TypeError <-> exists d, In d l /\ e_name d = None.
Proof.
  intros l. split.
  - intros H. destruct (Exists_dec (fun d => e_name d = None) l) as [X | X].
    + intros d. destruct (e_name d); [right; discriminate | left; reflexivity].
    + apply Exists_exists in X. exact X.
    + exfalso. destruct (@parts_ok l) as (ps & E); [| unfold latex_print_equations in H; rewrite E in H; discriminate].
      intros d Hd N. apply X. apply Exists_exists. exists d; auto.
  - intros (d & Hd & N). unfold latex_print_equations.
    enough (E : map_res equation_text l = Err TypeError) by now rewrite E.
    induction l as [| d' l IH]; [destruct Hd |]. cbn [map_res].
    destruct Hd as [-> | Hd]; [unfold equation_text; now rewrite N |]. rewrite (IH Hd).
    unfold equation_text. destruct (e_name d'); reflexivity.
Qed.

Lemma depth_app s : forall d t, depth d (s ++ t) = match depth d s with Some d' => depth d' t | None => None end.
Proof.
  induction s as [| c s IH]; intros d t; cbn; [reflexivity |].
  destruct (Ascii.eqb c "{"); [apply IH |]. destruct (Ascii.eqb c "}"); [destruct d; [reflexivity | apply IH] | apply IH].
Qed.
Lemma depth_shift s : forall d d' k, depth d s = Some d' -> depth (d + k) s = Some (d' + k).
Proof.
  induction s as [| c s IH]; intros d d' k H; cbn in *; [congruence |].
  destruct (Ascii.eqb c "{"); [apply (IH (S d)); exact H |]. destruct (Ascii.eqb c "}"); [| now apply IH].
  destruct d as [| d]; [discriminate |]. cbn. now apply IH.
Qed.
Lemma balanced_depth s d : balanced s -> depth d s = Some d.
Proof. intros H. apply (@depth_shift s 0 0 d H). Qed.

Lemma balanced_app s t : balanced s -> balanced t -> balanced (s ++ t).
Proof. intros H1 H2. unfold balanced. now rewrite depth_app, H1. Qed.
Lemma Ok_inj {A} (x y : A) : Ok x = Ok y -> x = y. Proof. congruence. Qed.

Lemma c104_balanced__p :
  forall (l : list eq_info) (s : string),
  (forall d, In d l -> exists n, e_name d = Some n /\ balanced n /\ balanced (e_latex d) /\ balanced (e_id d)) ->
  latex_print_equations l = Ok s -> balanced s.
Proof.
  intros l s H E. unfold latex_print_equations in E. destruct (map_res equation_text l) as [ps |] eqn:Ep; [| discriminate].
  unfold bind in E. apply Ok_inj in E. subst s.
  assert (B : balanced (fold_left append ps "")).
  { revert ps Ep. induction l as [| d l IH]; cbn [map_res]; intros ps Ep; [injection Ep as <-; reflexivity |].
    destruct (equation_text d) as [t |] eqn:Et; [| discriminate]. unfold bind in Ep. destruct (map_res equation_text l) as [ts |]; [| discriminate].
    apply Ok_inj in Ep. subst ps. cbn [fold_left]. change ("" ++ t)%string with t. rewrite fold_append_acc.
    assert (IB := IH (fun d' Hd' => H d' (or_intror Hd')) ts eq_refl). apply balanced_app; [| exact IB].
    destruct (H d (or_introl eq_refl)) as (n & En & Bn & Bl & Bi). unfold equation_text in Et. rewrite En in Et. apply Ok_inj in Et. subst t.
    unfold balanced. rewrite depth_app. change (depth 0 "\text{") with (Some 1). cbv iota.
    rewrite depth_app, (@balanced_depth n 1 Bn). rewrite depth_app. change (depth 1 "} &\\") with (Some 0). cbv iota.
    rewrite depth_app, (@balanced_depth _ 0 Bl). rewrite depth_app. change (depth 0 "&\tag{") with (Some 1). cbv iota.
    rewrite depth_app, (@balanced_depth _ 1 Bi). reflexivity. }
  unfold balanced. rewrite depth_app. change (depth 0 "\begin{align}") with (Some 0). cbv iota.
  rewrite depth_app, (@balanced_depth _ 0 B). reflexivity.
Qed.

Lemma c104_verbatim_refuted__p :
  exists (d : eq_info) (s : string), balanced (e_latex d) /\ balanced (e_id d) /\ latex_print_equations [d] = Ok s /\ ~ balanced s.
Proof.
  exists (MkEq (Some "}") "x" "1"). eexists. repeat split. unfold balanced. vm_compute. discriminate.
Qed.
