(** Lemmas for C78 and C79. *)
From Verif Require Import Py PyStr M_Primitives M_Expand M_Indices S_Indices L_Unpacked L_Layout.
Local Open Scope string_scope.
Local Open Scope list_scope.

Lemma NoDup_app_left {A} (l1 l2 : list A) : NoDup (l1 ++ l2) -> NoDup l1.
Proof.
  induction l1 as [|a l1 IH]; intros N; constructor; inversion N as [|? ? Hn N']; subst; auto.
  intros Ha. apply Hn, in_or_app. auto.
Qed.

Section Expand.
Context {E I W : Type} (eqb : E -> E -> bool) (has : E -> I -> bool) (subs : E -> I -> W -> E).
Hypothesis eqb_ok : forall a b, eqb a b = true <-> a = b.

Let level (i : I) (ws : list W) (e : E) : list E := if has e i then map (subs e i) ws else [e].

Lemma add_values_in i e ws : forall acc y,
  In y (fold_left (fun acc w => let n := subs e i w in if existsb (eqb n) acc then acc else acc ++ [n]) ws acc) <->
  In y acc \/ In y (map (subs e i) ws).
Proof.
  induction ws as [|w ws IH]; intros acc y; cbn [fold_left map In]; [tauto|].
  rewrite IH. cbn zeta. destruct (existsb (eqb (subs e i w)) acc) eqn:X.
  - apply existsb_exists in X as (z & Hz & Ez). apply eqb_ok in Ez. split; intros [A|A]; auto.
    destruct A as [<-|A]; auto. left. now rewrite Ez.
  - rewrite in_app_iff. simpl. tauto.
Qed.

Lemma add_instances_in i ws acc e y : In y (add_instances eqb has subs i ws acc e) <-> In y acc \/ In y (level i ws e).
Proof.
  unfold add_instances, level. destruct (has e i).
  - apply add_values_in.
  - rewrite in_app_iff. reflexivity.
Qed.

Lemma level_in i ws es : forall acc y,
  In y (fold_left (add_instances eqb has subs i ws) es acc) <-> In y acc \/ In y (flat_map (level i ws) es).
Proof.
  induction es as [|e es IH]; intros acc y; cbn [fold_left flat_map]; [simpl; tauto|].
  rewrite IH, add_instances_in, in_app_iff. tauto.
Qed.

Lemma expand_in is : forall wss es, length is = length wss -> exists r,
  expand_indices eqb has subs es is wss = Ok r /\
  forall y, In y r <-> exists e, In e es /\ instance_of has subs e (combine is wss) y.
Proof.
  induction is as [|i is IH]; intros [|ws wss] es H; try discriminate.
  - exists es. split; [reflexivity|]. intros y. simpl. split; [eauto|]. intros (e & He & ->). exact He.
  - cbn [expand_indices]. destruct (IH wss (fold_left (add_instances eqb has subs i ws) es []) (eq_add_S _ _ H)) as (r & Hr & Hin).
    exists r. split; [exact Hr|]. intros y. rewrite Hin. cbn [combine instance_of]. split.
    + intros (e1 & He1 & Hy). apply level_in in He1 as [[]|He1]. apply in_flat_map in He1 as (e & He & Hl).
      exists e. split; [exact He|]. unfold level in Hl. destruct (has e i).
      * left. split; [reflexivity|]. apply in_map_iff in Hl as (w & <- & Hw). eauto.
      * right. split; [reflexivity|]. destruct Hl as [<-|[]]. exact Hy.
    + intros (e & He & [(Hh & w & Hw & Hy)|(Hh & Hy)]).
      * exists (subs e i w). split; [|exact Hy]. apply level_in. right. apply in_flat_map. exists e. split; [exact He|].
        unfold level. rewrite Hh. now apply in_map.
      * exists e. split; [|exact Hy]. apply level_in. right. apply in_flat_map. exists e. split; [exact He|].
        unfold level. rewrite Hh. simpl. auto.
Qed.

Lemma add_values_list i e ws : forall acc, NoDup (acc ++ map (subs e i) ws) ->
  fold_left (fun acc w => let n := subs e i w in if existsb (eqb n) acc then acc else acc ++ [n]) ws acc = acc ++ map (subs e i) ws.
Proof.
  induction ws as [|w ws IH]; intros acc N; cbn [fold_left map] in *; [now rewrite app_nil_r|]. cbn zeta.
  destruct (existsb (eqb (subs e i w)) acc) eqn:X.
  - exfalso. apply existsb_exists in X as (z & Hz & Ez). apply eqb_ok in Ez. subst z.
    apply NoDup_remove_2 in N. apply N. apply in_or_app. auto.
  - rewrite IH by (now rewrite <- app_assoc). now rewrite <- app_assoc.
Qed.

Lemma level_list i ws es : forall acc, NoDup (acc ++ flat_map (level i ws) es) ->
  fold_left (add_instances eqb has subs i ws) es acc = acc ++ flat_map (level i ws) es.
Proof.
  induction es as [|e es IH]; intros acc N; cbn [fold_left flat_map] in *; [now rewrite app_nil_r|].
  assert (X : add_instances eqb has subs i ws acc e = acc ++ level i ws e).
  { unfold add_instances, level in *. destruct (has e i); [|reflexivity]. apply add_values_list.
    rewrite app_assoc in N. now apply NoDup_app_left in N. }
  rewrite X, IH by (now rewrite <- app_assoc). now rewrite <- app_assoc.
Qed.

Lemma instances_nonempty idxs : forall e, Forall (fun iw => snd iw <> []) idxs -> instances has subs e idxs <> [].
Proof.
  induction idxs as [|(i & ws) idxs IH]; intros e F; [discriminate|]. inversion F as [|? ? Hw F']; subst. cbn [instances snd] in *.
  destruct (has e i); [|now apply IH]. destruct ws as [|w ws]; [congruence|]. cbn [flat_map].
  specialize (IH (subs e i w) F'). intros X. apply app_eq_nil in X as (X & _). congruence.
Qed.

Lemma NoDup_flat_map_inj {A B} (f : A -> list B) l : (forall a, f a <> []) -> NoDup (flat_map f l) -> NoDup l.
Proof.
  intros Hf. induction l as [|a l IH]; intros N; constructor; cbn [flat_map] in N.
  - intros Ha. specialize (Hf a). destruct (f a) as [|b bs] eqn:Eb; [congruence|].
    cbn [app] in N. inversion N as [|? ? Hn _]; subst. apply Hn. apply in_or_app. right. apply in_flat_map. exists a. rewrite Eb. simpl. auto.
  - apply IH. clear -N. induction (f a) as [|x xs IH]; [exact N|]. inversion N; auto.
Qed.

Lemma flat_map_flat_map {A B C} (f : A -> list B) (g : B -> list C) l : flat_map g (flat_map f l) = flat_map (fun a => flat_map g (f a)) l.
Proof. induction l as [|a l IH]; [reflexivity|]. cbn [flat_map]. now rewrite flat_map_app, IH. Qed.

Lemma instances_level i ws rest e : instances has subs e ((i, ws) :: rest) = flat_map (fun e1 => instances has subs e1 rest) (level i ws e).
Proof.
  unfold level. cbn [instances]. destruct (has e i).
  - induction ws as [|w ws IH]; [reflexivity|]. cbn [flat_map map]. now rewrite IH.
  - cbn. now rewrite app_nil_r.
Qed.

Lemma expand_list is : forall wss es, length is = length wss -> Forall (fun ws => ws <> []) wss ->
  NoDup (flat_map (fun e => instances has subs e (combine is wss)) es) ->
  expand_indices eqb has subs es is wss = Ok (flat_map (fun e => instances has subs e (combine is wss)) es).
Proof.
  induction is as [|i is IH]; intros [|ws wss] es H F N; try discriminate.
  - cbn. f_equal. clear. induction es; [reflexivity|]. cbn. congruence.
  - cbn [combine] in *. inversion F as [|? ? Hws F']; subst.
    assert (X : flat_map (fun e => instances has subs e ((i, ws) :: combine is wss)) es =
                flat_map (fun e1 => instances has subs e1 (combine is wss)) (flat_map (level i ws) es)).
    { rewrite flat_map_flat_map. apply flat_map_ext. intros e. apply instances_level. }
    rewrite X in *. cbn [expand_indices].
    assert (Fc : Forall (fun iw : I * list W => snd iw <> []) (combine is wss)).
    { clear -F'. revert wss F'. induction is; intros [|w wss] F; constructor; inversion F; subst; auto. }
    rewrite level_list with (acc := []).
    + cbn [app]. apply IH; auto.
    + cbn [app]. apply NoDup_flat_map_inj in N; auto. intros e1. now apply instances_nonempty.
Qed.
End Expand.

Lemma c78_exactly_the_instances__p :
  forall (E I W : Type) (eqb : E -> E -> bool) (has : E -> I -> bool) (subs : E -> I -> W -> E)
         (exprs : list E) (indices : list I) (values : list (list W)),
  (forall a b, eqb a b = true <-> a = b) -> length indices = length values ->
  exists out, expand_indices eqb has subs exprs indices values = Ok out /\
    forall y, In y out <-> exists e, In e exprs /\ instance_of has subs e (combine indices values) y.
Proof. intros. now apply expand_in. Qed.

Lemma c78_order__p :
  forall (E I W : Type) (eqb : E -> E -> bool) (has : E -> I -> bool) (subs : E -> I -> W -> E)
         (exprs : list E) (indices : list I) (values : list (list W)),
  (forall a b, eqb a b = true <-> a = b) -> length indices = length values -> Forall (fun ws => ws <> []) values ->
  NoDup (flat_map (fun e => instances has subs e (combine indices values)) exprs) ->
  expand_indices eqb has subs exprs indices values = Ok (flat_map (fun e => instances has subs e (combine indices values)) exprs).
Proof. intros. now apply expand_list. Qed.

Lemma c78_enumerate__p :
  forall (E I W : Type) (eqb : E -> E -> bool) (has : E -> I -> bool) (subs : E -> I -> W -> E)
         (exprs : list E) (indices : list I) (dicts : list (list (W * W))) (how : string),
  (forall a b, eqb a b = true <-> a = b) -> length indices = length dicts ->
  exists out, enumerate_indexbase eqb has subs exprs indices dicts how = Ok out /\
    forall y, In y out <-> exists e, In e exprs /\
      instance_of has subs e (combine indices (map (map (if String.eqb how "index" then fst else snd)) dicts)) y.
Proof.
  intros. unfold enumerate_indexbase. destruct (String.eqb how "index"); apply c78_exactly_the_instances__p; auto; now rewrite map_length.
Qed.

Lemma instances_length {E I W} (has : E -> I -> bool) (subs : E -> I -> W -> E) idxs : forall e,
  (forall e1 i j w, In i (map fst idxs) -> In j (map fst idxs) -> has e1 j = true -> i <> j -> has (subs e1 i w) j = true) ->
  NoDup (map fst idxs) -> (forall i, In i (map fst idxs) -> has e i = true) ->
  length (instances has subs e idxs) = fold_right Nat.mul 1 (map (fun iw => length (snd iw)) idxs).
Proof.
  induction idxs as [|(i & ws) idxs IH]; intros e Hk N H; [reflexivity|]. cbn [instances map fst snd fold_right] in *.
  rewrite (H i) by (simpl; auto). inversion N as [|? ? Hn N']; subst.
  assert (X : forall w, length (instances has subs (subs e i w) idxs) = fold_right Nat.mul 1 (map (fun iw => length (snd iw)) idxs)).
  { intros w. apply IH; auto.
    - intros e1 i1 j1 w1 Hi Hj. apply Hk; simpl; auto.
    - intros j Hj. apply Hk; [simpl; auto|simpl; auto|apply H; simpl; auto|]. intros X. subst. contradiction. }
  clear -X. induction ws as [|w ws IHw]; [reflexivity|]. cbn [flat_map length]. rewrite app_length, X, IHw. reflexivity.
Qed.

Lemma c78_length__p :
  forall (E I W : Type) (eqb : E -> E -> bool) (has : E -> I -> bool) (subs : E -> I -> W -> E)
         (exprs : list E) (indices : list I) (values : list (list W)),
  (forall a b, eqb a b = true <-> a = b) -> length indices = length values -> Forall (fun ws => ws <> []) values ->
  NoDup (flat_map (fun e => instances has subs e (combine indices values)) exprs) ->
  NoDup indices -> (forall e i, In e exprs -> In i indices -> has e i = true) ->
  (** putting a value for one index leaves the others *)
  (forall e i j w, In i indices -> In j indices -> has e j = true -> i <> j -> has (subs e i w) j = true) ->
  exists out, expand_indices eqb has subs exprs indices values = Ok out /\
    length out = length exprs * fold_right Nat.mul 1 (map (@length W) values).
Proof.
  intros E I W eqb has subs exprs indices values Heq HL F N NI Hhas Hkeep.
  eexists. split; [now apply c78_order__p|].
  assert (M1 : map fst (combine indices values) = indices).
  { clear -HL. revert values HL. induction indices; intros [|v values] H; simpl in *; try discriminate; auto. f_equal. auto. }
  assert (M2 : map (fun iw : I * list W => length (snd iw)) (combine indices values) = map (@length W) values).
  { clear -HL. revert values HL. induction indices; intros [|v values] H; simpl in *; try discriminate; auto. f_equal. auto. }
  assert (X : forall e, In e exprs -> length (instances has subs e (combine indices values)) = fold_right Nat.mul 1 (map (@length W) values)).
  { intros e He. rewrite <- M2. apply instances_length; rewrite M1; auto. }
  clear -X. induction exprs as [|e exprs IH]; [reflexivity|]. cbn [flat_map length]. rewrite app_length, X by (simpl; auto).
  rewrite IH by (intros; apply X; simpl; auto). reflexivity.
Qed.

Lemma sub_eqb_ok a : forall b, sub_eqb a b = true <-> a = b.
Proof.
  assert (X : forall x y, one_eqb x y = true <-> x = y).
  { intros [x|x] [y|y]; cbn [one_eqb]; try (split; discriminate); rewrite String.eqb_eq; split; congruence. }
  induction a as [|x a IH]; intros [|y b]; cbn [sub_eqb]; try (split; discriminate); [tauto|].
  rewrite andb_true_iff, X, IH. split; [intros (-> & ->); reflexivity|]. intros H. now injection H as -> ->.
Qed.

Lemma c78_same_labels_refuted__p :
  ~ (forall (exprs : list subscripts) (indices : list string) (values : list (list string)),
     length indices = length values -> NoDup indices -> NoDup exprs ->
     (forall e, In e exprs -> exists i, In i indices /\ sub_has e i = true) ->
     exists out, expand_indices sub_eqb sub_has sub_subs exprs indices values = Ok out /\
       length out = length (flat_map (fun e => instances sub_has sub_subs e (combine indices values)) exprs)).
Proof.
  intros H. specialize (H [[Index "i"]; [Index "j"]] ["i"; "j"] [["a"; "b"]; ["a"; "b"]]).
  destruct H as (out & E & L).
  - reflexivity.
  - repeat constructor; simpl; intuition discriminate.
  - repeat constructor; simpl; intuition discriminate.
  - intros e [<-|[<-|[]]]; [exists "i"|exists "j"]; simpl; auto.
  - cbv in E. injection E as <-. cbv in L. discriminate.
Qed.

(** Names *)
Lemma str_replace_app c rep a b : str_replace (String c "") rep (a ++ b)%string = (str_replace (String c "") rep a ++ str_replace (String c "") rep b)%string.
Proof.
  induction a as [|x a IH]; [reflexivity|].
  destruct (Ascii.eqb_spec c x) as [->|N].
  - change (String x a ++ b)%string with (String x "" ++ (a ++ b))%string. change (String x a) with (String x "" ++ a)%string.
    rewrite !str_replace_match by discriminate. rewrite IH. now rewrite sapp_assoc.
  - change (String x a ++ b)%string with (String x (a ++ b)).
    assert (P : forall t, String.prefix (String c "") (String x t) = false).
    { intros t. simpl. destruct (ascii_dec c x); [congruence|reflexivity]. }
    rewrite !str_replace_nomatch by apply P. rewrite IH. reflexivity.
Qed.

Lemma snake_app a b : brackets_to_snake_case (a ++ b)%string = (brackets_to_snake_case a ++ brackets_to_snake_case b)%string.
Proof. unfold brackets_to_snake_case. now rewrite !str_replace_app. Qed.

Lemma snake_plain a : plain a -> brackets_to_snake_case a = a.
Proof. intros (A & B & C & D). unfold brackets_to_snake_case.
  rewrite (@str_replace_absent _ _ _ _ B), (@str_replace_absent _ _ _ _ A), (@str_replace_absent _ _ _ _ C). now apply str_replace_absent.
Qed.

Lemma snake_join ls : Forall plain ls -> brackets_to_snake_case (join ", " ls) = join "_" ls.
Proof.
  induction ls as [|a ls IH]; intros F; [reflexivity|]. inversion F as [|? ? Ha F']; subst.
  destruct ls as [|b ls]; [now apply snake_plain|].
  change (join ", " (a :: b :: ls)) with (a ++ ", " ++ join ", " (b :: ls))%string.
  change (join "_" (a :: b :: ls)) with (a ++ "_" ++ join "_" (b :: ls))%string.
  rewrite !snake_app, IH, snake_plain by auto. reflexivity.
Qed.

Lemma c79_name__p :
  forall (base : string) (labels : list string),
  plain base -> Forall plain labels -> labels <> [] ->
  indexed_var_to_symbol (base, labels) = join "_" (base :: labels).
Proof.
  intros base labels Hb Hl N. unfold indexed_var_to_symbol, indexed_name. cbn [fst snd].
  rewrite !snake_app, snake_plain, snake_join by auto.
  change (brackets_to_snake_case "[") with "_". change (brackets_to_snake_case "]") with "". rewrite sapp_nil_r.
  destruct labels; [congruence|]. reflexivity.
Qed.

Lemma c79_one_name__p :
  forall (o : mobj),
  plain (o_name o) -> Forall (fun l => plain (str_label l)) (dvals (o_dim_vals o)) -> dvals (o_dim_vals o) <> [] ->
  indexed_var_to_symbol (o_name o, map str_label (dvals (o_dim_vals o))) = make_indexed_name o /\
  symbol (o_name o) (map str_label (dvals (o_dim_vals o))) = make_indexed_name o.
Proof.
  intros o Hb Hl N. assert (F : Forall plain (map str_label (dvals (o_dim_vals o)))).
  { apply Forall_forall. intros x Hx. apply in_map_iff in Hx as (l & <- & Hx). rewrite Forall_forall in Hl. auto. }
  split.
  - rewrite c79_name__p; auto. destruct (dvals (o_dim_vals o)); [congruence|discriminate].
  - unfold symbol, make_indexed_name. destruct (dvals (o_dim_vals o)); [congruence|reflexivity].
Qed.

Lemma suffix_inj_free s : forall t, Forall (fun x => contains_char "_" x = false) s -> Forall (fun x => contains_char "_" x = false) t ->
  suffix s = suffix t -> s = t.
Proof.
  induction s as [|a s IH]; intros [|b t] Fs Ft H; try discriminate; auto.
  inversion Fs; inversion Ft; subst. cbn [suffix] in H. injection H as H.
  apply no_us_prefix in H as (-> & H); auto. f_equal. auto.
Qed.

Lemma symbol_inj x y :
  plain (fst x) -> plain (fst y) -> Forall plain (snd x) -> Forall plain (snd y) -> snd x <> [] -> snd y <> [] ->
  Forall (fun l => contains_char "_" l = false) (snd x) -> Forall (fun l => contains_char "_" l = false) (snd y) ->
  ~ (exists r, fst y = fst x ++ "_" ++ r)%string -> ~ (exists r, fst x = fst y ++ "_" ++ r)%string ->
  indexed_var_to_symbol x = indexed_var_to_symbol y -> x = y.
Proof.
  destruct x as (b & l), y as (b2 & l2). cbn [fst snd]. intros. rewrite !c79_name__p, !join_suffix in * by auto.
  match goal with H : _ = _ |- _ => apply names_cross in H as (-> & H); [|assumption|assumption]; apply suffix_inj_free in H; auto end.
  congruence.
Qed.

Lemma c79_distinct__p :
  forall (vars : list (string * list string)),
  NoDup vars ->
  (forall v, In v vars -> plain (fst v) /\ snd v <> [] /\ Forall (fun l => plain l /\ contains_char "_" l = false) (snd v)) ->
  (forall v w r, In v vars -> In w vars -> fst w <> (fst v ++ "_" ++ r)%string) ->
  NoDup (map indexed_var_to_symbol vars) /\
  make_indexbase_sub_dict vars = map (fun v => (indexed_name (fst v) (snd v), join "_" (fst v :: snd v))) vars.
Proof.
  intros vars N Hp Hx.
  assert (Inj : forall v w, In v vars -> In w vars -> indexed_var_to_symbol v = indexed_var_to_symbol w -> v = w).
  { intros v w Hv Hw. destruct (Hp v Hv) as (A & B & C). destruct (Hp w Hw) as (A2 & B2 & C2).
    rewrite Forall_forall in C, C2. apply symbol_inj; auto; try (apply Forall_forall; intros l Hl; first [now apply C|now apply C2]).
    - intros (r & X). exact (Hx v w r Hv Hw X).
    - intros (r & X). exact (Hx w v r Hw Hv X). }
  assert (ND : forall vs, incl vs vars -> NoDup vs -> NoDup (map indexed_var_to_symbol vs)).
  { induction vs as [|v vs IH]; intros Hi Hn; cbn [map]; constructor; inversion Hn; subst.
    - intros Hv. apply in_map_iff in Hv as (w & E & Hw). apply Inj in E; [subst; contradiction|apply Hi; simpl; auto|apply Hi; simpl; auto].
    - apply IH; auto. intros z Hz. apply Hi. simpl; auto. }
  split; [apply ND; auto; apply incl_refl|].
  unfold make_indexbase_sub_dict. rewrite dict_of_list_NoDup.
  - assert (Hv : forall v, In v vars -> indexed_var_to_symbol v = join "_" (fst v :: snd v)).
    { intros (b & l) Hv. destruct (Hp _ Hv) as (A & B & C). cbn [fst snd] in *. apply c79_name__p; auto.
      rewrite Forall_forall in *. intros x X. now apply C. }
    clear -Hv. induction vars as [|v vars IH]; [reflexivity|]. cbn [map combine]. rewrite Hv by (simpl; auto).
    rewrite IH by (intros; apply Hv; simpl; auto). reflexivity.
  - rewrite map_fst_combine by (now rewrite !map_length).
    assert (X : NoDup (map brackets_to_snake_case (map (fun v => indexed_name (fst v) (snd v)) vars))).
    { rewrite map_map. apply ND; auto. apply incl_refl. }
    now apply NoDup_map_inv in X.
Qed.

Lemma c79_spaces_refuted__p :
  ~ (forall (base : string) (labels : list string), labels <> [] ->
     contains_char "[" base = false -> contains_char "]" base = false ->
     Forall (fun l => contains_char "[" l = false /\ contains_char "]" l = false /\ contains_char "," l = false) labels ->
     indexed_var_to_symbol (base, labels) = join "_" (base :: labels)).
Proof.
  intros H. specialize (H "x" ["north east"]). assert (X : indexed_var_to_symbol ("x", ["north east"]) = "x_north east").
  { apply H; try discriminate; auto. }
  cbv in X. discriminate.
Qed.

Lemma c79_collision_refuted__p :
  ~ (forall v w : string * list string, plain (fst v) -> plain (fst w) -> Forall plain (snd v) -> Forall plain (snd w) ->
     snd v <> [] -> snd w <> [] -> indexed_var_to_symbol v = indexed_var_to_symbol w -> v = w).
Proof.
  intros H. specialize (H ("x", ["a_b"]) ("x", ["a"; "b"])).
  assert (P : forall s, In s ["x"; "a"; "b"; "a_b"] -> plain s).
  { intros s Hs. simpl in Hs. repeat destruct Hs as [<-|Hs]; try (now repeat split). }
  assert (X : ("x", ["a_b"]) = ("x", ["a"; "b"])).
  { apply H; cbn [fst snd]; try discriminate; try (repeat constructor; apply P; simpl; tauto); try (apply P; simpl; tauto); reflexivity. }
  discriminate.
Qed.
