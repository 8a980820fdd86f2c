(** Lemmas for C19-C21. *)
From Verif Require Import Py PyStr M_Primitives M_Expand M_Equations M_Registry S_Registry.
Local Open Scope string_scope.

Lemma represents_insert {V} (d : dict V) a n v :
  represents d a -> represents (dset n v d) (insert n v a).
Proof.
  intros (K & N & G). unfold represents, insert; simpl. rewrite dkeys_dset, K.
  destruct (in_dec string_dec n (names_of a)) as [Hi|Hi].
  - pose proof (proj2 (mem_str_In _ _) Hi) as E. rewrite E. split; [auto|]. split; auto.
    intros k. rewrite dget_dset, G. destruct (String.eqb_spec k n), (string_dec k n); congruence.
  - pose proof (proj2 (mem_str_nIn _ _) Hi) as E. rewrite E. split; [auto|]. split; [now apply NoDup_app_single|].
    intros k. rewrite dget_dset, G. destruct (String.eqb_spec k n), (string_dec k n); congruence.
Qed.

Lemma add_object_spec {V} (d : dict V) a n v ow :
  represents d a ->
  (add_object d n v ow = (dset n v d, Ok tt) /\ (ow = true \/ ~ In n (names_of a))) \/
  (add_object d n v ow = (d, Err ValueError) /\ ow = false /\ In n (names_of a)).
Proof.
  intros (K & _ & _). unfold add_object. rewrite K. destruct (mem_str n (names_of a)) eqn:E.
  - apply mem_str_In in E. destruct ow; simpl; auto.
  - apply mem_str_nIn in E. simpl. auto.
Qed.

Definition ok_flag {A} (r : res A) (b : bool) : Prop := if b then exists x, r = Ok x else exists e, r = Err e.

(** A loop whose body serves one request. *)
Lemma loop_additions {V X S} (get_ : S -> dict V) (body : S -> X -> outcome S) (rq : X -> request V) ow (I : S -> Prop) :
  (forall s x a, I s -> represents (get_ s) a ->
     (exists n v s', rq x a = Some (n, v) /\ (ow = true \/ ~ In n (names_of a)) /\
                     body s x = (s', Ok tt) /\ I s' /\ get_ s' = dset n v (get_ s)) \/
     (exists e s', body s x = (s', Err e) /\ I s' /\ get_ s' = get_ s /\
                   (rq x a = None \/ exists n v, rq x a = Some (n, v) /\ ow = false /\ In n (names_of a)))) ->
  forall l s a, I s -> represents (get_ s) a ->
  exists a' b, additions ow a (map rq l) a' b /\
    I (fst (loop body s l)) /\ represents (get_ (fst (loop body s l))) a' /\ ok_flag (snd (loop body s l)) b.
Proof.
  intros Hb. induction l as [|x l IH]; intros s a Hi Hr; simpl.
  - exists a, true. split; [constructor|]. simpl. eauto.
  - destruct (Hb s x a Hi Hr) as [(n & v & s' & E & O & B & I' & G)|(e & s' & B & I' & G & E)]; rewrite B; simpl.
    + destruct (IH s' (insert n v a) I') as (a' & b & A & R).
      { rewrite G. now apply represents_insert. }
      exists a', b. split; [|exact R]. econstructor; eauto.
    + exists a, false. split.
      * destruct E as [E|(n & v & E & O & Hin)]; [now apply add_refused|eapply add_taken; eauto].
      * rewrite G. simpl. eauto.
Qed.

Lemma validate_objects k l :
  match objects_of k l with
  | Some os => map_res (validate_obj k) l = Ok os
  | None => exists e, map_res (validate_obj k) l = Err e
  end.
Proof.
  induction l as [|x l IH]; simpl; auto.
  destruct x as [o|q|]; simpl; eauto.
  destruct (objects_of k l) as [os|].
  - destruct (o_kind o), k; simpl; rewrite ?IH; simpl; eauto.
  - destruct IH as (e & IH). destruct (kind_eqb (o_kind o) k); simpl; rewrite ?IH; simpl; eauto.
Qed.

Lemma validate_equations l :
  match equations_of l with
  | Some qs => map_res validate_eqn l = Ok qs /\ l = map PEqn qs
  | None => exists e, map_res validate_eqn l = Err e
  end.
Proof.
  induction l as [|x l IH]; simpl; auto.
  destruct x as [o|q|]; simpl; eauto.
  destruct (equations_of l) as [qs|]; simpl.
  - destruct IH as (IH & IHl). rewrite IH. simpl. split; congruence.
  - destruct IH as (e & IH). rewrite IH. simpl. eauto.
Qed.

Lemma add_objects_spec d a l ow :
  represents d a ->
  exists a' b, additions ow a (map object_request l) a' b /\
    represents (fst (add_objects d l ow)) a' /\ ok_flag (snd (add_objects d l ow)) b.
Proof.
  intros H. unfold add_objects.
  destruct (@loop_additions _ mobj _ (fun d => d) (fun d o => add_object d (o_name o) o ow) object_request ow (fun _ => True))
    with (l := l) (s := d) (a := a) as (a' & b & A & _ & R); auto.
  2: exists a', b; auto.
  intros s x a0 _ Hr. destruct (@add_object_spec _ _ _ (o_name x) x ow Hr) as [(E & O)|(E & O & Hin)]; rewrite E.
  - left. exists (o_name x), x, (dset (o_name x) x s). auto.
  - right. exists ValueError, s. repeat split; auto. right. exists (o_name x), x. auto.
Qed.

(** The parser of a model at given variables and parameters. *)
Definition parser_of (parse : parser) (m : model) (vars pars : dict mobj) (text : string) :=
  parse vars pars (m_coords m) (m_numeraire m) text.

Definition frame (m m' : model) : Prop :=
  m_coords m' = m_coords m /\ m_sympy m' = m_sympy m /\ m_numeraire m' = m_numeraire m /\
  m_uvars m' = m_uvars m /\ m_upars m' = m_upars m /\ m_ueqs m' = m_ueqs m.

Definition eq_frame (m m' : model) : Prop :=
  frame m m' /\ m_vars m' = m_vars m /\ m_pars m' = m_pars m.

Lemma add_sympy_spec parse m0 m q a ow :
  eq_frame m0 m -> represents (m_eqs m) a ->
  let p := parser_of parse m0 (m_vars m0) (m_pars m0) in
  (exists n v s', sympy_request p q a = Some (n, v) /\ (ow = true \/ ~ In n (names_of a)) /\
                  add_sympy_equation parse m (PEqn q) ow = (s', Ok tt) /\ eq_frame m0 s' /\ m_eqs s' = dset n v (m_eqs m)) \/
  (exists e s', add_sympy_equation parse m (PEqn q) ow = (s', Err e) /\ eq_frame m0 s' /\ m_eqs s' = m_eqs m /\
                (sympy_request p q a = None \/ exists n v, sympy_request p q a = Some (n, v) /\ ow = false /\ In n (names_of a))).
Proof.
  intros F Hr. pose proof F as ((F1 & F2 & F3 & F4 & F5 & F6) & F7 & F8). simpl.
  unfold add_sympy_equation, sympy_request, parser_of. simpl. rewrite F1, F3, F7, F8.
  destruct (parse (m_vars m0) (m_pars m0) (m_coords m0) (m_numeraire m0) (q_text q)) as [[id dims]|].
  - assert (L : length (m_eqs m) = length (names_of a)).
    { destruct Hr as (K & _). rewrite <- K. unfold dkeys. now rewrite map_length. }
    rewrite L.
    set (v := RSym _ _).
    destruct (@add_object_spec _ _ _ (q_name q) v ow Hr) as [(E & O)|(E & O & Hin)]; rewrite E.
    + left. exists (q_name q), v. eexists. repeat split; simpl; eauto.
    + right. exists ValueError. eexists. repeat split; simpl; eauto. right. exists (q_name q), v. auto.
  - right. exists ValueError, m. auto.
Qed.

Lemma add_text_spec m0 m x a ow :
  eq_frame m0 m -> represents (m_eqs m) a ->
  (exists n v s', any_request x a = Some (n, v) /\ (ow = true \/ ~ In n (names_of a)) /\
                  add_pytensor_equation m x ow = (s', Ok tt) /\ eq_frame m0 s' /\ m_eqs s' = dset n v (m_eqs m)) \/
  (exists e s', add_pytensor_equation m x ow = (s', Err e) /\ eq_frame m0 s' /\ m_eqs s' = m_eqs m /\
                (any_request x a = None \/ exists n v, any_request x a = Some (n, v) /\ ow = false /\ In n (names_of a))).
Proof.
  intros F Hr. pose proof F as ((F1 & F2 & F3 & F4 & F5 & F6) & F7 & F8).
  unfold add_pytensor_equation, any_request. destruct x as [o|q|].
  - destruct (@add_object_spec _ _ _ (o_name o) (RObj o) ow Hr) as [(E & O)|(E & O & Hin)]; rewrite E.
    + left. exists (o_name o), (RObj o). eexists. repeat split; simpl; eauto.
    + right. exists ValueError. eexists. repeat split; simpl; eauto. right. exists (o_name o), (RObj o). auto.
  - destruct (@add_object_spec _ _ _ (q_name q) (RText q) ow Hr) as [(E & O)|(E & O & Hin)]; rewrite E.
    + left. exists (q_name q), (RText q). eexists. repeat split; simpl; eauto.
    + right. exists ValueError. eexists. repeat split; simpl; eauto. right. exists (q_name q), (RText q). auto.
  - right. exists AttributeError, m. auto.
Qed.

Lemma frame_refl m : frame m m.
Proof. repeat split. Qed.
Lemma eq_frame_refl m : eq_frame m m.
Proof. repeat split. Qed.

(** C19: one call. *)
Lemma c19_call__p :
  forall (parse : parser) (m : model) (a : regs) (o : op),
  holds m a ->
  exists a' ok,
    call_spec (m_sympy m) (fun vars pars => parse vars pars (m_coords m) (m_numeraire m))
              (m_vars m) (m_pars m) a o a' ok /\
    holds (fst (run_op parse m o)) a' /\
    (ok = true -> snd (run_op parse m o) = Ok tt) /\
    (ok = false -> exists e, snd (run_op parse m o) = Err e).
Proof.
  intros parse m a o (Hv & Hp & He).
  assert (Fl : forall (r : res unit) b, ok_flag r b -> (b = true -> r = Ok tt) /\ (b = false -> exists e, r = Err e)).
  { intros r [|] H; simpl in H; split; intros; try discriminate; auto. destruct H as ([] & H). auto. }
  destruct o as [x ow|x ow|x ow|x ow|x ow|x ow|x ow].
  - (* AddVar *)
    cbn [run_op]. unfold add_variable. pose proof (validate_objects KVar [x]) as V.
    destruct (objects_of KVar [x]) as [os|] eqn:Eo.
    + simpl in V. destruct (validate_obj KVar x) as [o|e]; [|discriminate]. simpl in V. injection V as <-.
      destruct (@add_objects_spec _ _ [o] ow Hv) as (a' & b & A & R & Fg). unfold add_objects, loop in R, Fg.
      destruct (add_object (m_vars m) (o_name o) o ow) as [d [[]|e]].
      * exists (MkRegs a' (r_pars a) (r_eqs a)), b. split; [constructor; rewrite Eo; exact A|].
        split; [split; [|split]; simpl in *; assumption|]. exact (Fl _ _ Fg).
      * exists (MkRegs a' (r_pars a) (r_eqs a)), b. split; [constructor; rewrite Eo; exact A|].
        split; [split; [|split]; simpl in *; assumption|]. exact (Fl _ _ Fg).
    + destruct V as (e & V). simpl in V. exists a, false. split.
      * destruct a. apply spec_var. rewrite Eo. simpl. auto.
      * destruct (validate_obj KVar x) as [o|e']; [discriminate|]. simpl.
        split; [split; [|split]; assumption|]. split; [discriminate|]. eauto.
  - (* AddVars *)
    cbn [run_op]. unfold add_variables. pose proof (validate_objects KVar (listed x)) as V.
    change (ensure_sequence x) with (listed x).
    destruct (objects_of KVar (listed x)) as [os|] eqn:Eo.
    + rewrite V. destruct (@add_objects_spec _ _ os ow Hv) as (a' & b & A & R & Fg).
      destruct (add_objects (m_vars m) os ow) as [d r].
      exists (MkRegs a' (r_pars a) (r_eqs a)), b. split; [constructor; rewrite Eo; exact A|].
      split; [split; [|split]; simpl in *; assumption|]. exact (Fl _ _ Fg).
    + destruct V as (e & V). rewrite V. exists a, false. split.
      * destruct a. apply spec_vars. rewrite Eo. simpl. auto.
      * split; [split; [|split]; assumption|]. split; [discriminate|]. simpl. eauto.
  - (* AddPar *)
    cbn [run_op]. unfold add_parameter. pose proof (validate_objects KPar [x]) as V.
    destruct (objects_of KPar [x]) as [os|] eqn:Eo.
    + simpl in V. destruct (validate_obj KPar x) as [o|e]; [|discriminate]. simpl in V. injection V as <-.
      destruct (@add_objects_spec _ _ [o] ow Hp) as (a' & b & A & R & Fg). unfold add_objects, loop in R, Fg.
      destruct (add_object (m_pars m) (o_name o) o ow) as [d [[]|e]].
      * exists (MkRegs (r_vars a) a' (r_eqs a)), b. split; [constructor; rewrite Eo; exact A|].
        split; [split; [|split]; simpl in *; assumption|]. exact (Fl _ _ Fg).
      * exists (MkRegs (r_vars a) a' (r_eqs a)), b. split; [constructor; rewrite Eo; exact A|].
        split; [split; [|split]; simpl in *; assumption|]. exact (Fl _ _ Fg).
    + destruct V as (e & V). simpl in V. exists a, false. split.
      * destruct a. apply spec_par. rewrite Eo. simpl. auto.
      * destruct (validate_obj KPar x) as [o|e']; [discriminate|]. simpl.
        split; [split; [|split]; assumption|]. split; [discriminate|]. eauto.
  - (* AddPars *)
    cbn [run_op]. unfold add_parameters. pose proof (validate_objects KPar (listed x)) as V.
    change (ensure_sequence x) with (listed x).
    destruct (objects_of KPar (listed x)) as [os|] eqn:Eo.
    + rewrite V. destruct (@add_objects_spec _ _ os ow Hp) as (a' & b & A & R & Fg).
      destruct (add_objects (m_pars m) os ow) as [d r].
      exists (MkRegs (r_vars a) a' (r_eqs a)), b. split; [constructor; rewrite Eo; exact A|].
      split; [split; [|split]; simpl in *; assumption|]. exact (Fl _ _ Fg).
    + destruct V as (e & V). rewrite V. exists a, false. split.
      * destruct a. apply spec_pars. rewrite Eo. simpl. auto.
      * split; [split; [|split]; assumption|]. split; [discriminate|]. simpl. eauto.
  - (* AddSymEq *)
    cbn [run_op]. destruct x as [o|q|].
    + exists a, false. split; [destruct a; apply spec_symeq; simpl; auto|].
      simpl. split; [split; [|split]; assumption|]. split; [discriminate|]. eauto.
    + destruct (@loop_additions _ equation _ m_eqs (fun m q => add_sympy_equation parse m (PEqn q) ow)
                 (sympy_request (parser_of parse m (m_vars m) (m_pars m))) ow (eq_frame m))
        with (l := [q]) (s := m) (a := r_eqs a) as (a' & b & A & F & R & Fg).
      * intros s q' a0 Hf Hr. exact (@add_sympy_spec parse _ _ q' _ ow Hf Hr).
      * apply eq_frame_refl.
      * exact He.
      * exists (MkRegs (r_vars a) (r_pars a) a'), b.
        split; [apply spec_symeq; exact A|]. cbn [loop] in *.
        destruct (add_sympy_equation parse m (PEqn q) ow) as [s' [[]|e]]; cbn [fst snd] in *.
        -- destruct F as (F & Fv & Fp). split; [|exact (Fl _ _ Fg)].
           split; [|split]; cbn [r_vars r_pars r_eqs]; try (rewrite Fv); try (rewrite Fp); assumption.
        -- destruct F as (F & Fv & Fp). split; [|exact (Fl _ _ Fg)].
           split; [|split]; cbn [r_vars r_pars r_eqs]; try (rewrite Fv); try (rewrite Fp); assumption.
    + exists a, false. split; [destruct a; apply spec_symeq; simpl; auto|].
      simpl. split; [split; [|split]; assumption|]. split; [discriminate|]. eauto.
  - (* AddPytEq *)
    cbn [run_op].
    destruct (@loop_additions _ pyobj _ m_eqs (fun m x => add_pytensor_equation m x ow) any_request ow (eq_frame m))
      with (l := [x]) (s := m) (a := r_eqs a) as (a' & b & A & F & R & Fg).
    + intros s q' a0 Hf Hr. exact (@add_text_spec _ _ q' _ ow Hf Hr).
    + apply eq_frame_refl.
    + exact He.
    + exists (MkRegs (r_vars a) (r_pars a) a'), b.
      split; [apply spec_pyteq; exact A|]. cbn [loop] in *.
      destruct (add_pytensor_equation m x ow) as [s' [[]|e]]; cbn [fst snd] in *.
      * destruct F as (F & Fv & Fp). split; [|exact (Fl _ _ Fg)].
        split; [|split]; cbn [r_vars r_pars r_eqs]; try (rewrite Fv); try (rewrite Fp); assumption.
      * destruct F as (F & Fv & Fp). split; [|exact (Fl _ _ Fg)].
        split; [|split]; cbn [r_vars r_pars r_eqs]; try (rewrite Fv); try (rewrite Fp); assumption.
  - (* AddEqs *)
    cbn [run_op]. unfold add_equations. change (ensure_sequence x) with (listed x).
    pose proof (validate_equations (listed x)) as V.
    destruct (equations_of (listed x)) as [qs|] eqn:Eq.
    + destruct V as (V & El). rewrite V, El.
      assert (Lp : forall body : model -> pyobj -> outcome model, forall l s, loop body s (map PEqn l) = loop (fun s q => body s (PEqn q)) s l).
      { intros body. induction l as [|q l IH]; intros s; simpl; auto. destruct (body s (PEqn q)) as [s' [u|e]]; auto. }
      rewrite Lp.
      destruct (@loop_additions _ equation _ m_eqs
                  (fun s q => if m_sympy s then add_sympy_equation parse s (PEqn q) ow else add_pytensor_equation s (PEqn q) ow)
                  (if m_sympy m then sympy_request (parser_of parse m (m_vars m) (m_pars m)) else text_request) ow (eq_frame m))
        with (l := qs) (s := m) (a := r_eqs a) as (a' & b & A & F & R & Fg).
      * intros s q' a0 Hf Hr. pose proof Hf as ((_ & Fs & _) & _). rewrite Fs. destruct (m_sympy m).
        -- exact (@add_sympy_spec parse _ _ q' _ ow Hf Hr).
        -- exact (@add_text_spec _ _ (PEqn q') _ ow Hf Hr).
      * apply eq_frame_refl.
      * exact He.
      * exists (MkRegs (r_vars a) (r_pars a) a'), b.
        split; [apply spec_eqs; rewrite Eq; exact A|].
        destruct F as (F & Fv & Fp). split; [|exact (Fl _ _ Fg)].
        split; [|split]; cbn [r_vars r_pars r_eqs]; try (rewrite Fv); try (rewrite Fp); assumption.
    + destruct V as (e & V). rewrite V. exists a, false. split.
      * destruct a. apply spec_eqs. rewrite Eq. simpl. auto.
      * split; [split; [|split]; assumption|]. split; [discriminate|]. simpl. eauto.
Qed.

Lemma c19_history__p :
  forall (parse : parser) (m : model) (a : regs) (h : list op) (o : op),
  holds m a ->
  let m1 := run parse m h in
  exists a1 a2 ok,
    holds m1 a1 /\
    call_spec (m_sympy m1) (fun vars pars => parse vars pars (m_coords m1) (m_numeraire m1))
              (m_vars m1) (m_pars m1) a1 o a2 ok /\
    holds (run parse m (h ++ [o])%list) a2 /\
    (ok = true <-> snd (run_op parse m1 o) = Ok tt).
Proof.
  intros parse m a h o H m1.
  assert (X : exists a1, holds m1 a1).
  { subst m1. clear o. revert m a H. induction h as [|o h IH]; intros m a H.
    - exists a. exact H.
    - destruct (@c19_call__p parse m _ o H) as (a' & ok & _ & H' & _).
      destruct (IH _ _ H') as (a1 & H1). exists a1. exact H1. }
  destruct X as (a1 & H1).
  destruct (@c19_call__p parse m1 _ o H1) as (a2 & ok & C & H2 & T & F).
  exists a1, a2, ok. split; [exact H1|]. split; [exact C|]. split.
  - unfold run. rewrite fold_left_app. exact H2.
  - split; [exact T|]. intros E. destruct ok; auto. destruct (F eq_refl) as (e & E'). congruence.
Qed.

Lemma additions_inv {V} (Q : string -> V -> Prop) ow a l a' b :
  additions ow a l a' b ->
  (forall n v, val_at a n = Some v -> Q n v) ->
  (forall r x n v, In r l -> r x = Some (n, v) -> Q n v) ->
  forall n v, val_at a' n = Some v -> Q n v.
Proof.
  induction 1 as [a|a r l n v a' b E O A IH|a r l n v E O Hin|a r l E]; intros Ha Hl; auto.
  apply IH.
  - intros k w. simpl. destruct (string_dec k n) as [->|Hn].
    + intros X. injection X as <-. eapply Hl; [left; reflexivity|exact E].
    + apply Ha.
  - intros r0 x k w Hr. apply Hl. now right.
Qed.

Lemma objects_of_kind k l os : objects_of k l = Some os -> forall o, In o os -> o_kind o = k.
Proof.
  revert os. induction l as [|x l IH]; simpl; intros os H o Ho.
  - injection H as <-. destruct Ho.
  - destruct x as [o1|q|]; try discriminate. destruct (objects_of k l) as [os'|]; [|discriminate].
    destruct (o_kind o1) eqn:Ek, k; simpl in H; try discriminate; injection H as <-;
      destruct Ho as [<-|Ho]; auto; eapply IH; eauto.
Qed.

Lemma serve_objects k ow a l a' b :
  serve ow a (option_map (map object_request) (objects_of k l)) a' b ->
  (forall n o, val_at a n = Some o -> o_name o = n /\ o_kind o = k) ->
  forall n o, val_at a' n = Some o -> o_name o = n /\ o_kind o = k.
Proof.
  destruct (objects_of k l) as [os|] eqn:E; simpl.
  - intros A Ha. refine (@additions_inv _ _ _ _ _ _ _ A Ha _).
    intros r x n o Hr Ho. apply in_map_iff in Hr as (o' & <- & Ho'). unfold object_request in Ho.
    injection Ho as E1 E2. subst. split; auto. eapply objects_of_kind; eauto.
  - intros (-> & _). auto.
Qed.

Definition filed (a : regs) : Prop :=
  (forall n o, val_at (r_vars a) n = Some o -> o_name o = n /\ o_kind o = KVar) /\
  (forall n o, val_at (r_pars a) n = Some o -> o_name o = n /\ o_kind o = KPar) /\
  (forall n q, val_at (r_eqs a) n = Some q -> reqn_name q = n).

Lemma sympy_request_name p q x n v : sympy_request p q x = Some (n, v) -> reqn_name v = n.
Proof.
  unfold sympy_request. destruct (p (q_text q)) as [[id dims]|]; [|discriminate].
  intros E. injection E as <- <-. reflexivity.
Qed.

Lemma serve_eqs (f : equation -> request reqn) ow a l a' b :
  (forall q x n v, f q x = Some (n, v) -> reqn_name v = n) ->
  serve ow a (option_map (map f) (equations_of l)) a' b ->
  (forall n q, val_at a n = Some q -> reqn_name q = n) ->
  forall n q, val_at a' n = Some q -> reqn_name q = n.
Proof.
  intros Hf. destruct (equations_of l) as [qs|] eqn:E; simpl.
  - intros A Ha. refine (@additions_inv _ _ _ _ _ _ _ A Ha _).
    intros r x n o Hr Ho. apply in_map_iff in Hr as (q & <- & Hq). eauto.
  - intros (-> & _). auto.
Qed.

Lemma call_filed sympy p vars pars a o a' ok :
  call_spec sympy p vars pars a o a' ok -> filed a -> filed a'.
Proof.
  intros C (F1 & F2 & F3).
  destruct C as [a x ow v' ok S|a x ow v' ok S|a x ow v' ok S|a x ow v' ok S|a x ow v' ok S|a x ow v' ok S|a x ow v' ok S].
  - split; [|split]; [|exact F2|exact F3]; cbn [r_vars r_pars r_eqs]. exact (@serve_objects _ _ _ _ _ _ S F1).
  - split; [|split]; [|exact F2|exact F3]; cbn [r_vars r_pars r_eqs]. exact (@serve_objects _ _ _ _ _ _ S F1).
  - split; [|split]; [exact F1| |exact F3]; cbn [r_vars r_pars r_eqs]. exact (@serve_objects _ _ _ _ _ _ S F2).
  - split; [|split]; [exact F1| |exact F3]; cbn [r_vars r_pars r_eqs]. exact (@serve_objects _ _ _ _ _ _ S F2).
  - split; [|split]; [exact F1|exact F2|]; cbn [r_vars r_pars r_eqs].
    refine (@serve_eqs _ _ _ _ _ _ _ S F3). intros q y n v. apply sympy_request_name.
  - split; [|split]; [exact F1|exact F2|]; cbn [r_vars r_pars r_eqs].
    refine (@additions_inv _ _ _ _ _ _ _ S F3 _). intros r y n v [<-|[]]. unfold any_request.
    destruct x; try discriminate; intros E; injection E as <- <-; reflexivity.
  - split; [|split]; [exact F1|exact F2|]; cbn [r_vars r_pars r_eqs].
    refine (@serve_eqs _ _ _ _ _ _ _ S F3). intros q y n v. destruct sympy; [apply sympy_request_name|].
    unfold text_request. intros E; injection E as <- <-; reflexivity.
Qed.

Definition omap_of {V} (d : dict V) : omap V := MkOmap (fun n => dget n d) (dkeys d).
Definition regs_of (m : model) : regs := MkRegs (omap_of (m_vars m)) (omap_of (m_pars m)) (omap_of (m_eqs m)).
Lemma represents_omap_of {V} (d : dict V) : NoDup (dkeys d) -> represents d (omap_of d).
Proof. intros H. repeat split; auto. Qed.

Lemma well_filed_holds m : well_filed m -> holds m (regs_of m) /\ filed (regs_of m).
Proof.
  intros (N1 & N2 & N3 & F1 & F2 & F3). split; [split; [|split]; now apply represents_omap_of|].
  split; [|split]; assumption.
Qed.
Lemma holds_well_filed m a : holds m a -> filed a -> well_filed m.
Proof.
  intros ((K1 & N1 & G1) & (K2 & N2 & G2) & (K3 & N3 & G3)) (F1 & F2 & F3).
  unfold well_filed. rewrite K1, K2, K3. repeat split; auto; intros.
  - rewrite G1 in H. eapply F1; eauto.
  - rewrite G1 in H. eapply F1; eauto.
  - rewrite G2 in H. eapply F2; eauto.
  - rewrite G2 in H. eapply F2; eauto.
  - rewrite G3 in H. eapply F3; eauto.
Qed.

Lemma run_op_well_filed parse m o : well_filed m -> well_filed (fst (run_op parse m o)).
Proof.
  intros H. apply well_filed_holds in H as (H & F).
  destruct (@c19_call__p parse m _ o H) as (a' & ok & C & H' & _).
  exact (holds_well_filed H' (call_filed C F)).
Qed.

Lemma c19_unique_names__p :
  forall (parse : parser) (m : model) (h : list op), well_filed m -> well_filed (run parse m h).
Proof.
  intros parse m h. revert m. induction h as [|o h IH]; intros m H; [exact H|].
  apply (IH (fst (run_op parse m o))). now apply run_op_well_filed.
Qed.

Lemma c19_readd_rejected__p :
  forall (parse : parser) (m : model) (o : mobj) (q : equation),
  (In (o_name o) (dkeys (m_vars m)) -> o_kind o = KVar ->
     run_op parse m (AddVar (PObj o) false) = (m, Err ValueError) /\
     run_op parse m (AddVars (One (PObj o)) false) = (m, Err ValueError)) /\
  (In (o_name o) (dkeys (m_pars m)) -> o_kind o = KPar ->
     run_op parse m (AddPar (PObj o) false) = (m, Err ValueError) /\
     run_op parse m (AddPars (One (PObj o)) false) = (m, Err ValueError)) /\
  (In (q_name q) (dkeys (m_eqs m)) ->
     run_op parse m (AddSymEq (PEqn q) false) = (m, Err ValueError) /\
     run_op parse m (AddPytEq (PEqn q) false) = (m, Err ValueError) /\
     run_op parse m (AddEqs (One (PEqn q)) false) = (m, Err ValueError)).
Proof.
  intros parse m o q.
  assert (Sv : set_vars m (m_vars m) = m) by (destruct m; reflexivity).
  assert (Sp : set_pars m (m_pars m) = m) by (destruct m; reflexivity).
  assert (Se : set_eqs m (m_eqs m) = m) by (destruct m; reflexivity).
  split; [|split].
  - intros Hin K. apply mem_str_In in Hin.
    unfold run_op, add_variable, add_variables, ensure_sequence, map_res, validate_obj. rewrite K. simpl.
    unfold add_objects, loop, add_object. rewrite Hin. simpl. rewrite Sv. auto.
  - intros Hin K. apply mem_str_In in Hin.
    unfold run_op, add_parameter, add_parameters, ensure_sequence, map_res, validate_obj. rewrite K. simpl.
    unfold add_objects, loop, add_object. rewrite Hin. simpl. rewrite Sp. auto.
  - intros Hin. apply mem_str_In in Hin.
    assert (A1 : add_sympy_equation parse m (PEqn q) false = (m, Err ValueError)).
    { unfold add_sympy_equation; simpl. destruct (parse _ _ _ _ _) as [[id dims]|]; auto.
      unfold add_object. rewrite Hin. simpl. now rewrite Se. }
    assert (A2 : add_pytensor_equation m (PEqn q) false = (m, Err ValueError)).
    { unfold add_pytensor_equation, add_object. rewrite Hin. simpl. now rewrite Se. }
    cbn [run_op]. unfold add_equations. cbn [ensure_sequence map_res validate_eqn bind loop]. rewrite A1, A2. destruct (m_sympy m); auto.
Qed.

(** The abstract additions are a function of their inputs. *)
Lemma c19_spec_deterministic__p :
  forall (V : Type) (ow : bool) (a : omap V) (l : list (request V)) (a1 a2 : omap V) (b1 b2 : bool),
  additions ow a l a1 b1 -> additions ow a l a2 b2 -> a1 = a2 /\ b1 = b2.
Proof.
  intros V ow a l a1 a2 b1 b2 H. revert a2 b2.
  induction H as [a|a r l n v a' b E O A IH|a r l n v E O Hin|a r l E]; intros a2 b2 H2; inversion H2; subst; auto;
    try congruence.
  - assert (X : Some (n, v) = Some (n0, v0)) by congruence. injection X as <- <-. auto.
  - exfalso. assert (X : Some (n, v) = Some (n0, v0)) by congruence. injection X as <- <-.
    destruct O; [discriminate|auto].
  - exfalso. assert (X : Some (n, v) = Some (n0, v0)) by congruence. injection X as <- <-.
    match goal with H : _ \/ _ |- _ => destruct H; [discriminate|auto] end.
Qed.

(** C20 *)
Lemma c20_single_atomic__p :
  forall (parse : parser) (m m' : model) (x : pyobj) (ow : bool) (e : exn) (f : pyobj -> bool -> op),
  f = AddVar \/ f = AddPar \/ f = AddSymEq \/ f = AddPytEq ->
  run_op parse m (f x ow) = (m', Err e) -> m' = m.
Proof.
  intros parse m m' x ow e f Hf H.
  assert (Sv : set_vars m (m_vars m) = m) by (destruct m; reflexivity).
  assert (Sp : set_pars m (m_pars m) = m) by (destruct m; reflexivity).
  assert (Se : set_eqs m (m_eqs m) = m) by (destruct m; reflexivity).
  assert (AO : forall V (d d' : dict V) n v e, add_object d n v ow = (d', Err e) -> d' = d).
  { intros V d d' n v e0. unfold add_object. destruct (_ && _); intros E; inversion E; auto. }
  destruct Hf as [->|[->|[->| ->]]]; simpl in H.
  - unfold add_variable in H. destruct (validate_obj KVar x); [|congruence].
    destruct (add_object _ _ _ _) as [d r] eqn:E. inversion H; subst. apply AO in E. congruence.
  - unfold add_parameter in H. destruct (validate_obj KPar x); [|congruence].
    destruct (add_object _ _ _ _) as [d r] eqn:E. inversion H; subst. apply AO in E. congruence.
  - unfold add_sympy_equation in H. destruct (validate_eqn x); [|congruence].
    destruct (parse _ _ _ _ _) as [[id dims]|]; [|congruence].
    destruct (add_object _ _ _ _) as [d r] eqn:E. inversion H; subst. apply AO in E. congruence.
  - unfold add_pytensor_equation in H. destruct x; [| |congruence];
    destruct (add_object _ _ _ _) as [d r] eqn:E; inversion H; subst; apply AO in E; congruence.
Qed.

Lemma c20_wrong_class_atomic__p :
  forall (parse : parser) (m : model) (l : list pyobj) (ow : bool),
  ((exists x, In x l /\ forall o, x = PObj o -> o_kind o <> KVar) ->
     exists e, run_op parse m (AddVars (Many l) ow) = (m, Err e)) /\
  ((exists x, In x l /\ forall o, x = PObj o -> o_kind o <> KPar) ->
     exists e, run_op parse m (AddPars (Many l) ow) = (m, Err e)) /\
  ((exists x, In x l /\ forall q, x <> PEqn q) ->
     exists e, run_op parse m (AddEqs (Many l) ow) = (m, Err e)).
Proof.
  intros parse m l ow.
  assert (O : forall k, (exists x, In x l /\ forall o, x = PObj o -> o_kind o <> k) -> exists e, map_res (validate_obj k) l = Err e).
  { intros k (x & Hin & Hx). pose proof (validate_objects k l) as V.
    destruct (map_res (validate_obj k) l) as [os|e] eqn:E; [|eauto]. exfalso.
    apply map_res_ok_Forall2 in E. clear V. induction E as [|y o l os Ey E IH]; [destruct Hin|].
    destruct Hin as [->|Hin]; [|auto].
    unfold validate_obj in Ey. destruct x as [o'|q|]; try discriminate.
    destruct (kind_eqb (o_kind o') k) eqn:Ek; [|discriminate].
    apply (Hx o' eq_refl). destruct (o_kind o'), k; simpl in Ek; congruence. }
  split; [|split].
  - intros H. destruct (O KVar H) as (e & E). simpl. unfold add_variables. simpl. rewrite E. eauto.
  - intros H. destruct (O KPar H) as (e & E). simpl. unfold add_parameters. simpl. rewrite E. eauto.
  - intros (x & Hin & Hx). simpl. unfold add_equations. simpl.
    destruct (map_res validate_eqn l) as [qs|e] eqn:E; [|eauto]. exfalso.
    apply map_res_ok_Forall2 in E. clear O. induction E as [|y o l os Ey E IH]; [destruct Hin|].
    destruct Hin as [->|Hin]; [|auto]. destruct x; try discriminate. eapply Hx; reflexivity.
Qed.

Definition empty_model (c : coords) (sympy : bool) : model := MkModel c sympy None [] [] [] [] [] [].
Definition scalar (k : kind) (n : string) : mobj := MkObj k n [] [] n n n n true true 0.

Lemma c20_batch_refuted__p :
  exists (m m' : model) (l : list pyobj),
    (forall parse, run_op parse m (AddVars (Many l) false) = (m', Err ValueError)) /\
    (exists o, In (PObj o) l /\ dget (o_name o) (m_vars m) = None /\ dget (o_name o) (m_vars m') = Some o) /\
    (exists parse qs mq, run_op parse m (AddEqs (Many (map PEqn qs)) false) = (mq, Err ValueError) /\
                         dkeys (m_eqs mq) = ["market"]).
Proof.
  exists (set_vars (empty_model [] true) [("y", scalar KVar "y")]),
         (set_vars (empty_model [] true) [("y", scalar KVar "y"); ("x", scalar KVar "x")]),
         [PObj (scalar KVar "x"); PObj (scalar KVar "y")].
  split; [reflexivity|]. split.
  - exists (scalar KVar "x"). simpl. auto.
  - exists (fun _ _ _ _ t => if String.eqb t "x = (" then None else Some (0, [])),
           [MkEqn "market" "x = y" None; MkEqn "profit" "x = (" None].
    eexists. split; reflexivity.
Qed.
