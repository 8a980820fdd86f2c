(** Proofs for C24 and C94: whole calls of simulate. *)
From Verif Require Import Py PyStr NdArray M_Primitives M_Utilities M_Simulate M_SimResult M_Build M_Results M_Solve M_Run.
From Verif Require Import S_Results S_Run L_Simulate L_Results L_Results2.
Local Open Scope string_scope.
Local Open Scope list_scope.

Lemma names_same {V Sys Jac Loss Grad Hess Hessp} (m : model V Sys Jac Loss Grad Hess Hessp) (d : dict (arr V)) :
  right_names m d <-> (forall n, In n (dkeys d) <-> In n (map o_name (m_variables m) ++ map o_name (m_parameters m))).
Proof.
  unfold right_names. split; intros H n; rewrite H; rewrite in_app_iff, !in_map_iff; firstorder.
Qed.

Lemma run_fresh {V Sys Jac Loss Grad Hess Hessp} (w : world V Sys Jac Loss Grad Hess Hessp) d k : not_stored d k ->
  snd (run w d k) = computed w k.
Proof. intros H. unfold run. apply c28_fresh__p. exact H. Qed.

Lemma run_err {V Sys Jac Loss Grad Hess Hessp} (w : world V Sys Jac Loss Grad Hess Hessp) d k e : snd (run w d k) = Err e -> fst (run w d k) = d.
Proof.
  unfold run, simulate_io. destruct (negb (c_overwrite k) && dmem (call_name k ++ ".pkl") d); [reflexivity|].
  destruct (computed w k) as [r|e']; [|reflexivity].
  destruct (c_save k); [|reflexivity]. destruct (write_results _ _ _ _ _); [discriminate|reflexivity].
Qed.

Lemma flat_total {V} (d : dict (arr V)) vars params : vars <> [] -> params <> [] ->
  (forall o, In o vars -> exists a, dget (o_name o) d = Some a) -> (forall o, In o params -> exists a, dget (o_name o) d = Some a) ->
  exists xt, variable_dict_to_flat_array d vars params = Ok xt.
Proof.
  intros Hv Hp A B.
  assert (C : forall objs, objs <> [] -> (forall o, In o objs -> exists a, dget (o_name o) d = Some a) -> exists x, concat_named d objs = Ok x).
  { intros objs Hne Hi. unfold concat_named.
    rewrite map_res_ext with (g := fun o => Ok (match dget (o_name o) d with Some a => adata a | None => [] end)).
    - rewrite map_res_total. cbn [bind]. destruct objs; [congruence|]. eexists. reflexivity.
    - intros o Ho. unfold dgetitem. destruct (Hi o Ho) as (a & ->). reflexivity. }
  unfold variable_dict_to_flat_array. destruct (C vars Hv A) as (x & ->). destruct (C params Hp B) as (t & ->). eexists. reflexivity.
Qed.

Lemma c24_simulate_refuses__p :
  forall (V Sys Jac Loss Grad Hess Hessp : Type) (w : world V Sys Jac Loss Grad Hess Hessp) (d : dir (outcome V))
         (k : call V Sys Jac Loss Grad Hess Hessp) (x0 : dict (arr V)),
  not_stored d k -> falsy (m_compiled (c_model k)) = false ->
  c_state k = SDict x0 -> ~ right_names (c_model k) x0 ->
  run w d k = (d, Err ValueError).
Proof.
  intros V Sys Jac Loss Grad Hess Hessp w d k x0 Hs Hc Hx Hn.
  assert (E : computed w k = Err ValueError).
  { unfold computed. rewrite Hc. unfold simulate. rewrite Hx. cbn [read_state bind].
    rewrite (proj2 (@c24_initial_state_names__p V (w_add w) (w_mul w) (m_variables (c_model k)) (m_parameters (c_model k)) x0 (c_values k) (c_delta k) (c_delta_pct k))).
    - reflexivity.
    - rewrite <- names_same. exact Hn. }
  pose proof (run_fresh w Hs) as F. rewrite E in F. pose proof (run_err _ _ _ F) as G.
  destruct (run w d k). cbn [fst snd] in *. congruence.
Qed.

Lemma c24_simulate_accepts__p :
  forall (V Sys Jac Loss Grad Hess Hessp : Type) (w : world V Sys Jac Loss Grad Hess Hessp) (d : dir (outcome V))
         (k : call V Sys Jac Loss Grad Hess Hessp) (x0 final : dict (arr V)),
  not_stored d k -> falsy (m_compiled (c_model k)) = false ->
  c_state k = SDict x0 -> m_variables (c_model k) <> nil -> m_parameters (c_model k) <> nil ->
  right_names (c_model k) x0 ->
  create_final_param_dict (w_add w) (w_mul w) x0 (c_values k) (c_delta k) (c_delta_pct k) = Ok final ->
  exists theta,
    theta = List.concat (map (fun o => match dget (o_name o) final with Some a => adata a | None => nil end) (m_parameters (c_model k))) /\
    (* with the Euler approximation, its function is called with the state and these values *)
    (use_euler (c_options k) = true ->
       forall e, w_euler w x0 theta (n_iter_euler (c_options k)) = Err e -> run w d k = (d, Err e)) /\
    (* without, the solver is *)
    (use_euler (c_options k) = false -> use_optimizer (c_options k) = true -> optimizer_mode (c_options k) = "root"%string ->
       in_compiled "root" (m_compiled (c_model k)) = true ->
       exists P, rp_theta P = theta /\ forall e, w_root w P = Err e -> run w d k = (d, Err e)) /\
    (use_euler (c_options k) = false -> use_optimizer (c_options k) = false -> snd (run w d k) = Ok (MkOutcome None None false)).
Proof.
  intros V Sys Jac Loss Grad Hess Hessp w d k x0 final Hs Hc Hx Hv Hp Hn Hf.
  destruct (@c24_right_names_accepted__p V (w_add w) (w_mul w) (m_variables (c_model k)) (m_parameters (c_model k)) x0 (c_values k) (c_delta k) (c_delta_pct k) final Hv Hp (proj1 (names_same _ _) Hn) Hf)
    as (theta & Et & Hall & Ht).
  exists theta. split; [exact Ht|].
  assert (G : forall e, computed w k = Err e -> run w d k = (d, Err e)).
  { intros e E. pose proof (run_fresh w Hs) as F. rewrite E in F. pose proof (run_err _ _ _ F) as G.
    destruct (run w d k). cbn [fst snd] in *. congruence. }
  split; [|split].
  - intros Ue e He. apply G. unfold computed. rewrite Hc. unfold simulate. rewrite Hx. cbn [read_state bind]. rewrite Et. cbn [bind].
    rewrite Ue. unfold euler_start. rewrite He. reflexivity.
  - intros Ue Uo Um Ui.
    assert (X : exists xt, variable_dict_to_flat_array x0 (m_variables (c_model k)) (m_parameters (c_model k)) = Ok xt).
    { apply flat_total; auto; intros o Ho; apply dget_Some_key, Hn; eauto. }
    destruct X as (xt & X).
    exists (MkRoot (if mem_str (m_backend (c_model k)) ["pytensor"; "sympytensor"] then wrap (c_model k) (m_system (c_model k)) else m_system (c_model k))
                   (fst xt) theta
                   (if truthy (pop_default (kw_jac (c_options k)) (Some true))
                    then Some (if mem_str (m_backend (c_model k)) ["pytensor"; "sympytensor"] then wrap (c_model k) (m_jac (c_model k)) else m_jac (c_model k)) else None)).
    split; [reflexivity|]. intros e He. apply G. unfold computed. rewrite Hc. unfold simulate. rewrite Hx. cbn [read_state bind]. rewrite Et. cbn [bind snd fst].
    rewrite Ue. cbn [bind snd fst]. rewrite Uo, Um. cbn [String.eqb Ascii.eqb Bool.eqb]. unfold solve_with_root. rewrite Ui. rewrite andb_false_r.
    rewrite X. cbn [bind fst]. cbv zeta. rewrite He. reflexivity.
  - intros Ue Uo. rewrite (run_fresh w Hs). unfold computed. rewrite Hc. unfold simulate. rewrite Hx. cbn [read_state bind]. rewrite Et. cbn [bind].
    rewrite Ue. cbn [bind snd fst]. rewrite Uo. reflexivity.
Qed.

(** ** C94 *)
Lemma c94_failed_call__p :
  forall (V Sys Jac Loss Grad Hess Hessp : Type) (w : world V Sys Jac Loss Grad Hess Hessp) (d d' : dir (outcome V))
         (k : call V Sys Jac Loss Grad Hess Hessp) (e : exn),
  run w d k = (d', Err e) -> d' = d.
Proof.
  intros V Sys Jac Loss Grad Hess Hessp w d d' k e H. replace d' with (fst (run w d k)) by now rewrite H.
  apply run_err with e. now rewrite H.
Qed.

Lemma c94_one_file__p :
  forall (V Sys Jac Loss Grad Hess Hessp : Type) (w : world V Sys Jac Loss Grad Hess Hessp) (d d' : dir (outcome V))
         (k : call V Sys Jac Loss Grad Hess Hessp) (r : outcome V),
  run w d k = (d', Ok r) ->
  d' = d \/
  (c_save k = true /\ computed w k = Ok r /\
   exists n, dget n d' = Some (Whole r) /\ (forall n', n' <> n -> dget n' d' = dget n' d) /\ (c_overwrite k = false -> dget n d = None)).
Proof.
  intros V Sys Jac Loss Grad Hess Hessp w d d' k r H. unfold run, simulate_io in H.
  destruct (negb (c_overwrite k) && dmem (call_name k ++ ".pkl") d).
  { injection H as <- _. left. reflexivity. }
  destruct (computed w k) as [r0|e] eqn:C; [|discriminate].
  destruct (c_save k) eqn:S; [|injection H as <- _; left; reflexivity].
  right. split; [reflexivity|]. unfold write_results in H.
  destruct (output_name (c_today k) d (Some (call_name k)) (c_overwrite k)) as [n|e] eqn:O; cbn [bind] in H; [|discriminate].
  injection H as <- <-. split; [reflexivity|]. exists n. split; [apply dget_dset_same|]. split.
  - intros n' Hn. rewrite dget_dset. destruct (String.eqb_spec n' n); [congruence|reflexivity].
  - intros Ho. rewrite Ho in O. destruct (output_name_ok (c_today k) d (Some (call_name k))) as (base & ext & j & _ & O' & Hj & _).
    rewrite O in O'. injection O' as ->. apply dmem_false. exact Hj.
Qed.

(** The directory holds exactly the pages of the notebook for these names *)
Definition pages {R} (names : list string) (d : dir R) (b : notebook R) : Prop :=
  forall n, In n names -> dget (n ++ ".pkl") d = option_map Whole (b n) /\ (forall s, ~ In (n ++ "(" ++ s ++ ").pkl")%string (dkeys d)).

Lemma pages_read {R} names (d : dir R) b n : pages names d b -> In n names -> ends_with "pkl" n = false ->
  read_results d n = match b n with Some r => Ok r | None => Err FileNotFoundError end.
Proof.
  intros P Hn He. destruct (P n Hn) as (G & N). destruct (b n) as [r|] eqn:B; cbn [option_map] in G.
  - rewrite read_family with (k := 0); [|exact He|].
    + cbn [attempt]. unfold load. now rewrite G.
    + split.
      * intros j Hj. replace j with 0 by lia. cbn [attempt]. apply dmem_true. eauto.
      * intros x Hx [->|(s & ->)]; [exists 0; split; [lia|reflexivity]|]. exfalso. exact (N s Hx).
  - apply read_family0; [exact He|]. split; [intros; lia|]. intros x Hx [->|(s & ->)]; exfalso.
    + apply dget_Some_key in Hx as (v & Hx). congruence.
    + exact (N s Hx).
Qed.

Lemma sapp_cancel_r a b c : (a ++ c = b ++ c)%string -> a = b.
Proof.
  intros H. revert b H. induction a as [|x a IH]; intros [|y b] H; cbn in H; auto.
  - apply (f_equal slen) in H. cbn [slen] in H. rewrite slen_app in H. cbn in H. lia.
  - apply (f_equal slen) in H. cbn [slen] in H. rewrite slen_app in H. cbn in H. lia.
  - injection H as -> H. f_equal. auto.
Qed.

Lemma pages_write {R} names (d : dir R) b n r : plain_names names -> pages names d b -> In n names ->
  pages names (dset (n ++ ".pkl") (Whole r) d) (noted b n r).
Proof.
  intros (_ & Pn) P Hn m Hm. destruct (P m Hm) as (G & N). split.
  - rewrite dget_dset. unfold noted. destruct (String.eqb_spec m n) as [->|Hne].
    + now rewrite String.eqb_refl.
    + destruct (String.eqb_spec (m ++ ".pkl") (n ++ ".pkl")) as [E|_]; [|exact G]. apply sapp_cancel_r in E. congruence.
  - intros s Hx. apply dkeys_dset_in in Hx as [E|Hx]; [|exact (N s Hx)].
    apply (Pn m n s Hm Hn). symmetry. apply sapp_cancel_r with ".pkl". rewrite !sapp_assoc. exact E.
Qed.

Lemma run_pages {V Sys Jac Loss Grad Hess Hessp} (w : world V Sys Jac Loss Grad Hess Hessp) names d b k :
  plain_names names -> pages names d b -> In (call_name k) names ->
  snd (run w d k) = answers b (call_name k) (c_overwrite k) (computed w k) /\
  pages names (fst (run w d k)) (after b (call_name k) (c_overwrite k) (c_save k) (computed w k)).
Proof.
  intros Pn P Hn. destruct (proj1 Pn _ Hn) as (He & Hd). pose proof (P _ Hn) as (G & N).
  unfold run, simulate_io, answers, after.
  assert (D : dmem (call_name k ++ ".pkl") d = match b (call_name k) with Some _ => true | None => false end).
  { destruct (b (call_name k)); cbn [option_map] in G; [apply dmem_true; eauto|now apply dmem_false]. }
  rewrite D. assert (W : forall r, write_results (c_today k) d r (Some (call_name k)) true = Ok (dset (call_name k ++ ".pkl") (Whole r) d)).
  { intros r. apply write_over; [left; reflexivity|exact He]. }
  destruct (b (call_name k)) as [r|] eqn:B.
  - destruct (c_overwrite k) eqn:O; cbn [negb andb].
    + destruct (computed w k) as [r'|e]; [|split; [reflexivity|exact P]]. destruct (c_save k); [|split; [reflexivity|exact P]].
      rewrite W. split; [reflexivity|]. apply pages_write; auto.
    + cbn [fst snd]. split; [|exact P]. rewrite (pages_read _ P Hn He), B. reflexivity.
  - rewrite andb_false_r. destruct (computed w k) as [r'|e]; [|split; [reflexivity|destruct (c_overwrite k); exact P]].
    destruct (c_save k); [|split; [reflexivity|destruct (c_overwrite k); exact P]].
    assert (W' : write_results (c_today k) d r' (Some (call_name k)) (c_overwrite k) = Ok (dset (call_name k ++ ".pkl") (Whole r') d)).
    { destruct (c_overwrite k); [apply W|].
      apply (@write_for _ (c_today k) (call_name k) 0 d r' (call_name k)); auto; [left; reflexivity|].
      split; [intros; lia|]. intros x Hx [->|(s & ->)]; exfalso; [|exact (N s Hx)].
      apply dget_Some_key in Hx as (v & Hx). cbn in G. congruence. }
    rewrite W'. split; [reflexivity|]. cbn [fst]. destruct (c_overwrite k); apply pages_write; auto.
Qed.

Lemma c94_notebook__p :
  forall (V Sys Jac Loss Grad Hess Hessp : Type) (calls : list (world V Sys Jac Loss Grad Hess Hessp * call V Sys Jac Loss Grad Hess Hessp))
         (names : list string),
  plain_names names -> (forall w k, In (w, k) calls -> In (call_name k) names) ->
  let '(d, results) := session nil calls in
  let '(b, replies) := dialogue (fun _ => None) calls in
  results = replies /\ written names d b.
Proof.
  intros V Sys Jac Loss Grad Hess Hessp calls names Pn.
  assert (Gen : forall (calls : list (world V Sys Jac Loss Grad Hess Hessp * call V Sys Jac Loss Grad Hess Hessp)) d b, pages names d b -> (forall w k, In (w, k) calls -> In (call_name k) names) ->
            snd (session d calls) = snd (dialogue b calls) /\ pages names (fst (session d calls)) (fst (dialogue b calls))).
  { clear calls; intros calls; induction calls as [|(w, k) calls IH]; intros d b P Hc; cbn [session dialogue]; [split; [reflexivity|exact P]|].
    destruct (@run_pages _ _ _ _ _ _ _ w names d b k Pn P (Hc w k (or_introl eq_refl))) as (E & P').
    destruct (run w d k) as (d', r). cbn [fst snd] in E, P'.
    destruct (IH d' _ P' (fun w' k' H => Hc w' k' (or_intror H))) as (E2 & P2).
    destruct (session d' calls) as (d2, rs). destruct (dialogue _ calls) as (b2, rs2). cbn [fst snd] in *. subst. auto. }
  intros Hc. destruct (Gen calls nil (fun _ => None)) as (E & P); [|exact Hc|].
  { intros n Hn. split; [reflexivity|]. intros s []. }
  destruct (session nil calls) as (d, rs). destruct (dialogue _ calls) as (b, rs'). cbn [fst snd] in *. split; [exact E|].
  intros n Hn. apply (@pages_read _ names d b n P Hn). apply (proj1 Pn n Hn).
Qed.

Lemma last_char (c d : ascii) : forall x y, (x ++ String c "")%string = (y ++ String d "")%string -> c = d.
Proof.
  intros x. induction x as [|e x IH]; intros y H.
  - destruct y as [|e' y]; [now injection H|]. cbn in H. injection H as _ H. destruct y; discriminate.
  - destruct y as [|e' y]; cbn in H; injection H as _ H; [destruct x; discriminate|]. now apply IH in H.
Qed.

(** A name that is another one followed by a bracket is taken for its newer result. *)
Lemma c94_brackets_refuted__p :
  forall (V Sys Jac Loss Grad Hess Hessp : Type) (w : world V Sys Jac Loss Grad Hess Hessp) (k1 k2 k3 : call V Sys Jac Loss Grad Hess Hessp)
         (f : string) (r1 r2 : outcome V),
  ends_with "pkl" f = false -> (exists a b c, f = (a ++ String c b)%string /\ c <> "."%char) ->
  call_name k1 = f -> call_name k2 = (f ++ "(1)")%string -> call_name k3 = f ->
  computed w k1 = Ok r1 -> computed w k2 = Ok r2 -> c_save k1 = true -> c_save k2 = true -> c_overwrite k3 = false ->
  exists d, session nil [(w, k1); (w, k2); (w, k3)] = (d, [Ok r1; Ok r2; Ok r2]) /\ dget (f ++ ".pkl")%string d = Some (Whole r1).
Proof.
  intros V Sys Jac Loss Grad Hess Hessp w k1 k2 k3 f r1 r2 He Hd N1 N2 N3 C1 C2 S1 S2 O3.
  assert (He2 : ends_with "pkl" (f ++ "(1)") = false).
  { destruct (ends_with "pkl" (f ++ "(1)")) eqn:E; [|reflexivity]. apply ends_with_spec in E as (t & E). exfalso.
    change "(1)" with ("(1" ++ ")")%string in E. change "pkl" with ("pk" ++ "l")%string in E. rewrite <- !sapp_assoc in E.
    apply last_char in E. discriminate. }
  assert (Hd2 : exists a b c, (f ++ "(1)")%string = (a ++ String c b)%string /\ c <> "."%char).
  { exists f, "1)", "("%char. split; [reflexivity|discriminate]. }
  assert (Dn : (f ++ "(1).pkl" <> f ++ ".pkl")%string).
  { intros E. change "(1).pkl" with ("(1)" ++ ".pkl")%string in E. rewrite <- sapp_assoc in E. apply sapp_cancel_r in E.
    apply (f_equal slen) in E. rewrite slen_app in E. cbn in E. lia. }
  set (d1 := [((f ++ ".pkl")%string, Whole r1)] : dir (outcome V)).
  set (d2 := dset (f ++ "(1).pkl") (Whole r2) d1).
  assert (E1 : run w nil k1 = (d1, Ok r1)).
  { unfold run, simulate_io. cbn [dmem mem_str dkeys map existsb]. rewrite andb_false_r, C1, S1, N1.
    destruct (c_overwrite k1).
    - rewrite (@write_over _ (c_today k1) f nil r1 f); auto. left; reflexivity.
    - rewrite (proj1 (@write_for _ (c_today k1) f 0 nil r1 f (or_introl eq_refl) He Hd (conj (fun j Hj => False_ind _ (Nat.nlt_0_r j Hj)) (fun n (H : In n nil) => False_ind _ H)))).
      reflexivity. }
  assert (Ek : (f ++ "(1)" ++ ".pkl")%string = (f ++ "(1).pkl")%string) by reflexivity.
  assert (E2 : run w d1 k2 = (d2, Ok r2)).
  { unfold run, simulate_io. rewrite N2, sapp_assoc, Ek.
    assert (M : dmem (f ++ "(1).pkl") d1 = false).
    { apply dmem_false. unfold d1. cbn [dget]. destruct (String.eqb_spec (f ++ "(1).pkl") (f ++ ".pkl")); [contradiction|reflexivity]. }
    rewrite M, andb_false_r, C2, S2. 
    destruct (c_overwrite k2).
    - rewrite (@write_over _ (c_today k2) (f ++ "(1)") d1 r2 (f ++ "(1)")); [|left; reflexivity|exact He2]. rewrite sapp_assoc. reflexivity.
    - assert (F : family (f ++ "(1)") 0 d1).
      { split; [intros; lia|]. unfold d1. cbn [dkeys map fst]. intros n [<-|[]] [E|(s & E)]; exfalso.
        - rewrite sapp_assoc, Ek in E. exact (Dn (eq_sym E)).
        - apply (f_equal slen) in E. rewrite !slen_app in E. cbn in E. lia. }
      rewrite (proj1 (@write_for _ (c_today k2) (f ++ "(1)") 0 d1 r2 (f ++ "(1)") (or_introl eq_refl) He2 Hd2 F)).
      cbn [attempt]. rewrite sapp_assoc. reflexivity. }
  assert (F2 : family f 2 d2).
  { split.
    - intros j Hj. apply dmem_true. unfold d2. rewrite dget_dset. destruct j as [|[|j]]; [| |lia]; cbn [attempt].
      + destruct (String.eqb_spec (f ++ ".pkl") (f ++ "(1).pkl")); [eauto|]. unfold d1. cbn [dget]. rewrite String.eqb_refl. eauto.
      + change (numbered f ".pkl" 1) with (f ++ "(1).pkl")%string. rewrite String.eqb_refl. eauto.
    - intros n Hn _. apply dkeys_dset_in in Hn as [->|[<-|[]]]; [exists 1|exists 0]; (split; [lia|reflexivity]). }
  exists d2. split.
  - cbn [session]. rewrite E1, E2. unfold run, simulate_io. rewrite O3, N3.
    assert (M : dmem (f ++ ".pkl") d2 = true) by (apply (proj1 F2 0); lia).
    rewrite M. cbn [negb andb]. rewrite (read_family He F2). cbn [attempt].
    change (numbered f ".pkl" 1) with (f ++ "(1).pkl")%string. unfold load, d2. rewrite dget_dset_same. reflexivity.
  - unfold d2. rewrite dget_dset. destruct (String.eqb_spec (f ++ ".pkl") (f ++ "(1).pkl")) as [E|_]; [exfalso; exact (Dn (eq_sym E))|].
    unfold d1. cbn [dget]. now rewrite String.eqb_refl.
Qed.

(** The given name is the one that is looked up and the one that is written. *)
Lemma c94_given_name__p :
  forall (V Sys Jac Loss Grad Hess Hessp : Type) (w : world V Sys Jac Loss Grad Hess Hessp) (d : dir (outcome V))
         (k : call V Sys Jac Loss Grad Hess Hessp) (n : string),
  c_name k = Some n -> ends_with "pkl" n = false ->
  (forall r, c_overwrite k = true -> c_save k = true -> computed w k = Ok r -> run w d k = (dset (n ++ ".pkl")%string (Whole r) d, Ok r)) /\
  (c_overwrite k = false -> dget (n ++ ".pkl")%string d <> None -> run w d k = (d, read_results d n)).
Proof.
  intros V Sys Jac Loss Grad Hess Hessp w d k n N He. unfold run, simulate_io.
  assert (E : call_name k = n) by (unfold call_name; now rewrite N). rewrite E. split.
  - intros r Ho Hs Hr. rewrite Ho, Hs, Hr. cbn [negb andb]. rewrite (@write_over _ (c_today k) n d r n); auto. left; reflexivity.
  - intros Ho Hd. rewrite Ho. cbn [negb andb]. destruct (dget (n ++ ".pkl") d) as [v|] eqn:G; [|congruence].
    rewrite (proj2 (dmem_true (n ++ ".pkl") d) (ex_intro _ v G)). reflexivity.
Qed.
