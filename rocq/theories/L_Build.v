(** Lemmas for C69, C70 and C72. *)
From Verif Require Import Py PyStr M_Build S_Build L_Utilities.
Local Open Scope string_scope.
Local Open Scope list_scope.

Lemma requested_in_spec name l : requested_in name l = true <-> In (FStr name) l.
Proof.
  unfold requested_in. rewrite existsb_exists. split.
  - intros ([s|b] & Hi & H); [|discriminate]. apply String.eqb_eq in H. now subst s.
  - intros H. exists (FStr name). split; [exact H|]. apply String.eqb_refl.
Qed.

Lemma asks_spec r name :
  requested_in name (match parse_compile_kwarg r with Some l => l | None => [] end) = true <-> asks r name.
Proof.
  rewrite requested_in_spec. destruct r as [|[s|b]|l].
  - simpl. tauto.
  - cbn [parse_compile_kwarg asks]. destruct (String.eqb_spec s "all") as [->|Hne]; simpl; intuition congruence.
  - destruct b; simpl; intuition congruence.
  - simpl. tauto.
Qed.

(** ** C69 *)
Lemma c69_exact__p :
  forall (backend : string) (jax : bool) (r : request), In backend ["pytensor"; "numba"; "sympytensor"] ->
  exists c, compile_model backend jax r false false = Ok c /\
    (f_jac (c_functions c) = true <-> asks r "root") /\
    (f_resid (c_functions c) = true <-> asks r "minimize") /\
    (f_grad (c_functions c) = true <-> asks r "minimize") /\
    (f_hess (c_functions c) = true <-> asks r "minimize") /\
    (f_hessp (c_functions c) = true <-> asks r "minimize") /\
    (f_euler (c_functions c) <> None <-> asks r "euler").
Proof.
  intros backend jax r Hb. pose proof (asks_spec r "root") as A1. pose proof (asks_spec r "minimize") as A2. pose proof (asks_spec r "euler") as A3.
  set (l := match parse_compile_kwarg r with Some l => l | None => [] end) in *.
  exists (mkC (parse_compile_kwarg r) (functions_for l (if requested_in "euler" l then Some Euler else None))).
  split.
  - unfold compile_model. fold l. destruct Hb as [<-|[<-|[<-|[]]]]; destruct jax; cbn [String.eqb Ascii.eqb Bool.eqb andb bind]; fold l;
      unfold compile_pytensor, compile_numba, compile_sympytensor, compile_jax; destruct (requested_in "euler" l); reflexivity.
  - cbn [c_functions functions_for f_jac f_resid f_grad f_hess f_hessp f_euler].
    repeat (split; [assumption|]). rewrite <- A3. destruct (requested_in "euler" l); split; congruence.
Qed.

Lemma c69_unknown_backend__p :
  forall (backend : string) (jax : bool) (r : request) (use_scan use_rk4 : bool), ~ In backend ["pytensor"; "numba"; "sympytensor"] ->
  compile_model backend jax r use_scan use_rk4 = Err KeyError.
Proof.
  intros backend jax r use_scan use_rk4 H. unfold compile_model.
  repeat match goal with |- context[String.eqb backend ?x] =>
    destruct (String.eqb_spec backend x) as [->|_]; [exfalso; apply H; simpl; tauto|] end. reflexivity.
Qed.

Lemma existsb_occurs p q l : existsb (fun eq => contains p eq || contains q eq) l = true <->
  exists eq, In eq l /\ (occurs p eq \/ occurs q eq).
Proof.
  rewrite existsb_exists. split; intros (x & Hi & H); exists x; (split; [exact Hi|]).
  - apply orb_true_iff in H. rewrite !contains_spec in H. exact H.
  - apply orb_true_iff. rewrite !contains_spec. exact H.
Qed.

Lemma c69_backend__p :
  forall (equations : list string),
  let reduces := exists eq, In eq equations /\ (occurs "Sum(" eq \/ occurs "Prod(" eq) in
  let broadcasts := exists eq, In eq equations /\ (occurs "[:, None]" eq \/ occurs "[None, :]" eq) in
  (choose_backend None (EqList equations) = Ok "pytensor" <-> ~ reduces /\ broadcasts) /\
  (choose_backend None (EqList equations) = Ok "sympytensor" <-> reduces \/ ~ broadcasts) /\
  (forall b, choose_backend (Some b) (EqList equations) = Ok b).
Proof.
  intros l reduces broadcasts. cbn [choose_backend]. unfold determine_default_backend.
  pose proof (existsb_occurs "Sum(" "Prod(" l) as A. pose proof (existsb_occurs "[:, None]" "[None, :]" l) as B.
  fold reduces in A. fold broadcasts in B.
  destruct (existsb _ l); [|destruct (existsb _ l)].
  - assert reduces by (now apply A). repeat split; intros; try discriminate; try tauto.
  - assert (~ reduces) by (intros X; apply A in X; discriminate). assert broadcasts by (now apply B).
    repeat split; intros; try discriminate; try tauto.
  - assert (~ reduces) by (intros X; apply A in X; discriminate). assert (~ broadcasts) by (intros X; apply B in X; discriminate).
    repeat split; intros; try discriminate; try tauto.
Qed.
(** The product of sympy is not recognised as a reduction. *)
Lemma c69_product_refuted__p :
  exists equations, In "Y = Product(X[i], (i, 0, 2)) + Z[:, None]" equations /\ choose_backend None (EqList equations) = Ok "pytensor".
Proof. exists ["Y = Product(X[i], (i, 0, 2)) + Z[:, None]"]. split; [now left|]. vm_compute. reflexivity. Qed.
(** A dict of equations, which the signature admits, is not accepted without a backend. *)
Lemma c69_dict_refuted__p :
  forall k eq d, choose_backend None (EqDict ((k, eq) :: d)) = Err AttributeError.
Proof. reflexivity. Qed.

(** ** C70 *)
Lemma c70_uncompiled_refuted__p :
  forall (c : compiled), c_compiled c = None \/ c_compiled c = Some [] ->
  (forall use_euler use_optimizer mode use_jac, simulate c use_euler use_optimizer mode use_jac = Err AttributeError) /\
  calibrate c = Err AttributeError.
Proof. intros c [H|H]; unfold simulate, calibrate; rewrite H; split; reflexivity. Qed.
Lemma c70_none_request_refuted__p :
  forall backend jax, In backend ["pytensor"; "numba"; "sympytensor"] -> exists c,
  compile_model backend jax RNone false false = Ok c /\ simulate c true false "root" true = Err AttributeError.
Proof.
  intros backend jax Hb. destruct Hb as [<-|[<-|[<-|[]]]]; destruct jax; eexists; split; reflexivity.
Qed.
(** Asked to compile nothing (False), the model counts as compiled: simulate and calibrate call None. *)
Lemma c70_false_request_refuted__p :
  forall backend jax use_optimizer mode use_jac, In backend ["pytensor"; "numba"; "sympytensor"] -> exists c,
  compile_model backend jax (ROne (FBool false)) false false = Ok c /\ f_euler (c_functions c) = None /\ f_resid (c_functions c) = false /\
  simulate c true use_optimizer mode use_jac = Err TypeError /\ calibrate c = Err TypeError.
Proof.
  intros backend jax use_optimizer mode use_jac Hb. destruct Hb as [<-|[<-|[<-|[]]]]; destruct jax; eexists; repeat split; reflexivity.
Qed.
(** Without the Euler function simulate calls None. *)
Lemma c70_missing_euler_refuted__p :
  forall (backend : string) (jax : bool) (r : request) use_optimizer mode use_jac, In backend ["pytensor"; "numba"; "sympytensor"] ->
  (exists name, asks r name) -> ~ asks r "euler" ->
  exists c, compile_model backend jax r false false = Ok c /\ simulate c true use_optimizer mode use_jac = Err TypeError.
Proof.
  intros backend jax r use_optimizer mode use_jac Hb (name & Ha) He.
  destruct (@c69_exact__p backend jax r Hb) as (c & Hc & _ & _ & _ & _ & _ & E). exists c. split; [exact Hc|].
  assert (Ec : c_compiled c = parse_compile_kwarg r).
  { unfold compile_model in Hc. apply bind_ok in Hc as (mk & _ & Hc). apply bind_ok in Hc as (f & _ & Hc). injection Hc as <-. reflexivity. }
  assert (Nf : falsy (c_compiled c) = false).
  { rewrite Ec. apply asks_spec in Ha. destruct (parse_compile_kwarg r) as [[|a l]|]; try discriminate. reflexivity. }
  unfold simulate. rewrite Nf. unfold solve_with_euler. destruct (f_euler (c_functions c)); [exfalso; apply He, E; discriminate|]. reflexivity.
Qed.
Lemma c70_compiled__p :
  forall (backend : string) (jax : bool) (r : request) (use_euler use_optimizer : bool) (mode : string) (use_jac : bool) (c : compiled),
  compile_model backend jax r false false = Ok c -> (exists name, asks r name) ->
  (use_euler = true -> asks r "euler") -> (use_optimizer = true -> In mode ["root"; "minimize"]) ->
  (* everything needed was requested: simulate finds its functions *)
  ((use_optimizer = true -> mode = "root" -> use_jac = true -> asks r "root") ->
   (use_optimizer = true -> mode = "minimize" -> asks r "minimize") -> simulate c use_euler use_optimizer mode use_jac = Ok tt) /\
  (* the optimizer's functions are missing: an error says so *)
  (use_optimizer = true -> (mode = "root" /\ use_jac = true /\ ~ asks r "root") \/ (mode = "minimize" /\ ~ asks r "minimize") ->
   simulate c use_euler use_optimizer mode use_jac = Err ValueError) /\
  (asks r "minimize" -> calibrate c = Ok tt) /\
  (~ asks r "minimize" -> calibrate c = Err TypeError).
Proof.
  intros backend jax r ue uo mode uj c Hc (name & Ha) He Hm.
  assert (Hb : In backend ["pytensor"; "numba"; "sympytensor"]).
  { unfold compile_model in Hc. destruct (String.eqb_spec backend "pytensor"); [simpl; auto|]. cbn [andb] in Hc.
    destruct (String.eqb_spec backend "numba"); [simpl; auto|]. destruct (String.eqb_spec backend "sympytensor"); [simpl; auto|]. discriminate. }
  destruct (@c69_exact__p backend jax r Hb) as (c' & Hc' & _ & R & _ & _ & _ & E). assert (c' = c) by congruence. subst c'.
  assert (Ec : c_compiled c = parse_compile_kwarg r).
  { unfold compile_model in Hc. apply bind_ok in Hc as (mk & _ & Hc). apply bind_ok in Hc as (f & _ & Hc). injection Hc as <-. reflexivity. }
  assert (I : forall nm, in_compiled nm (c_compiled c) = true <-> asks r nm).
  { intros nm. rewrite <- asks_spec, Ec. destruct (parse_compile_kwarg r); reflexivity. }
  assert (Nf : falsy (c_compiled c) = false).
  { rewrite Ec. apply asks_spec in Ha. destruct (parse_compile_kwarg r) as [[|a l]|]; try discriminate. reflexivity. }
  assert (Eu : (if ue then solve_with_euler c else Ok tt) = Ok tt).
  { destruct ue; [|reflexivity]. unfold solve_with_euler. specialize (He eq_refl). apply E in He. destruct (f_euler (c_functions c)); congruence. }
  unfold simulate, calibrate. rewrite Nf, Eu. cbn [bind].
  split; [|split; [|split]].
  - intros H1 H2. destruct uo; [|reflexivity]. specialize (Hm eq_refl). destruct Hm as [<-|[<-|[]]]; cbn [String.eqb Ascii.eqb Bool.eqb].
    + unfold solve_with_root. destruct uj; [|reflexivity]. rewrite (proj2 (I "root")) by auto. reflexivity.
    + unfold solve_with_minimize. rewrite (proj2 (I "minimize")) by auto. reflexivity.
  - intros -> [(-> & -> & H)|(-> & H)]; cbn [String.eqb Ascii.eqb Bool.eqb].
    + unfold solve_with_root. destruct (in_compiled "root" (c_compiled c)) eqn:X; [apply I in X; contradiction|]. reflexivity.
    + unfold solve_with_minimize. destruct (in_compiled "minimize" (c_compiled c)) eqn:X; [apply I in X; contradiction|]. reflexivity.
  - intros H. now rewrite (proj2 R).
  - intros H. destruct (f_resid (c_functions c)) eqn:X; [exfalso; now apply H, R|reflexivity].
Qed.

(** ** C72 *)
Lemma c72_rk4__p :
  forall (backend : string) (jax use_scan : bool) (r : request) (c : compiled), backend <> "numba" ->
  compile_model backend jax r use_scan true = Ok c -> asks r "euler" -> f_euler (c_functions c) = Some RK4.
Proof.
  intros backend jax use_scan r c Hb H Ha. unfold compile_model in H. apply asks_spec in Ha.
  set (l := match parse_compile_kwarg r with Some l => l | None => [] end) in *.
  apply bind_ok in H as (mk & Hm & H). apply bind_ok in H as (f & Hf & H). injection H as <-. cbn [c_functions].
  destruct (String.eqb backend "pytensor" && jax).
  { injection Hm as <-. unfold compile_jax in Hf. fold l in Hf. rewrite Ha in Hf. injection Hf as <-. reflexivity. }
  destruct (String.eqb backend "pytensor").
  { injection Hm as <-. unfold compile_pytensor in Hf. fold l in Hf. rewrite Ha in Hf. destruct use_scan; discriminate. }
  destruct (String.eqb_spec backend "numba"); [contradiction|]. destruct (String.eqb backend "sympytensor"); [|discriminate].
  injection Hm as <-. unfold compile_sympytensor in Hf. fold l in Hf. rewrite Ha in Hf. destruct use_scan; discriminate.
Qed.
(** numba compiles the plain Euler scheme when RK4 is asked for. *)
Lemma c72_numba_refuted__p :
  forall (jax use_scan : bool) (r : request), asks r "euler" ->
  exists c, compile_model "numba" jax r use_scan true = Ok c /\ f_euler (c_functions c) = Some Euler.
Proof.
  intros jax use_scan r Ha. apply asks_spec in Ha. unfold compile_model. cbn [String.eqb Ascii.eqb Bool.eqb andb bind].
  unfold compile_numba. rewrite Ha. eexists. split; reflexivity.
Qed.
(** The scanned Euler function cannot be compiled by either pytensor backend. *)
Lemma c72_scan_refuted__p :
  forall (backend : string) (r : request) (use_rk4 : bool), In backend ["pytensor"; "sympytensor"] -> asks r "euler" ->
  exists e, compile_model backend false r true use_rk4 = Err e.
Proof.
  intros backend r rk Hb Ha. apply asks_spec in Ha. unfold compile_model.
  destruct Hb as [<-|[<-|[]]]; cbn [String.eqb Ascii.eqb Bool.eqb andb bind]; unfold compile_pytensor, compile_sympytensor; rewrite Ha; eexists; reflexivity.
Qed.

(** A list holding "all", which the type of the argument admits, compiles nothing. *)
Lemma c69_all_list_refuted__p :
  forall backend jax, In backend ["pytensor"; "numba"; "sympytensor"] -> exists c,
  compile_model backend jax (RMany [FStr "all"]) false false = Ok c /\
  f_jac (c_functions c) = false /\ f_resid (c_functions c) = false /\ f_euler (c_functions c) = None.
Proof.
  intros backend jax Hb. destruct Hb as [<-|[<-|[<-|[]]]]; destruct jax; eexists; repeat split; reflexivity.
Qed.
