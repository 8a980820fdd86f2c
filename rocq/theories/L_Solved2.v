(** Proofs for C93: the pytensor backend. *)
From Coq Require Import Reals Lra FunctionalExtensionality.
From Verif Require Import Py PyStr NdArray M_Primitives M_Utilities M_Wrappers M_Simulate M_SimResult M_Build M_PyExpr M_Tensor M_Solve.
From Verif Require Import S_Layout S_PyExpr S_Meaning S_Tensor S_Solve S_Solved L_Wrappers L_SimResult L_Solve L_Tensor L_Tensor4 L_Solved.
Local Open Scope string_scope.
Local Open Scope list_scope.

Lemma pytensor_looks number_op c objs equations names : looks_up (pytensor_system number_op c objs equations names).
Proof.
  intros d d' G _. unfold pytensor_system. replace (tensor_inputs c objs d) with (tensor_inputs c objs d'); [reflexivity|].
  unfold tensor_inputs. apply map_res_same. intros o. unfold dgetitem. now rewrite G.
Qed.

Lemma state_given c vars params (d : dict (arr R)) x th : S_Solve.declared c vars params -> state_is c vars params d x th -> given c (vars ++ params) d.
Proof.
  intros (_ & _ & Nd & _) (A & B & _). split; [exact Nd|]. intros o Ho.
  apply in_app_or in Ho as [Ho|Ho]; [destruct A as (as_ & F & _)|destruct B as (as_ & F & _)]; destruct (Forall2_In_l _ F Ho) as (a & _ & E & Ft); eauto.
Qed.

Lemma find_app_ {A} (f : A -> bool) l l' : find f (l ++ l') = match find f l with Some x => Some x | None => find f l' end.
Proof. induction l as [|x l IH]; cbn; [reflexivity|]. destruct (f x); [reflexivity|exact IH]. Qed.

Lemma find_named n objs : match find (fun o => String.eqb (o_name o) n) objs with Some o => In o objs /\ o_name o = n | None => ~ In n (map o_name objs) end.
Proof.
  destruct (find _ objs) as [o|] eqn:F.
  - apply find_some in F as (I & E). apply String.eqb_eq in E. auto.
  - intros I. apply in_map_iff in I as (o & E & Ho). pose proof (find_none _ _ F o Ho) as Q. cbn in Q. rewrite E, String.eqb_refl in Q. discriminate.
Qed.

Lemma state_values c vars params (ds_v ds_p : dataset R) k x th : S_Solve.declared c vars params ->
  step_of ds_v k c vars x -> step_of ds_p k c params th ->
  array_values (vars ++ params) (dupdate (state_at ds_v k) (state_at ds_p k)) = returned_values vars params ds_v ds_p k.
Proof.
  intros D Sv Sp. destruct (final_state D Sv Sp) as (_ & Jv & Jp). set (d := dupdate (state_at ds_v k) (state_at ds_p k)) in *. pose proof D as (_ & _ & Nd & _).
  apply functional_extensionality. intros n. apply functional_extensionality. intros ix. unfold array_values, returned_values. rewrite find_app_.
  pose proof (find_named n vars) as Fv. pose proof (find_named n params) as Fp. rewrite map_app in Nd. apply NoDup_app_inv in Nd as (_ & _ & Nx).
  destruct (find _ vars) as [o|].
  - destruct Fv as (I & <-). destruct (group_row _ Sv I) as (a & m & s & E & W & Sh & L). rewrite (Jv o I), E. cbn [option_map snd]. rewrite (aget_row _ W Sh L).
    destruct (aget a (k :: map ix (o_dims o))); [reflexivity|].
    destruct (find _ params) as [q|]; [|reflexivity]. exfalso. destruct Fp as (Iq & Eq). apply (Nx (o_name o)); [now apply in_map|]. rewrite <- Eq. now apply in_map.
  - destruct (find _ params) as [q|]; [|destruct (dget n d); reflexivity]. destruct Fp as (I & <-). destruct (group_row _ Sp I) as (a & m & s & E & W & Sh & L). rewrite (Jp q I), E. cbn [option_map snd].
    now rewrite (aget_row _ W Sh L).
Qed.

Lemma c93_pytensor__p :
  forall number_op c vars params equations names dims, real_arithmetic number_op -> S_Solve.declared c vars params ->
    Forall2 (shared_notation (vars ++ params)) equations dims ->
    length names = list_sum (map (fun ds => prodn (map (size c) ds)) dims) ->
  forall (Jac Loss Grad Hess Hessp : Type) isnan vadd vmul table minimize f_euler (m : model R (list R) Jac Loss Grad Hess Hessp) jac
         initial fv fd fp o x0 th0 theta start,
    (* the compiled model *)
    m_coords m = c -> m_variables m = vars -> m_parameters m = params -> m_backend m = "pytensor"%string ->
    m_system m = Kw (pytensor_system number_op c (vars ++ params) equations names) -> made_by (m_backend m) (m_jac m) ->
    (wants_jac o -> evaluates c vars params (m_jac m) jac /\ in_compiled "root"%string (m_compiled m) = true) ->
    (* the call *)
    prepared isnan vadd vmul f_euler m initial fv fd fp o x0 th0 theta start -> optimizer_mode o = "root"%string ->
  exists P eu, rp_x0 P = start /\ rp_theta P = theta /\
    (forall d x th, state_is c vars params d x th -> call_flat (rp_f P) x th = pytensor_system number_op c (vars ++ params) equations names d) /\
    forall root ans, root P = Ok ans -> sized c vars (a_x ans) ->
      exists ds_v ds_p, simulate isnan vadd vmul table root minimize f_euler m (SDict initial) fv fd fp o = Ok (MkOutcome eu (Some (ds_v, ds_p)) (negb (a_success ans))) /\
        equilibrium_errors m (ds_v, ds_p) 1 = call_flat (rp_f P) (a_x ans) theta /\
        let rho := returned_values vars params ds_v ds_p 1 in
        (Forall2 (fun s ds => defined_on c ds (fun ix => meaning rho ix (normalize_eq s))) equations dims ->
         exists r, call_flat (rp_f P) (a_x ans) theta = Ok r /\
           (all_zero r <-> Forall2 (fun s ds => forall ix, (forall d, In d ds -> ix d < size c d) -> S_Meaning.holds rho ix s) equations dims)).
Proof.
  intros number_op c vars params equations names dims Ra D Sn Ln Jac Loss Grad Hess Hessp isnan vadd vmul table minimize f_euler m jac initial fv fd fp o x0 th0 theta start
    Mc Mv Mp Mb Ms Bj Ej (St & (final & xf & Ef & Hxf & Hth) & Uo & Sf) Om. subst c vars params.
  set (c := m_coords m) in *. set (vars := m_variables m) in *. set (params := m_parameters m) in *. set (h := pytensor_system number_op c (vars ++ params) equations names) in *.
  pose proof (pytensor_looks number_op c (vars ++ params) equations names) as Lk. fold h in Lk.
  assert (Es : evaluates c vars params (m_system m) (on_state c vars params h)) by (rewrite Ms; now apply kw_evaluates).
  assert (Bs : made_by (m_backend m) (m_system m)) by (rewrite Ms; now left). pose proof (@holds_sized _ _ _ _ _ _ Hth) as Zt.
  destruct (@c92_root__p R (list R) Jac Loss Grad Hess Hessp isnan vadd vmul table minimize f_euler m initial final x0 th0 xf theta start fv fd fp o _ jac
    D St Ef Hxf Hth Uo Om Sf Bs Es Bj Ej) as (P & eu & E1 & E2 & Ss & Sj & _ & _ & Rt).
  exists P, eu. split; [exact E1|]. split; [exact E2|].
  assert (On : forall d x th, state_is c vars params d x th -> call_flat (rp_f P) x th = h d).
  { intros d x th S. pose proof S as (A & B & _). rewrite Ss by (eapply holds_sized; eauto). now apply on_state_eq. }
  split; [exact On|]. intros root ans Er Sz. destruct (proj2 (Rt root) ans Er Sz) as (ds_v & ds_p & Esim & _ & _ & V1 & P1). exists ds_v, ds_p. split; [exact Esim|].
  split. { rewrite (@c92_equilibrium__p R (list R) Jac Loss Grad Hess Hessp m ds_v ds_p 1 (a_x ans) theta _ D Bs Es V1 P1). symmetry. now apply Ss. }
  intros rho Df. destruct (final_state D V1 P1) as (Sd & _). set (d := dupdate (state_at ds_v 1) (state_at ds_p 1)) in *.
  pose proof (state_values D V1 P1) as Ev. fold d in Ev. change (array_values (vars ++ params) d = rho) in Ev.
  destruct (@c82_solutions__p number_op c (vars ++ params) d equations names dims Ra (state_given D Sd)) as (r & Er' & Z); [|exact Ln|].
  { rewrite Ev. clear - Sn Df. induction Sn; inversion Df; subst; constructor; auto. }
  rewrite Ev in Z. exists r. split; [|exact Z]. rewrite (On d _ _ Sd). exact Er'.
Qed.
