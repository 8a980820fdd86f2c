(** C92: simulate from its arguments to its result. *)
From Verif Require Import Py PyStr NdArray M_Primitives M_Utilities M_Wrappers M_Simulate M_SimResult M_Build M_Solve.
From Verif Require Import S_Layout S_Solve L_Wrappers L_SimResult L_Solve.
Local Open Scope string_scope.
Local Open Scope list_scope.

(** A vector x over two regions and a scalar t; x = t in equilibrium *)
Definition sv_coords : coords := [("i", [LStr "a"; LStr "b"])].
Definition sv_x : mobj := MkObj KVar "x" ["i"] [] "x" "x" "" "x" true false 0.
Definition sv_t : mobj := MkObj KPar "t" [] [] "t" "t" "" "t" true false 0.
Definition sv_system (x theta : list Z) : res (list Z) := Ok (map (fun v => v - hd 0 theta)%Z x).
Definition sv_jac (x theta : list Z) : res nat := Ok (length x).
Definition sv_loss (x theta : list Z) : res Z := Ok (fold_right (fun v s => (v - hd 0 theta) * (v - hd 0 theta) + s)%Z 0%Z x).
Definition sv_grad (x theta : list Z) : res (list Z) := Ok (map (fun v => 2 * (v - hd 0 theta))%Z x).
Definition sv_hessp (x p theta : list Z) : res (list Z) := Ok (map (fun v => 2 * v)%Z p).
Definition sv_keywords {W} (g : list Z -> list Z -> res W) : fn Z W :=
  Kw (fun d => let* xt := variable_dict_to_flat_array d [sv_x] [sv_t] in g (fst xt) (snd xt)).
Definition sv_model : model Z (list Z) nat Z (list Z) (list Z) (list Z) :=
  MkModel sv_coords [sv_x] [sv_t] "pytensor" (recorded_mode (ModeString "JAX")) (Some [FStr "root"; FStr "minimize"])
    (sv_keywords sv_system) (sv_keywords sv_jac) (sv_keywords sv_loss) (sv_keywords sv_grad) NoFn
    (Kw3 (fun d => let* x := dgetitem "x" d in let* p := dgetitem "x_point" d in let* t := dgetitem "t" d in sv_hessp (adata x) (adata p) (adata t))).
Definition sv_initial : dict (arr Z) := [("t", mkArr [] [1%Z]); ("x", mkArr [2] [1%Z; 1%Z])].
Definition sv_final : dict (arr Z) := [("t", mkArr [] [7%Z]); ("x", mkArr [2] [1%Z; 1%Z])].
(** The third step of x has a NaN, written 99. *)
Definition sv_euler (d : dict (arr Z)) (theta : list Z) (n : nat) : res (list (arr Z)) :=
  Ok [mkArr [3; 2] [1%Z; 1%Z; 3%Z; 4%Z; 99%Z; 6%Z]; mkArr [3] [1%Z; 4%Z; 7%Z]].
Definition sv_nan (v : Z) : bool := Z.eqb v 99.
Definition sv_plus (a b : arr Z) : res (arr Z) := Err TypeError.
Definition sv_root (mode : string) : options := MkOptions true true mode 3 None None None None.
Definition sv_scenario : option (dict (arr Z)) := Some [("t", mkArr [] [7%Z])].

Definition sv_declared : declared sv_coords [sv_x] [sv_t].
Proof.
  split; [discriminate|]. split; [discriminate|]. split; [repeat constructor; cbn; intuition discriminate|].
  intros o [<-|[<-|[]]]; cbn.
  - split; [constructor; [tauto|constructor]|]. split; [intros [H|[]]; discriminate|]. intros d [<-|[]]. now left.
  - split; [constructor|]. split; tauto.
Qed.
Definition sv_shape : has_shape sv_coords sv_x [2].
Proof. repeat constructor. exists [LStr "a"; LStr "b"]. split; reflexivity. Qed.
Definition sv_holds d a b t : dget "x" d = Some (mkArr [2] [a; b]) -> dget "t" d = Some (mkArr [] [t]) ->
  holds sv_coords o_name d [sv_x] [a; b] /\ holds sv_coords o_name d [sv_t] [t : Z].
Proof.
  intros Hx Ht. split; [exists [mkArr [2] [a; b]]|exists [mkArr [] [t]]]; (split; [|reflexivity]); constructor; [|constructor| |constructor]; (split; [assumption|]).
  - split; [reflexivity|exact sv_shape].
  - split; [reflexivity|constructor].
Qed.
Definition sv_state : state_is sv_coords [sv_x] [sv_t] sv_initial [1%Z; 1%Z] [1%Z].
Proof. destruct (@sv_holds sv_initial 1 1 1 eq_refl eq_refl) as (A & B). split; [exact A|]. split; [exact B|]. intros k. cbn. tauto. Qed.
Definition sv_evaluates {W} (g : list Z -> list Z -> res W) : evaluates sv_coords [sv_x] [sv_t] (sv_keywords g) g.
Proof. intros d x theta (A & B & _). cbn. now rewrite (holds_vector sv_declared A B). Qed.
Definition sv_evaluates3 : evaluates3 sv_coords [sv_x] [sv_t] (m_hessp sv_model) sv_hessp.
Proof.
  intros d x p theta (ax & Fx & ->) (at_ & Ft & ->) (ap & Fp & ->) _.
  inversion Fx as [|? a ? ? (Gx & _) F1]; subst. inversion F1; subst. inversion Ft as [|? b ? ? (Gt & _) F2]; subst. inversion F2; subst.
  inversion Fp as [|? q ? ? (Gp & _) F3]; subst. inversion F3; subst. cbn in Gx, Gt, Gp. cbn [m_hessp sv_model]. unfold dgetitem. rewrite Gx, Gp, Gt. cbn [bind map List.concat].
  now rewrite !app_nil_r.
Qed.
Definition sv_start mode : starts_from sv_nan sv_coords [sv_x] [sv_t] sv_euler sv_initial [7%Z] [1%Z; 1%Z] (sv_root mode) [3%Z; 4%Z].
Proof.
  exists [mkArr [3; 2] [1%Z; 1%Z; 3%Z; 4%Z; 99%Z; 6%Z]], [mkArr [3] [1%Z; 4%Z; 7%Z]], 3, 1, 2. split; [reflexivity|].
  split. { constructor; [|constructor]. split; [reflexivity|]. exists [2]. split; [reflexivity|exact sv_shape]. }
  split. { constructor; [|constructor]. split; [reflexivity|]. exists []. split; [reflexivity|constructor]. }
  split.
  { split; [lia|]. intros t Ht. split.
    - intros F. destruct (Nat.le_gt_cases t 1); [assumption|]. exfalso. assert (t = 2) by lia. subst t.
      specialize (F _ 0 99%Z (or_introl eq_refl)). discriminate F. split; [cbn; lia|reflexivity].
    - intros H a j v [<-|[]] (Hj & Hv). cbn in Hj, Hv. assert (t = 0 \/ t = 1) as [-> | ->] by lia; assert (j = 0 \/ j = 1) as [-> | ->] by lia; injection Hv as <-; reflexivity. }
  split.
  { split; [lia|]. intros t Ht. split; [lia|]. intros H a j v [<-|[]] (Hj & Hv). cbn in Hj, Hv. assert (j = 0) by lia. subst j.
    assert (t = 0 \/ t = 1 \/ t = 2) as [-> | [-> | ->]] by lia; injection Hv as <-; reflexivity. }
  exists [[3%Z; 4%Z]]. split; [|reflexivity]. constructor; [|constructor]. split; [reflexivity|]. intros j v Hv. destruct j as [|[|j]]; [| |destruct j; discriminate]; injection Hv as <-; (split; [cbn; lia|reflexivity]).
Qed.
Definition sv_sized a b : sized sv_coords [sv_x] [a : Z; b].
Proof. exists [[2]]. split; [|reflexivity]. constructor; [exact sv_shape|constructor]. Qed.

Theorem c92_root :
  forall (V Sys Jac Loss Grad Hess Hessp : Type) (isnan : V -> bool) (vadd vmul : arr V -> arr V -> res (arr V)) (table : dict mode_kwargs)
         (minimize : min_problem V Loss Grad Hess Hessp -> res (answer V)) (f_euler : dict (arr V) -> list V -> nat -> res (list (arr V)))
         (m : model V Sys Jac Loss Grad Hess Hessp) (initial final : dict (arr V)) (x0 th0 xf theta start : list V)
         (fv fd fp : option (dict (arr V))) (o : options)
         (sys : list V -> list V -> res Sys) (jac : list V -> list V -> res Jac),
  let c := m_coords m in let vars := m_variables m in let params := m_parameters m in
  declared c vars params -> state_is c vars params initial x0 th0 ->
  (* the scenario, which gives every parameter a value *)
  create_final_param_dict vadd vmul initial fv fd fp = Ok final -> holds c o_name final vars xf -> holds c o_name final params theta ->
  use_optimizer o = true -> optimizer_mode o = "root"%string -> starts_from isnan c vars params f_euler initial theta x0 o start ->
  (* the compiled functions *)
  made_by (m_backend m) (m_system m) -> evaluates c vars params (m_system m) sys ->
  made_by (m_backend m) (m_jac m) -> (wants_jac o -> evaluates c vars params (m_jac m) jac /\ in_compiled "root"%string (m_compiled m) = true) ->
  exists P eu,
    rp_x0 P = start /\ rp_theta P = theta /\ solver_sees c vars params (rp_f P) sys /\
    (wants_jac o -> exists j, rp_jac P = Some j /\ solver_sees c vars params j jac) /\ (~ wants_jac o -> rp_jac P = None) /\
    approximation isnan c vars params f_euler initial theta o eu /\
    forall root,
      (forall e, root P = Err e -> simulate isnan vadd vmul table root minimize f_euler m (SDict initial) fv fd fp o = Err e) /\
      (forall ans, root P = Ok ans -> sized c vars (a_x ans) ->
         exists ds_v ds_p,
           simulate isnan vadd vmul table root minimize f_euler m (SDict initial) fv fd fp o
             = Ok (MkOutcome eu (Some (ds_v, ds_p)) (negb (a_success ans))) /\
           step_of ds_v 0 c vars x0 /\ step_of ds_p 0 c params th0 /\ step_of ds_v 1 c vars (a_x ans) /\ step_of ds_p 1 c params theta).
Proof. exact @c92_root__p. Qed.
Print Assumptions c92_root.
Example c92_root_ex : exists P, rp_x0 P = [3%Z; 4%Z] /\ rp_theta P = [7%Z] /\ call_flat (rp_f P) [8%Z; 9%Z] [5%Z] = Ok [3%Z; 4%Z] /\
  (exists j, rp_jac P = Some j /\ call_flat j [8%Z; 9%Z] [5%Z] = Ok 2) /\
  forall root, root P = Ok (MkAnswer [7%Z; 7%Z] true) ->
  exists ev ep ds_v ds_p,
    simulate sv_nan sv_plus sv_plus [] root (fun _ => Err ValueError) sv_euler sv_model (SDict sv_initial) sv_scenario None None (sv_root "root")
      = Ok (MkOutcome (Some (ev, ep)) (Some (ds_v, ds_p)) false) /\
    step_of ds_v 0 sv_coords [sv_x] [1%Z; 1%Z] /\ step_of ds_v 1 sv_coords [sv_x] [7%Z; 7%Z] /\ step_of ds_p 1 sv_coords [sv_t] [7%Z].
Proof.
  destruct (@sv_holds sv_final 1 1 7 eq_refl eq_refl) as (A & B).
  destruct (@c92_root Z (list Z) nat Z (list Z) (list Z) (list Z) sv_nan sv_plus sv_plus [] (fun _ => Err ValueError) sv_euler sv_model sv_initial sv_final
    [1%Z; 1%Z] [1%Z] [1%Z; 1%Z] [7%Z] [3%Z; 4%Z] sv_scenario None None (sv_root "root") sv_system sv_jac sv_declared sv_state eq_refl A B eq_refl eq_refl (sv_start "root")
    (or_introl eq_refl) (sv_evaluates sv_system) (or_introl eq_refl) (fun _ => conj (sv_evaluates sv_jac) eq_refl)) as (P & eu & X & T & F & J & _ & Ap & R).
  exists P. split; [exact X|]. split; [exact T|].
  assert (S5 : sized sv_coords [sv_t] [5%Z]) by (exists [[]]; split; [constructor; constructor|reflexivity]).
  split; [rewrite (F [8%Z; 9%Z] [5%Z] (sv_sized 8 9) S5); reflexivity|]. split.
  { destruct (J (or_introl eq_refl)) as (j & Ej & Hj). exists j. split; [exact Ej|]. rewrite (Hj [8%Z; 9%Z] [5%Z] (sv_sized 8 9) S5). reflexivity. }
  intros root Er. destruct (proj2 (R root) _ Er (sv_sized 7 7)) as (ds_v & ds_p & E & V0 & _ & V1 & P1).
  destruct eu as [[ev ep]|]; [|discriminate Ap]. exists ev, ep, ds_v, ds_p. auto.
Qed.

Theorem c92_minimize :
  forall (V Sys Jac Loss Grad Hess Hessp : Type) (isnan : V -> bool) (vadd vmul : arr V -> arr V -> res (arr V)) (table : dict mode_kwargs)
         (root : root_problem V Sys Jac -> res (answer V)) (f_euler : dict (arr V) -> list V -> nat -> res (list (arr V)))
         (m : model V Sys Jac Loss Grad Hess Hessp) (requested : mode) (initial final : dict (arr V)) (x0 th0 xf theta start : list V)
         (fv fd fp : option (dict (arr V))) (o : options) (use_jac use_hess use_hessp : bool)
         (loss : list V -> list V -> res Loss) (grad : list V -> list V -> res Grad) (hess : list V -> list V -> res Hess)
         (hessp : list V -> list V -> list V -> res Hessp),
  let c := m_coords m in let vars := m_variables m in let params := m_parameters m in
  declared c vars params -> state_is c vars params initial x0 th0 ->
  create_final_param_dict vadd vmul initial fv fd fp = Ok final -> holds c o_name final vars xf -> holds c o_name final params theta ->
  use_optimizer o = true -> optimizer_mode o = "minimize"%string -> starts_from isnan c vars params f_euler initial theta x0 o start ->
  (* the mode is recorded by the compiler; the model is compiled for minimize *)
  m_mode m = recorded_mode requested -> in_compiled "minimize"%string (m_compiled m) = true ->
  (* the flags, resolved as in C22 *)
  simulate_minimize_passes table (kw_jac o) (kw_hess o) (kw_hessp o) (kw_method o) = Ok (use_jac, use_hess, use_hessp) ->
  made_by (m_backend m) (m_resid m) -> evaluates c vars params (m_resid m) loss ->
  made_by (m_backend m) (m_grad m) -> (use_jac = true -> evaluates c vars params (m_grad m) grad) ->
  made_by (m_backend m) (m_hess m) -> (use_hess = true -> evaluates c vars params (m_hess m) hess) ->
  made_by3 (m_backend m) (m_hessp m) -> (use_hessp = true -> evaluates3 c vars params (m_hessp m) hessp /\ no_point vars params) ->
  exists P eu,
    mp_x0 P = start /\ mp_theta P = theta /\ solver_sees c vars params (mp_f P) loss /\
    (if use_jac then exists f, mp_jac P = Some f /\ solver_sees c vars params f grad else mp_jac P = None) /\
    (if use_hess then exists f, mp_hess P = Some f /\ solver_sees c vars params f hess else mp_hess P = None) /\
    (if use_hessp then exists f, mp_hessp P = Some f /\ solver_sees3 c vars params f hessp else mp_hessp P = None) /\
    approximation isnan c vars params f_euler initial theta o eu /\
    forall minimize,
      (forall e, minimize P = Err e -> simulate isnan vadd vmul table root minimize f_euler m (SDict initial) fv fd fp o = Err e) /\
      (forall ans, minimize P = Ok ans -> sized c vars (a_x ans) ->
         exists ds_v ds_p,
           simulate isnan vadd vmul table root minimize f_euler m (SDict initial) fv fd fp o
             = Ok (MkOutcome eu (Some (ds_v, ds_p)) (negb (a_success ans))) /\
           step_of ds_v 0 c vars x0 /\ step_of ds_p 0 c params th0 /\ step_of ds_v 1 c vars (a_x ans) /\ step_of ds_p 1 c params theta).
Proof. exact @c92_minimize__p. Qed.
Print Assumptions c92_minimize.
Example c92_minimize_ex : exists P, mp_x0 P = [3%Z; 4%Z] /\ mp_theta P = [7%Z] /\ mp_hess P = None /\
  (exists f, mp_hessp P = Some f /\ call_flat3 f [8%Z; 9%Z] [1%Z; 2%Z] [5%Z] = Ok [2%Z; 4%Z]) /\
  forall minimize, minimize P = Ok (MkAnswer [7%Z; 6%Z] false) ->
  exists ev ep ds_v ds_p,
    simulate sv_nan sv_plus sv_plus [] (fun _ => Err ValueError) minimize sv_euler sv_model (SDict sv_initial) sv_scenario None None (sv_root "minimize")
      = Ok (MkOutcome (Some (ev, ep)) (Some (ds_v, ds_p)) true) /\
    step_of ds_v 1 sv_coords [sv_x] [7%Z; 6%Z].
Proof.
  destruct (@sv_holds sv_final 1 1 7 eq_refl eq_refl) as (A & B).
  assert (NP : no_point [sv_x] [sv_t]) by (intros o v [<-|[<-|[]]] [<-|[]]; discriminate).
  destruct (@c92_minimize Z (list Z) nat Z (list Z) (list Z) (list Z) sv_nan sv_plus sv_plus [] (fun _ => Err ValueError) sv_euler sv_model (ModeString "JAX") sv_initial sv_final
    [1%Z; 1%Z] [1%Z] [1%Z; 1%Z] [7%Z] [3%Z; 4%Z] sv_scenario None None (sv_root "minimize") true false true sv_loss sv_grad sv_grad sv_hessp sv_declared sv_state eq_refl A B eq_refl eq_refl
    (sv_start "minimize") eq_refl eq_refl eq_refl
    (or_introl eq_refl) (sv_evaluates sv_loss) (or_introl eq_refl) (fun _ => sv_evaluates sv_grad) I (fun H => match diff_false_true H with end)
    (or_introl eq_refl) (fun _ => conj sv_evaluates3 NP)) as (P & eu & X & T & _ & _ & H & HP & Ap & R).
  exists P. split; [exact X|]. split; [exact T|]. split; [exact H|].
  assert (S5 : sized sv_coords [sv_t] [5%Z]) by (exists [[]]; split; [constructor; constructor|reflexivity]). split.
  { destruct HP as (f & Ef & Hf). exists f. split; [exact Ef|]. rewrite (Hf [8%Z; 9%Z] [1%Z; 2%Z] [5%Z] (sv_sized 8 9) (sv_sized 1 2) S5). reflexivity. }
  intros minimize Er. destruct (proj2 (R minimize) _ Er (sv_sized 7 6)) as (ds_v & ds_p & E & _ & _ & V1 & _).
  destruct eu as [[ev ep]|]; [|discriminate Ap]. exists ev, ep, ds_v, ds_p. auto.
Qed.

Theorem c92_mode :
  forall (requested : mode) (s : string), mode_is_not s (recorded_mode requested) = true.
Proof. exact @c92_mode__p. Qed.
Print Assumptions c92_mode.
Example c92_mode_ex : mode_is_not "JAX" (ModeString "JAX") = false /\ mode_is_not "JAX" (recorded_mode (ModeString "JAX")) = true.
Proof. split; [reflexivity|apply c92_mode]. Qed.

Theorem c92_euler_only :
  forall (V Sys Jac Loss Grad Hess Hessp : Type) (isnan : V -> bool) (vadd vmul : arr V -> arr V -> res (arr V)) (table : dict mode_kwargs)
         (root : root_problem V Sys Jac -> res (answer V)) (minimize : min_problem V Loss Grad Hess Hessp -> res (answer V))
         (f_euler : dict (arr V) -> list V -> nat -> res (list (arr V)))
         (m : model V Sys Jac Loss Grad Hess Hessp) (initial final : dict (arr V)) (x0 th0 xf theta start : list V)
         (fv fd fp : option (dict (arr V))) (o : options),
  let c := m_coords m in let vars := m_variables m in let params := m_parameters m in
  declared c vars params -> state_is c vars params initial x0 th0 ->
  create_final_param_dict vadd vmul initial fv fd fp = Ok final -> holds c o_name final vars xf -> holds c o_name final params theta ->
  use_optimizer o = false -> starts_from isnan c vars params f_euler initial theta x0 o start ->
  exists eu, simulate isnan vadd vmul table root minimize f_euler m (SDict initial) fv fd fp o = Ok (MkOutcome eu None false) /\
    approximation isnan c vars params f_euler initial theta o eu.
Proof. exact @c92_euler_only__p. Qed.
Print Assumptions c92_euler_only.
Example c92_euler_only_ex : exists ev ep,
  simulate sv_nan sv_plus sv_plus [] (fun _ => Err ValueError) (fun _ => Err ValueError) sv_euler sv_model (SDict sv_initial) sv_scenario None None
    (MkOptions true false "root" 3 None None None None) = Ok (MkOutcome (Some (ev, ep)) None false) /\
  step_of ev 1 sv_coords [sv_x] [3%Z; 4%Z] /\ (forall x, ~ step_of ev 2 sv_coords [sv_x] x).
Proof.
  destruct (@sv_holds sv_final 1 1 7 eq_refl eq_refl) as (A & B).
  destruct (@c92_euler_only Z (list Z) nat Z (list Z) (list Z) (list Z) sv_nan sv_plus sv_plus [] (fun _ => Err ValueError) (fun _ => Err ValueError) sv_euler sv_model sv_initial sv_final
    [1%Z; 1%Z] [1%Z] [1%Z; 1%Z] [7%Z] [3%Z; 4%Z] sv_scenario None None (MkOptions true false "root" 3 None None None None) sv_declared sv_state eq_refl A B eq_refl (sv_start "root"))
    as (eu & E & Ap).
  destruct eu as [[ev ep]|]; [|discriminate Ap]. exists ev, ep. split; [exact E|]. destruct Ap as (_ & Ap).
  destruct (sv_start "root") as (av & ap & n & a & b & E' & Tv & Tp & Fa & Fb & VA). destruct (Ap av ap n a b E' Tv Tp Fa Fb) as (Sv & _).
  pose proof E' as E''. unfold sv_euler in E''. injection E'' as E''.
  assert (av = [mkArr [3; 2] [1%Z; 1%Z; 3%Z; 4%Z; 99%Z; 6%Z]]) by (inversion Tv as [|? q ? l _ T1]; subst; inversion T1; subst; cbn [app] in E''; now injection E'' as <- _).
  assert (Hn : n = 3). { subst av. inversion Tv as [|? ? ? ? (_ & s & Es & _) _]; subst. now injection Es. }
  assert (Ha : a = 1).
  { subst av n. destruct Fa as (Ha & Fa). destruct (Fa 2) as (F1 & F2); [lia|]. destruct (Fa 1) as (F3 & F4); [lia|].
    assert (~ 2 <= a). { intros Q. specialize (F2 Q _ 0 99%Z (or_introl eq_refl)). discriminate F2. split; [cbn; lia|reflexivity]. }
    assert (1 <= a). { apply F3. intros x j v [<-|[]] (Hj & Hv). cbn in Hj, Hv. assert (j = 0 \/ j = 1) as [-> | ->] by lia; injection Hv as <-; reflexivity. } lia. }
  split.
  - apply Sv. split; [lia|]. subst av. exists [[3%Z; 4%Z]]. split; [|reflexivity]. constructor; [|constructor]. split; [reflexivity|]. intros j v Hv.
    destruct j as [|[|j]]; [| |destruct j; discriminate]; injection Hv as <-; (split; [cbn; lia|reflexivity]).
  - intros x Hx. apply Sv in Hx as (Hx & _). lia.
Qed.

Theorem c92_equilibrium :
  forall (V Sys Jac Loss Grad Hess Hessp : Type) (m : model V Sys Jac Loss Grad Hess Hessp) (ds_v ds_p : dataset V) (k : nat) (x theta : list V)
         (sys : list V -> list V -> res Sys),
  let c := m_coords m in let vars := m_variables m in let params := m_parameters m in
  declared c vars params -> made_by (m_backend m) (m_system m) -> evaluates c vars params (m_system m) sys ->
  step_of ds_v k c vars x -> step_of ds_p k c params theta -> equilibrium_errors m (ds_v, ds_p) k = sys x theta.
Proof. exact @c92_equilibrium__p. Qed.
Print Assumptions c92_equilibrium.
Example c92_equilibrium_ex : equilibrium_errors sv_model
  ([("x", (["step"; "i"], mkArr [2; 2] [1%Z; 1%Z; 9%Z; 7%Z]))], [("t", (["step"], mkArr [2] [1%Z; 7%Z]))]) 1 = Ok [2%Z; 0%Z].
Proof.
  apply (@c92_equilibrium Z (list Z) nat Z (list Z) (list Z) (list Z) sv_model _ _ 1 [9%Z; 7%Z] [7%Z] sv_system sv_declared (or_introl eq_refl) (sv_evaluates sv_system)).
  - split; [reflexivity|]. exists [mkArr [2; 2] [1%Z; 1%Z; 9%Z; 7%Z]], 2. split; [lia|]. split.
    { constructor; [|constructor]. split; [reflexivity|]. exists [2]. split; [reflexivity|exact sv_shape]. }
    split; [repeat constructor|]. exists [[9%Z; 7%Z]]. split; [|reflexivity]. constructor; [|constructor]. split; [reflexivity|]. intros j v Hv.
    destruct j as [|[|j]]; [| |destruct j; discriminate]; injection Hv as <-; (split; [cbn; lia|reflexivity]).
  - split; [reflexivity|]. exists [mkArr [2] [1%Z; 7%Z]], 2. split; [lia|]. split.
    { constructor; [|constructor]. split; [reflexivity|]. exists []. split; [reflexivity|constructor]. }
    split; [repeat constructor|]. exists [[7%Z]]. split; [|reflexivity]. constructor; [|constructor]. split; [reflexivity|]. intros j v Hv.
    destruct j as [|j]; [|destruct j; discriminate]; injection Hv as <-; (split; [cbn; lia|reflexivity]).
Qed.

Theorem c92_result_refuted :
  forall (V Sys Jac Loss Grad Hess Hessp : Type) (isnan : V -> bool) (vadd vmul : arr V -> arr V -> res (arr V)) (table : dict mode_kwargs)
         (root : root_problem V Sys Jac -> res (answer V)) (minimize : min_problem V Loss Grad Hess Hessp -> res (answer V))
         (f_euler : dict (arr V) -> list V -> nat -> res (list (arr V))) (m : model V Sys Jac Loss Grad Hess Hessp)
         (fitted : dict (arr V)) (fv fd fp : option (dict (arr V))) (o : options) (r : outcome V),
  use_optimizer o = true -> simulate isnan vadd vmul table root minimize f_euler m (SResult fitted) fv fd fp o <> Ok r.
Proof. exact @c92_result_refuted__p. Qed.
Print Assumptions c92_result_refuted.
Example c92_result_refuted_ex : exists e, simulate sv_nan sv_plus sv_plus [] (fun _ => Ok (MkAnswer [7%Z; 7%Z] true)) (fun _ => Err ValueError) sv_euler sv_model (SResult sv_initial) sv_scenario None None (sv_root "root") = Err e.
Proof. eexists. vm_compute. reflexivity. Qed.

Theorem c92_dataset_refuted :
  forall (V Sys Jac Loss Grad Hess Hessp : Type) (isnan : V -> bool) (vadd vmul : arr V -> arr V -> res (arr V)) (table : dict mode_kwargs)
         (root : root_problem V Sys Jac -> res (answer V)) (minimize : min_problem V Loss Grad Hess Hessp -> res (answer V))
         (f_euler : dict (arr V) -> list V -> nat -> res (list (arr V))) (m : model V Sys Jac Loss Grad Hess Hessp)
         (d : dict (arr V)) (fv fd fp : option (dict (arr V))) (o : options) (r : outcome V),
  m_parameters m <> nil -> simulate isnan vadd vmul table root minimize f_euler m (SDataset d) fv fd fp o <> Ok r.
Proof. exact @c92_dataset_refuted__p. Qed.
Print Assumptions c92_dataset_refuted.
Example c92_dataset_refuted_ex : m_parameters sv_model <> nil /\
  simulate sv_nan sv_plus sv_plus [] (fun _ => Ok (MkAnswer [7%Z; 7%Z] true)) (fun _ => Err ValueError) sv_euler sv_model (SDataset sv_initial) sv_scenario None None (sv_root "root") = Err AttributeError.
Proof. split; [discriminate|reflexivity]. Qed.

Theorem c92_unchecked_refuted :
  exists (m : model Z (list Z) (list Z) Z (list Z) (list Z) (list Z)) (initial : dict (arr Z)) (sys : list Z -> list Z -> res (list Z))
         (x0 th0 : list Z) (o : options) (scenario : dict (arr Z)) (r : outcome Z),
    declared (m_coords m) (m_variables m) (m_parameters m) /\ evaluates (m_coords m) (m_variables m) (m_parameters m) (m_system m) sys /\
    state_is (m_coords m) (m_variables m) (m_parameters m) initial x0 th0 /\ sys x0 th0 = Ok [5%Z] /\
    simulate (fun _ => false) (fun _ _ => Err TypeError) (fun _ _ => Err TypeError) [] (fun P => Ok (MkAnswer (rp_theta P) true)) (fun _ => Err ValueError)
      (fun _ _ _ => Err ValueError) m (SDict initial) (Some scenario) None None o = Ok r /\ r_warned r = false.
Proof. exact @c92_unchecked_refuted__p. Qed.
Print Assumptions c92_unchecked_refuted.
Example c92_unchecked_refuted_ex : sv_system [6%Z; 9%Z] [1%Z] = Ok [5%Z; 8%Z] /\ exists r,
  simulate sv_nan sv_plus sv_plus [] (fun _ => Ok (MkAnswer [7%Z; 7%Z] true)) (fun _ => Err ValueError) sv_euler sv_model
    (SDict [("t", mkArr [] [1%Z]); ("x", mkArr [2] [6%Z; 9%Z])]) sv_scenario None None (sv_root "root") = Ok r /\ r_warned r = false.
Proof. split; [reflexivity|]. eexists. split; [vm_compute; reflexivity|reflexivity]. Qed.
