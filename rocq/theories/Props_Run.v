(** C24 and C94: whole calls of simulate and the stored results. *)
From Verif Require Import Py PyStr NdArray M_Primitives M_Utilities M_Simulate M_SimResult M_Build M_Results M_Solve M_Run.
From Verif Require Import S_Results S_Run L_Results2 L_Run Props_Solve.
Local Open Scope string_scope.
Local Open Scope list_scope.

(** The model of Props_Solve; the solver answers with the parameter for both
    regions, and raises NotImplementedError for the parameter 13. *)
Definition rn_world : world Z (list Z) nat Z (list Z) (list Z) (list Z) :=
  MkWorld sv_nan sv_plus sv_plus [] (fun P => match rp_theta P with [t] => if Z.eqb t 13 then Err NotImplementedError else Ok (MkAnswer [t; t] true) | _ => Err IndexError end)
          (fun _ => Err ValueError) sv_euler.
Definition rn_call (name : option string) (t : Z) (overwrite : bool) : call Z (list Z) nat Z (list Z) (list Z) (list Z) :=
  MkCall sv_model (SDict sv_initial) (Some [("t", mkArr [] [t])]) None None (MkOptions false true "root" 3 None None None None) ["tol=1e-8"]
         name overwrite true "2024-01-01".
(** What such a call computes *)
Definition rn_outcome (t : Z) : outcome Z :=
  MkOutcome None (Some ([("x", (["step"; "i"], mkArr [2; 2] [1; 1; t; t]%Z))], [("t", (["step"], mkArr [2] [1; t]%Z))])) false.

(** C24 *)
Theorem c24_simulate_refuses :
  forall (V Sys Jac Loss Grad Hess Hessp : Type) (w : world V Sys Jac Loss Grad Hess Hessp) (d : dir (outcome V))
         (k : call V Sys Jac Loss Grad Hess Hessp) (x0 : dict (arr V)),
  not_stored d k -> falsy (m_compiled (c_model k)) = false ->
  c_state k = SDict x0 -> ~ right_names (c_model k) x0 ->
  run w d k = (d, Err ValueError).
Proof. exact @c24_simulate_refuses__p. Qed.
Print Assumptions c24_simulate_refuses.
Example c24_simulate_refuses_ex :
  let k s := MkCall sv_model (SDict s) (Some [("t", mkArr [] [7%Z])]) None None (sv_root "root") [] (Some "run") false true "2024-01-01" in
  let missing := k [("x", mkArr [2] [1; 1]%Z)] in
  let unknown := k (("z", mkArr [] [1%Z]) :: sv_initial) in
  let d := [("other.pkl", Whole (rn_outcome 3))] in
  not_stored d missing /\ falsy (m_compiled (c_model missing)) = false /\ ~ right_names sv_model [("x", mkArr [2] [1; 1]%Z)] /\
  run rn_world d missing = (d, Err ValueError) /\ run rn_world d unknown = (d, Err ValueError).
Proof.
  repeat split; try reflexivity.
  - right. reflexivity.
  - intros H. destruct (proj2 (H "t")) as [E|[]].
    + exists sv_t. split; [right; left; reflexivity|reflexivity].
    + discriminate.
Qed.
Theorem c24_simulate_accepts :
  forall (V Sys Jac Loss Grad Hess Hessp : Type) (w : world V Sys Jac Loss Grad Hess Hessp) (d : dir (outcome V))
         (k : call V Sys Jac Loss Grad Hess Hessp) (x0 final : dict (arr V)),
  not_stored d k -> falsy (m_compiled (c_model k)) = false ->
  c_state k = SDict x0 -> m_variables (c_model k) <> nil -> m_parameters (c_model k) <> nil ->
  right_names (c_model k) x0 ->
  create_final_param_dict (w_add w) (w_mul w) x0 (c_values k) (c_delta k) (c_delta_pct k) = Ok final ->
  exists theta,
    theta = List.concat (map (fun o => match dget (o_name o) final with Some a => adata a | None => nil end) (m_parameters (c_model k))) /\
    (* with the Euler approximation, its function is called with the state and these values *)
    (use_euler (c_options k) = true ->
       forall e, w_euler w x0 theta (n_iter_euler (c_options k)) = Err e -> run w d k = (d, Err e)) /\
    (* without, the solver is *)
    (use_euler (c_options k) = false -> use_optimizer (c_options k) = true -> optimizer_mode (c_options k) = "root"%string ->
       in_compiled "root" (m_compiled (c_model k)) = true ->
       exists P, rp_theta P = theta /\ forall e, w_root w P = Err e -> run w d k = (d, Err e)) /\
    (use_euler (c_options k) = false -> use_optimizer (c_options k) = false -> snd (run w d k) = Ok (MkOutcome None None false)).
Proof. exact @c24_simulate_accepts__p. Qed.
Print Assumptions c24_simulate_accepts.
Example c24_simulate_accepts_ex :
  let k euler := MkCall sv_model (SDict sv_initial) (Some [("t", mkArr [] [13%Z])]) None None (MkOptions euler true "root" 3 None None None None) [] (Some "run") false true "2024-01-01" in
  let w := MkWorld sv_nan sv_plus sv_plus [] (w_root rn_world) (w_minimize rn_world) (fun _ _ _ => Err ZeroDivisionError) in
  right_names sv_model sv_initial /\
  run w [] (k false) = ([], Err NotImplementedError) /\ run w [] (k true) = ([], Err ZeroDivisionError).
Proof.
  split; [|split; reflexivity]. intros n. split.
  - intros [<-|[<-|[]]]; [exists sv_t|exists sv_x]; (split; [|reflexivity]); [right|left]; left; reflexivity.
  - intros (o & [[<-|[]]|[<-|[]]] & <-); [right; left|left]; reflexivity.
Qed.

(** C94 *)
Theorem c94_failed_call :
  forall (V Sys Jac Loss Grad Hess Hessp : Type) (w : world V Sys Jac Loss Grad Hess Hessp) (d d' : dir (outcome V))
         (k : call V Sys Jac Loss Grad Hess Hessp) (e : exn),
  run w d k = (d', Err e) -> d' = d.
Proof. exact @c94_failed_call__p. Qed.
Print Assumptions c94_failed_call.
Example c94_failed_call_ex :
  run rn_world [("a.pkl", Whole (rn_outcome 3))] (rn_call (Some "b") 13 true) = ([("a.pkl", Whole (rn_outcome 3))], Err NotImplementedError).
Proof. reflexivity. Qed.
Theorem c94_one_file :
  forall (V Sys Jac Loss Grad Hess Hessp : Type) (w : world V Sys Jac Loss Grad Hess Hessp) (d d' : dir (outcome V))
         (k : call V Sys Jac Loss Grad Hess Hessp) (r : outcome V),
  run w d k = (d', Ok r) ->
  d' = d \/
  (c_save k = true /\ computed w k = Ok r /\
   exists n, dget n d' = Some (Whole r) /\ (forall n', n' <> n -> dget n' d' = dget n' d) /\ (c_overwrite k = false -> dget n d = None)).
Proof. exact @c94_one_file__p. Qed.
Print Assumptions c94_one_file.
Example c94_one_file_ex :
  run rn_world [("a.pkl", Whole (rn_outcome 3))] (rn_call (Some "b") 5 false)
    = ([("a.pkl", Whole (rn_outcome 3)); ("b.pkl", Whole (rn_outcome 5))], Ok (rn_outcome 5)).
Proof. reflexivity. Qed.
Theorem c94_notebook :
  forall (V Sys Jac Loss Grad Hess Hessp : Type) (calls : list (world V Sys Jac Loss Grad Hess Hessp * call V Sys Jac Loss Grad Hess Hessp))
         (names : list string),
  plain_names names -> (forall w k, In (w, k) calls -> In (call_name k) names) ->
  let '(d, results) := session nil calls in
  let '(b, replies) := dialogue (fun _ => None) calls in
  results = replies /\ written names d b.
Proof. exact @c94_notebook__p. Qed.
Print Assumptions c94_notebook.
(** Two names, one of them the default. The second call with it fails and leaves
    no page, so that the third is computed; the fourth is answered from it, the
    sixth overwrites. *)
Definition rn_default : string := "Simulation_2024-01-01_root[tol=1e-8]".
Definition rn_calls := map (fun k => (rn_world, k))
  [rn_call (Some "a") 3 false; rn_call None 13 false; rn_call None 4 false; rn_call None 5 false; rn_call (Some "a") 6 false; rn_call (Some "a") 8 true].
Example c94_notebook_ex :
  plain_names ["a"; rn_default] /\ (forall w k, In (w, k) rn_calls -> In (call_name k) ["a"; rn_default]) /\
  snd (session [] rn_calls) = [Ok (rn_outcome 3); Err NotImplementedError; Ok (rn_outcome 4); Ok (rn_outcome 4); Ok (rn_outcome 3); Ok (rn_outcome 8)] /\
  fst (session [] rn_calls) = [("a.pkl", Whole (rn_outcome 8)); ((rn_default ++ ".pkl")%string, Whole (rn_outcome 4))].
Proof.
  split; [|split; [|split; reflexivity]].
  - split.
    + intros n [<-|[<-|[]]]; (split; [reflexivity|]); [exists "", "", "a"%char|exists "", "imulation_2024-01-01_root[tol=1e-8]", "S"%char]; (split; [reflexivity|discriminate]).
    + intros n n' s [<-|[<-|[]]] [<-|[<-|[]]]; discriminate.
  - intros w k H. unfold rn_calls in H. cbn [map In] in H.
    repeat (destruct H as [H|H]; [injection H as _ <-; apply mem_str_In; reflexivity|]). destruct H.
Qed.
Theorem c94_brackets_refuted :
  forall (V Sys Jac Loss Grad Hess Hessp : Type) (w : world V Sys Jac Loss Grad Hess Hessp) (k1 k2 k3 : call V Sys Jac Loss Grad Hess Hessp)
         (f : string) (r1 r2 : outcome V),
  ends_with "pkl" f = false -> (exists a b c, f = (a ++ String c b)%string /\ c <> "."%char) ->
  call_name k1 = f -> call_name k2 = (f ++ "(1)")%string -> call_name k3 = f ->
  computed w k1 = Ok r1 -> computed w k2 = Ok r2 -> c_save k1 = true -> c_save k2 = true -> c_overwrite k3 = false ->
  exists d, session nil [(w, k1); (w, k2); (w, k3)] = (d, [Ok r1; Ok r2; Ok r2]) /\ dget (f ++ ".pkl")%string d = Some (Whole r1).
Proof. exact @c94_brackets_refuted__p. Qed.
Print Assumptions c94_brackets_refuted.
Example c94_brackets_refuted_ex :
  snd (session [] (map (fun k => (rn_world, k)) [rn_call (Some "a") 3 false; rn_call (Some "a(1)") 4 false; rn_call (Some "a") 3 false]))
    = [Ok (rn_outcome 3); Ok (rn_outcome 4); Ok (rn_outcome 4)].
Proof. reflexivity. Qed.

Theorem c94_given_name :
  forall (V Sys Jac Loss Grad Hess Hessp : Type) (w : world V Sys Jac Loss Grad Hess Hessp) (d : dir (outcome V))
         (k : call V Sys Jac Loss Grad Hess Hessp) (n : string),
  c_name k = Some n -> ends_with "pkl" n = false ->
  (forall r, c_overwrite k = true -> c_save k = true -> computed w k = Ok r -> run w d k = (dset (n ++ ".pkl")%string (Whole r) d, Ok r)) /\
  (c_overwrite k = false -> dget (n ++ ".pkl")%string d <> None -> run w d k = (d, read_results d n)).
Proof. exact @c94_given_name__p. Qed.
Print Assumptions c94_given_name.
Example c94_given_name_ex :
  run rn_world [("b.pkl", Whole (rn_outcome 3))] (rn_call (Some "b") 5 true) = ([("b.pkl", Whole (rn_outcome 5))], Ok (rn_outcome 5)) /\
  run rn_world [("b.pkl", Whole (rn_outcome 3))] (rn_call (Some "b") 5 false) = ([("b.pkl", Whole (rn_outcome 3))], Ok (rn_outcome 3)).
Proof.
  split.
  - apply (proj1 (@c94_given_name _ _ _ _ _ _ _ rn_world [("b.pkl", Whole (rn_outcome 3))] (rn_call (Some "b") 5 true) "b" eq_refl eq_refl)); reflexivity.
  - apply (proj2 (@c94_given_name _ _ _ _ _ _ _ rn_world [("b.pkl", Whole (rn_outcome 3))] (rn_call (Some "b") 5 false) "b" eq_refl eq_refl)); [reflexivity|discriminate].
Qed.
