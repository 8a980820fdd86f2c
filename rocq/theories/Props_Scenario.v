(** C07-C10 and C24: scenarios, optimizer flags and the initial state. *)
From Verif Require Import Py PyStr NdArray M_Primitives M_Utilities M_ScenarioHeap M_Simulate
  S_Layout L_Scenario L_Simulate.

(** Running example: integers; [vmul] fails on 7 (an incompatible shape). *)
Local Open Scope string_scope.
Definition zadd (a b : Z) : res Z := Ok (a + b)%Z.
Definition zmul (a b : Z) : res Z := if Z.eqb b 7 then Err ValueError else Ok (a * b)%Z.
Definition ex_init : dict Z := [("a", 1); ("b", 10); ("c", 100)]%Z.
Local Close Scope string_scope.

(** C07 *)
Theorem c07_scenario_values :
  forall {V : Type} (vadd vmul : V -> V -> res V)
         (init : dict V) (fv fd fp : option (dict V)) (s : dict V),
  create_final_param_dict vadd vmul init fv fd fp = Ok s ->
  (forall k v, dget k (opt fv) = Some v -> dget k s = Some v) /\
  (forall k v, dget k (opt fd) = Some v ->
     exists old new, dget k init = Some old /\ vadd old v = Ok new /\ dget k s = Some new) /\
  (forall k v, dget k (opt fp) = Some v ->
     exists old new, dget k init = Some old /\ vmul old v = Ok new /\ dget k s = Some new) /\
  (forall k, ~ In k (dkeys (opt fv)) -> ~ In k (dkeys (opt fd)) -> ~ In k (dkeys (opt fp)) ->
     dget k s = dget k init) /\
  dkeys s = dkeys init ++ filter (fun k => negb (mem_str k (dkeys init))) (dkeys (opt fv)).
Proof. exact @c07_scenario_values__p. Qed.
Print Assumptions c07_scenario_values.
Example c07_example :
  create_final_param_dict zadd zmul ex_init
    (Some [("b", 5); ("new", 6)]%string%Z) (Some [("a", 3)]%string%Z) (Some [("c", 2)]%string%Z)
  = Ok [("a", 4); ("b", 5); ("c", 200); ("new", 6)]%string%Z.
Proof. reflexivity. Qed.

(** The dictionary is deep-copied, then updated in place; nothing reachable
    from the caller's arguments is written. *)
Theorem c07_caller_data_unchanged :
  forall {V : Type} (vadd vmul : V -> V -> res V) (h : heap V)
         (init fv fd fp : dict (pyval V)) (h' : heap V) (s : dict (pyval V)),
  (forall l, In (VRef l) (dvals init) -> l < length h) ->
  create_final_param_dict_heap vadd vmul h init fv fd fp = Ok (h', s) ->
  forall x, (match x with VRef l => l < length h | VNum _ => True end) -> deref h' x = deref h x.
Proof. exact @c07_caller_data_unchanged__p. Qed.
Print Assumptions c07_caller_data_unchanged.
Theorem c07_in_place_refines :
  forall {V : Type} (vadd vmul : V -> V -> res V) (h : heap V)
         (init fv fd fp : dict (pyval V)) (init' fv' fd' fp' : dict V),
  reads h init init' -> reads h fv fv' -> reads h fd fd' -> reads h fp fp' ->
  NoDup (refs init) ->
  match create_final_param_dict_heap vadd vmul h init fv fd fp with
  | Ok (h2, s) => exists s', create_final_param_dict vadd vmul init' (Some fv') (Some fd') (Some fp') = Ok s'
                             /\ reads h2 s s'
  | Err e => create_final_param_dict vadd vmul init' (Some fv') (Some fd') (Some fp') = Err e
  end.
Proof. exact @c07_in_place_refines__p. Qed.
Print Assumptions c07_in_place_refines.
Example c07_heap_example :
  create_final_param_dict_heap zadd zmul [1; 2; 30]%Z
    [("a", VRef 0); ("b", VRef 1); ("c", VNum 4%Z)]%string
    [("b", VRef 2)]%string [("a", VRef 2)]%string [("c", VNum 3%Z)]%string
  = Ok ([1; 2; 30; 31; 2]%Z, [("a", VRef 3); ("b", VRef 2); ("c", VNum 12%Z)]%string).
Proof. reflexivity. Qed.
Example c07_heap_hypotheses :
  let h := [1; 2; 30]%Z in
  let init := [("a", VRef 0); ("b", VRef 1); ("c", VNum 4%Z)]%string in
  (forall l, In (VRef l) (dvals init) -> l < length h) /\
  reads h init [("a", 1); ("b", 2); ("c", 4)]%string%Z /\ NoDup (refs init) /\
  reads h [("b", VRef 2)]%string [("b", 30)]%string%Z.
Proof.
  repeat split; try (repeat constructor; simpl; intuition discriminate).
  intros l H. simpl in H. simpl. destruct H as [H|[H|[H|[]]]]; inversion H; lia.
Qed.

(** The distinctness hypothesis is needed: two entries that share one array
    are both shocked. *)
Theorem c07_shared_array_refuted :
  exists (h h' : heap Z) (init fd s : dict (pyval Z)) (k : string),
    ~ In k (dkeys fd) /\
    create_final_param_dict_heap (fun a b => Ok (a + b)%Z) (fun a b => Ok (a * b)%Z) h init [] fd [] = Ok (h', s) /\
    match dget k init with Some x => deref h x | None => None end = Some 1%Z /\
    match dget k s with Some x => deref h' x | None => None end = Some 11%Z.
Proof. exact @c07_shared_array_refuted__p. Qed.
Print Assumptions c07_shared_array_refuted.

(** C08 *)
Theorem c08_accepted_iff :
  forall {V : Type} (vadd vmul : V -> V -> res V)
         (init : dict V) (fv fd fp : option (dict V)),
  (exists s, create_final_param_dict vadd vmul init fv fd fp = Ok s) <->
  let all := dkeys (opt fv) ++ dkeys (opt fd) ++ dkeys (opt fp) in
  all <> [] /\ NoDup all /\
  (forall k v, In (k, v) (opt fd) -> exists old new, dget k init = Some old /\ vadd old v = Ok new) /\
  (forall k v, In (k, v) (opt fp) -> exists old new, dget k init = Some old /\ vmul old v = Ok new).
Proof. exact @c08_accepted_iff__p. Qed.
Print Assumptions c08_accepted_iff.
Example c08_accepted_iff_ex :
  (exists s, create_final_param_dict zadd zmul ex_init (Some [("z", 1)]%string%Z) (Some [("a", 3)]%string%Z) (Some [("c", 2)]%string%Z) = Ok s) /\
  ~ (exists s, create_final_param_dict zadd zmul ex_init None None (Some [("c", 7)]%string%Z) = Ok s).
Proof.
  split; rewrite c08_accepted_iff; cbn [opt dkeys map fst app].
  - split; [discriminate|]. split; [repeat constructor; simpl; intuition discriminate|].
    split; intros k v [E|[]]; injection E as <- <-; eexists; eexists; split; reflexivity.
  - intros (_ & _ & _ & H). destruct (H "c"%string 7%Z (or_introl eq_refl)) as (old & new & E1 & E2). injection E1 as <-. discriminate.
Qed.
Theorem c08_error_class :
  forall {V : Type} (vadd vmul : V -> V -> res V)
         (init : dict V) (fv fd fp : option (dict V)),
  let all := dkeys (opt fv) ++ dkeys (opt fd) ++ dkeys (opt fp) in
  (all = [] \/ ~ NoDup all -> create_final_param_dict vadd vmul init fv fd fp = Err ValueError) /\
  (forall k v, all <> [] -> NoDup all ->
     (forall a b, exists n, vadd a b = Ok n) -> (forall a b, exists n, vmul a b = Ok n) ->
     In (k, v) (opt fd ++ opt fp) -> ~ In k (dkeys init) ->
     create_final_param_dict vadd vmul init fv fd fp = Err KeyError).
Proof. exact @c08_error_class__p. Qed.
Print Assumptions c08_error_class.
Example c08_examples :
  create_final_param_dict zadd zmul ex_init None None None = Err ValueError /\
  create_final_param_dict zadd zmul ex_init (Some [("a", 1)]%string%Z) None (Some [("a", 1)]%string%Z) = Err ValueError /\
  create_final_param_dict zadd zadd ex_init None (Some [("zz", 1)]%string%Z) None = Err KeyError.
Proof. repeat split. Qed.

(** C09 *)
Theorem c09_unknown_relative_shock_rejected :
  forall {V : Type} (vadd vmul : arr V -> arr V -> res (arr V)) (vars params : list mobj) (x0 : dict (arr V))
         (fv fd fp : option (dict (arr V))) (k : string),
  In k (dkeys (opt fd) ++ dkeys (opt fp)) ->
  ~ In k (map o_name vars ++ map o_name params) ->
  exists e, simulation_theta vadd vmul vars params x0 fv fd fp = Err e.
Proof. exact @c09_unknown_relative_shock_rejected__p. Qed.
Print Assumptions c09_unknown_relative_shock_rejected.
Example c09_unknown_relative_shock_rejected_ex : exists e,
  simulation_theta (fun a b => Ok b) (fun a b => Ok b) [exobj KVar "Y" []] [exobj KPar "tau" []]
    [("Y", mkArr [] [1%Z]); ("tau", mkArr [] [3%Z])]%string None None (Some [("tua", mkArr [] [4%Z])]%string) = Err e.
Proof. apply c09_unknown_relative_shock_rejected with "tua"%string; simpl; intuition discriminate. Qed.
Theorem c09_nonparameter_shock_has_no_effect :
  forall {V : Type} (vadd vmul : arr V -> arr V -> res (arr V)) (vars params : list mobj) (x0 : dict (arr V))
         (fv fd fp fv' fd' fp' : option (dict (arr V))) (t t' : list V),
  (forall o, In o params -> dget (o_name o) (opt fv) = dget (o_name o) (opt fv')) ->
  (forall o, In o params -> dget (o_name o) (opt fd) = dget (o_name o) (opt fd')) ->
  (forall o, In o params -> dget (o_name o) (opt fp) = dget (o_name o) (opt fp')) ->
  simulation_theta vadd vmul vars params x0 fv fd fp = Ok t ->
  simulation_theta vadd vmul vars params x0 fv' fd' fp' = Ok t' ->
  t = t'.
Proof. exact @c09_nonparameter_shock_has_no_effect__p. Qed.
Print Assumptions c09_nonparameter_shock_has_no_effect.
Theorem c09_ignored_shock_refuted :
  exists (vars params : list mobj) (x0 : dict (arr Z)) (typo variable : dict (arr Z)) (t : list Z),
  let add := fun a b : arr Z => Ok a in
  map o_name vars = ["Y"%string] /\ map o_name params = ["tau"%string] /\
  dkeys typo = ["tua"%string] /\ dkeys variable = ["Y"%string] /\ t = [3%Z] /\
  dget "tau"%string x0 = Some (mkArr [] [3%Z]) /\
  simulation_theta add add vars params x0 (Some typo) None None = Ok t /\
  simulation_theta add add vars params x0 (Some variable) None None = Ok t.
Proof. exact @c09_ignored_shock_refuted__p. Qed.
Print Assumptions c09_ignored_shock_refuted.
Example c09_example :
  simulation_theta (fun a b => Ok b) (fun a b => Ok b)
    [exobj KVar "Y" []] [exobj KPar "tau" []]
    [("Y", mkArr [] [1%Z]); ("tau", mkArr [] [3%Z])]%string
    (Some [("tua", mkArr [] [5%Z])]%string) (Some [("tau", mkArr [] [4%Z])]%string) None = Ok [4%Z] /\
  simulation_theta (fun a b => Ok b) (fun a b => Ok b)
    [exobj KVar "Y" []] [exobj KPar "tau" []]
    [("Y", mkArr [] [1%Z]); ("tau", mkArr [] [3%Z])]%string
    (Some [("tau", mkArr [] [5%Z])]%string) (Some [("tua", mkArr [] [4%Z])]%string) None = Err KeyError.
Proof. split; reflexivity. Qed.

(** C10 *)
Theorem c10_flags :
  forall (table : dict mode_kwargs) (g h hp : option bool) (method : string) (g' h' hp' : bool),
  get_method_defaults table g h hp method = Ok (g', h', hp') ->
  h' && hp' = false /\
  (forall b, g = Some b -> g' = b) /\
  (forall b, hp = Some b -> hp' = b) /\
  (h = Some false -> h' = false) /\
  (h = Some true -> hp' = false -> h' = true) /\
  (forall row, dget method table = Some row ->
     (g = None -> g' = uses_grad row) /\
     (hp = None -> hp' = uses_hessp row) /\
     (h = None -> h' = uses_hess row && negb hp')).
Proof. exact @c10_flags__p. Qed.
Print Assumptions c10_flags.
Theorem c10_unknown_method :
  forall (table : dict mode_kwargs) (g h hp : option bool) (method : string),
  (exists r, get_method_defaults table g h hp method = Ok r) <->
  (g <> None /\ h <> None /\ hp <> None) \/ In method (dkeys table).
Proof. exact @c10_unknown_method__p. Qed.
Print Assumptions c10_unknown_method.
Example c10_unknown_method_ex :
  let table := [("BFGS", MkMode true false false)]%string in
  (exists r, get_method_defaults table None None None "BFGS" = Ok r) /\
  (exists r, get_method_defaults table (Some true) (Some false) (Some false) "nope" = Ok r) /\
  ~ (exists r, get_method_defaults table (Some true) None (Some false) "nope" = Ok r).
Proof.
  intros table. repeat split; try (apply c10_unknown_method; simpl; intuition discriminate).
  rewrite c10_unknown_method. simpl. intuition discriminate.
Qed.
Theorem c10_hess_needs_gradient :
  forall (table : dict mode_kwargs) (g h hp : option bool) (method : string) (j' h' hp' : bool),
  minimize_passes table g h hp method = Ok (j', h', hp') ->
  (h' = true -> j' = true) /\ h' && hp' = false /\ (forall b, g = Some b -> j' = b) /\
  (h = Some false -> h' = false) /\ (hp = Some false -> hp' = false).
Proof. exact @c10_hess_needs_gradient__p. Qed.
Print Assumptions c10_hess_needs_gradient.
(** simulate(..., optimizer_mode="minimize", use_jac=False) hands scipy a
    Hessian-vector product without a gradient, for every method. *)
Theorem c10_hessp_without_gradient_refuted :
  forall (table : dict mode_kwargs) (method : option string),
  simulate_minimize_passes table (Some (Some false)) None None method = Ok (false, false, true).
Proof. exact @c10_hessp_without_gradient_refuted__p. Qed.
Print Assumptions c10_hessp_without_gradient_refuted.
(** simulate(..., use_jac=True, use_hess=True) never uses the Hessian. *)
Theorem c10_explicit_hess_dropped :
  forall (table : dict mode_kwargs) (method : option string),
  simulate_minimize_passes table (Some (Some true)) (Some (Some true)) None method = Ok (true, false, true).
Proof. exact @c10_explicit_hess_dropped__p. Qed.
Print Assumptions c10_explicit_hess_dropped.
Example c10_examples :
  let table := [("BFGS", MkMode true false false); ("trust-ncg", MkMode true true true)]%string in
  get_method_defaults table None None None "trust-ncg" = Ok (true, false, true) /\
  get_method_defaults table (Some false) (Some true) None "BFGS" = Ok (false, true, false) /\
  minimize_passes table (Some false) (Some true) None "BFGS" = Ok (false, false, false) /\
  get_method_defaults table None None None "nope" = Err KeyError.
Proof. repeat split. Qed.

(** C24 *)
Theorem c24_initial_state_names :
  forall {V : Type} (vadd vmul : arr V -> arr V -> res (arr V)) (vars params : list mobj) (x0 : dict (arr V))
         (fv fd fp : option (dict (arr V))),
  ((exists t, simulation_theta vadd vmul vars params x0 fv fd fp = Ok t) ->
   forall n, In n (dkeys x0) <-> In n (map o_name vars ++ map o_name params)) /\
  (~ (forall n, In n (dkeys x0) <-> In n (map o_name vars ++ map o_name params)) ->
   simulation_theta vadd vmul vars params x0 fv fd fp = Err ValueError).
Proof. exact @c24_initial_state_names__p. Qed.
Print Assumptions c24_initial_state_names.
Theorem c24_right_names_accepted :
  forall {V : Type} (vadd vmul : arr V -> arr V -> res (arr V)) (vars params : list mobj) (x0 : dict (arr V))
         (fv fd fp : option (dict (arr V))) (s : dict (arr V)),
  vars <> [] -> params <> [] ->
  (forall n, In n (dkeys x0) <-> In n (map o_name vars ++ map o_name params)) ->
  create_final_param_dict vadd vmul x0 fv fd fp = Ok s ->
  exists t, simulation_theta vadd vmul vars params x0 fv fd fp = Ok t /\
            (forall o, In o params -> exists a, dget (o_name o) s = Some a) /\
            t = List.concat (map (fun o => match dget (o_name o) s with Some a => adata a | None => [] end) params).
Proof. exact @c24_right_names_accepted__p. Qed.
Print Assumptions c24_right_names_accepted.
Example c24_example :
  let th x0 := simulation_theta (fun a b => Ok b) (fun a b => Ok b)
    [exobj KVar "Y" []] [exobj KPar "tau" ["i"%string]] x0 (Some [("tau", mkArr [2] [5; 6]%Z)]%string) None None in
  th [("tau", mkArr [2] [3; 4]%Z); ("Y", mkArr [] [1%Z])]%string = Ok [5; 6]%Z /\
  th [("tau", mkArr [2] [3; 4]%Z)]%string = Err ValueError /\
  th [("tau", mkArr [2] [3; 4]%Z); ("Y", mkArr [] [1%Z]); ("Z", mkArr [] [1%Z])]%string = Err ValueError.
Proof. repeat split. Qed.
