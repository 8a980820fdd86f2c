(** C19-C23: registries, lookup, squareness, numeraire. *)
From Verif Require Import Py PyStr NdArray M_Primitives M_Utilities M_Expand M_Equations M_Registry.
From Verif Require Import S_Layout S_Registry L_Registry L_Registry2 L_Lookup.
Local Open Scope string_scope.

(** C19. [holds m a]: the three registries of m, as ordered maps, are a. *)
Theorem c19_call :
  forall (parse : parser) (m : model) (a : regs) (o : op),
  holds m a ->
  exists a' ok,
    call_spec (m_sympy m) (fun vars pars => parse vars pars (m_coords m) (m_numeraire m))
              (m_vars m) (m_pars m) a o a' ok /\
    holds (fst (run_op parse m o)) a' /\
    (ok = true -> snd (run_op parse m o) = Ok tt) /\
    (ok = false -> exists e, snd (run_op parse m o) = Err e).
Proof. exact @c19_call__p. Qed.
Print Assumptions c19_call.
Theorem c19_history :
  forall (parse : parser) (m : model) (a : regs) (h : list op) (o : op),
  holds m a ->
  let m1 := run parse m h in
  exists a1 a2 ok,
    holds m1 a1 /\
    call_spec (m_sympy m1) (fun vars pars => parse vars pars (m_coords m1) (m_numeraire m1))
              (m_vars m1) (m_pars m1) a1 o a2 ok /\
    holds (run parse m (h ++ [o])%list) a2 /\
    (ok = true <-> snd (run_op parse m1 o) = Ok tt).
Proof. exact @c19_history__p. Qed.
Print Assumptions c19_history.
Theorem c19_spec_deterministic :
  forall (V : Type) (ow : bool) (a : omap V) (l : list (request V)) (a1 a2 : omap V) (b1 b2 : bool),
  additions ow a l a1 b1 -> additions ow a l a2 b2 -> a1 = a2 /\ b1 = b2.
Proof. exact @c19_spec_deterministic__p. Qed.
Print Assumptions c19_spec_deterministic.
Theorem c19_unique_names :
  forall (parse : parser) (m : model) (h : list op), well_filed m -> well_filed (run parse m h).
Proof. exact @c19_unique_names__p. Qed.
Print Assumptions c19_unique_names.
Theorem c19_constructed :
  forall (order : list string -> list string) (parse : parser) (c : coords) (vars pars eqs : option pyarg)
         (numeraire : option string) (sympy : bool) (m : model),
  construct order parse c vars pars eqs numeraire sympy = Ok m -> well_filed m.
Proof. exact @c19_constructed__p. Qed.
Print Assumptions c19_constructed.
Theorem c19_readd_rejected :
  forall (parse : parser) (m : model) (o : mobj) (q : equation),
  (In (o_name o) (dkeys (m_vars m)) -> o_kind o = KVar ->
     run_op parse m (AddVar (PObj o) false) = (m, Err ValueError) /\
     run_op parse m (AddVars (One (PObj o)) false) = (m, Err ValueError)) /\
  (In (o_name o) (dkeys (m_pars m)) -> o_kind o = KPar ->
     run_op parse m (AddPar (PObj o) false) = (m, Err ValueError) /\
     run_op parse m (AddPars (One (PObj o)) false) = (m, Err ValueError)) /\
  (In (q_name q) (dkeys (m_eqs m)) ->
     run_op parse m (AddSymEq (PEqn q) false) = (m, Err ValueError) /\
     run_op parse m (AddPytEq (PEqn q) false) = (m, Err ValueError) /\
     run_op parse m (AddEqs (One (PEqn q)) false) = (m, Err ValueError)).
Proof. exact @c19_readd_rejected__p. Qed.
Print Assumptions c19_readd_rejected.

Definition ex_v (n : string) : mobj := exobj KVar n ["i"].
Definition ex_p (n : string) : mobj := exobj KPar n [].
Definition ex_parse : parser := fun _ _ _ _ t => if String.eqb t "x = (" then None else Some (7, ["i"]).
Definition ex_m0 : model := MkModel [("i", [LStr "A"; LStr "B"])] true None [] [] [] [] [] [].
Definition ex_hist : list op :=
  [AddVars (Many [PObj (ex_v "x"); PObj (ex_v "y")]) false; AddVars (Many [PObj (ex_v "z"); PObj (ex_v "x"); PObj (ex_v "w")]) false;
   AddPar (PObj (ex_v "x")) true; AddPar (PObj (ex_p "a")) false; AddEqs (Many [PEqn (MkEqn "e" "x = y" None)]) false;
   AddEqs (Many [PEqn (MkEqn "f" "x = (" None)]) true; AddVar (PObj (exobj KVar "x" [])) true].
Example c19_history_ex :
  holds ex_m0 (regs_of ex_m0) /\ well_filed ex_m0 /\
  let m := run ex_parse ex_m0 ex_hist in
  dkeys (m_vars m) = ["x"; "y"; "z"] /\ option_map o_dims (dget "x" (m_vars m)) = Some [] /\
  dkeys (m_pars m) = ["a"] /\ dkeys (m_eqs m) = ["e"] /\
  snd (run_op ex_parse m (AddVar (PObj (ex_v "y")) false)) = Err ValueError.
Proof.
  split; [split; [|split]; repeat split; constructor|].
  split; [repeat split; try constructor; intros; discriminate|]. vm_compute. repeat split; reflexivity.
Qed.
Example c19_readd_rejected_ex :
  let m := run ex_parse ex_m0 ex_hist in
  In (o_name (ex_v "y")) (dkeys (m_vars m)) /\ o_kind (ex_v "y") = KVar /\
  In (q_name (MkEqn "e" "z = 1" None)) (dkeys (m_eqs m)).
Proof. vm_compute. repeat split; auto. Qed.
Example c19_spec_deterministic_ex :
  additions false (omap_of [("x", ex_v "x")]) (map object_request [ex_v "z"; ex_v "x"; ex_v "w"])
            (insert "z" (ex_v "z") (omap_of [("x", ex_v "x")])) false.
Proof.
  eapply add_one; [reflexivity|right; simpl; intuition discriminate|].
  eapply add_taken; [reflexivity|reflexivity|simpl; auto].
Qed.

(** C20 *)
Theorem c20_single_atomic :
  forall (parse : parser) (m m' : model) (x : pyobj) (ow : bool) (e : exn) (f : pyobj -> bool -> op),
  f = AddVar \/ f = AddPar \/ f = AddSymEq \/ f = AddPytEq ->
  run_op parse m (f x ow) = (m', Err e) -> m' = m.
Proof. exact @c20_single_atomic__p. Qed.
Print Assumptions c20_single_atomic.
Theorem c20_wrong_class_atomic :
  forall (parse : parser) (m : model) (l : list pyobj) (ow : bool),
  ((exists x, In x l /\ forall o, x = PObj o -> o_kind o <> KVar) ->
     exists e, run_op parse m (AddVars (Many l) ow) = (m, Err e)) /\
  ((exists x, In x l /\ forall o, x = PObj o -> o_kind o <> KPar) ->
     exists e, run_op parse m (AddPars (Many l) ow) = (m, Err e)) /\
  ((exists x, In x l /\ forall q, x <> PEqn q) ->
     exists e, run_op parse m (AddEqs (Many l) ow) = (m, Err e)).
Proof. exact @c20_wrong_class_atomic__p. Qed.
Print Assumptions c20_wrong_class_atomic.
Theorem c20_fresh_batch :
  forall (parse : parser) (m : model) (l : list mobj),
  (NoDup (dkeys (m_vars m) ++ map o_name l) -> (forall o, In o l -> o_kind o = KVar) ->
     exists m', run_op parse m (AddVars (Many (map PObj l)) false) = (m', Ok tt) /\
                m_vars m' = (m_vars m ++ combine (map o_name l) l)%list) /\
  (NoDup (dkeys (m_pars m) ++ map o_name l) -> (forall o, In o l -> o_kind o = KPar) ->
     exists m', run_op parse m (AddPars (Many (map PObj l)) false) = (m', Ok tt) /\
                m_pars m' = (m_pars m ++ combine (map o_name l) l)%list).
Proof. exact @c20_fresh_batch__p. Qed.
Print Assumptions c20_fresh_batch.
Theorem c20_batch_refuted :
  exists (m m' : model) (l : list pyobj),
    (forall parse, run_op parse m (AddVars (Many l) false) = (m', Err ValueError)) /\
    (exists o, In (PObj o) l /\ dget (o_name o) (m_vars m) = None /\ dget (o_name o) (m_vars m') = Some o) /\
    (exists parse qs mq, run_op parse m (AddEqs (Many (map PEqn qs)) false) = (mq, Err ValueError) /\
                         dkeys (m_eqs mq) = ["market"]).
Proof. exact @c20_batch_refuted__p. Qed.
Print Assumptions c20_batch_refuted.
Example c20_single_atomic_ex :
  let m := run ex_parse ex_m0 ex_hist in
  run_op ex_parse m (AddVar (PObj (ex_v "y")) false) = (m, Err ValueError) /\
  run_op ex_parse m (AddSymEq (PEqn (MkEqn "f" "x = (" None)) true) = (m, Err ValueError).
Proof. split; reflexivity. Qed.
Example c20_wrong_class_atomic_ex :
  let l := [PObj (ex_v "x"); PObj (ex_p "a"); POther] in
  (exists x, In x l /\ forall o, x = PObj o -> o_kind o <> KVar) /\
  run_op ex_parse ex_m0 (AddVars (Many l) true) = (ex_m0, Err ValueError).
Proof.
  split; [|reflexivity]. exists (PObj (ex_p "a")). split; [simpl; auto|].
  intros o E. injection E as <-. discriminate.
Qed.
Example c20_fresh_batch_ex :
  let m := run ex_parse ex_m0 ex_hist in
  NoDup (dkeys (m_vars m) ++ map o_name [ex_v "u"; ex_v "v"])%list /\ (forall o, In o [ex_v "u"; ex_v "v"] -> o_kind o = KVar).
Proof.
  split.
  - assert (E : (dkeys (m_vars (run ex_parse ex_m0 ex_hist)) ++ map o_name [ex_v "u"; ex_v "v"])%list = ["x"; "y"; "z"; "u"; "v"]) by reflexivity.
    cbv zeta. rewrite E. repeat (constructor; [simpl; intuition discriminate|]). constructor.
  - simpl. intuition; subst; reflexivity.
Qed.

(** C21 *)
Theorem c21_get_by_name :
  forall (m : model) (names : list string),
  well_filed m ->
  match get m (Some names) with
  | Ok g =>
      let l := match g with GotOne o => [o] | GotMany l => l end in
      map o_name l = names /\
      (forall o, In o l -> dget (o_name o) (m_vars m) = Some o \/
                           dget (o_name o) (m_vars m) = None /\ dget (o_name o) (m_pars m) = Some o) /\
      (match g with GotOne _ => length names = 1 | GotMany _ => length names <> 1 end)
  | Err e => e = ValueError /\ exists n, In n names /\ ~ In n (dkeys (m_vars m)) /\ ~ In n (dkeys (m_pars m))
  end.
Proof. exact @c21_get_by_name__p. Qed.
Print Assumptions c21_get_by_name.
Theorem c21_get_all :
  forall (m : model),
  well_filed m -> (forall n, In n (dkeys (m_pars m)) -> ~ In n (dkeys (m_vars m))) ->
  exists g, get m None = Ok g /\
    (match g with GotOne o => [o] | GotMany l => l end) = (map snd (m_pars m) ++ map snd (m_vars m))%list.
Proof. exact @c21_get_all__p. Qed.
Print Assumptions c21_get_all.
Theorem c21_symbol_by_name :
  forall (order : list string -> list string) (parse : parser) (c : coords) (vars pars eqs : option pyarg)
         (numeraire : option string) (m : model) (n : string),
  construct order parse c vars pars eqs numeraire true = Ok m ->
  (forall s, get_symbol m (Some [n]) = Ok s -> exists sy, s = GotOne sy /\ sy_name sy = n) /\
  (In n (dkeys (m_uvars m)) \/ In n (dkeys (m_upars m)) -> exists s, get_symbol m (Some [n]) = Ok s) /\
  (~ In n (dkeys (m_uvars m)) -> ~ In n (dkeys (m_upars m)) -> get_symbol m (Some [n]) = Err ValueError) /\
  (* the symbol is that of the parent object unless a parameter hides a variable *)
  (~ (In n (dkeys (m_uvars m)) /\ In n (dkeys (m_upars m))) ->
   forall u, get_unpacked_parent_object m n = Ok u ->
             get_symbol m (Some [n]) = Ok (GotOne (MkSymbol n (o_real u) (o_positive u)))).
Proof. exact @c21_symbol_by_name__p. Qed.
Print Assumptions c21_symbol_by_name.
Theorem c21_all_symbols_refuted :
  forall (m : model), m_upars m <> [] -> exists e, get_symbol m None = Err e.
Proof. exact @c21_all_symbols_refuted__p. Qed.
Print Assumptions c21_all_symbols_refuted.
Theorem c21_same_object_refuted :
  exists (m : model),
    construct (fun l => l) toy_parse [] (Some (Many [PObj (MkObj KVar "x" [] [] "x" "x" "x" "x" true false 0)]))
              (Some (Many [PObj (MkObj KPar "x" [] [] "x" "x" "x" "x" true true 0)]))
              (Some (Many [PEqn (MkEqn "e" "x = 1" None)])) None true = Ok m /\
    (exists o, get m (Some ["x"]) = Ok (GotOne o) /\ o_kind o = KVar /\ o_positive o = false) /\
    get_symbol m (Some ["x"]) = Ok (GotOne (MkSymbol "x" true true)) /\
    (exists l, get m None = Ok (GotMany l) /\ map o_kind l = [KVar; KVar]).
Proof. exact @c21_same_object_refuted__p. Qed.
Print Assumptions c21_same_object_refuted.
Definition ex_built : res model :=
  construct (fun l => l) ex_parse [("i", [LStr "A"; LStr "B"])] (Some (Many [PObj (ex_v "x"); PObj (exobj KVar "y" [])]))
            (Some (Many [PObj (ex_p "a")])) (Some (Many [PEqn (MkEqn "e<dim:i>" "x = y" None)])) (Some "y") true.
Definition ex_built2 : res model :=
  construct (fun l => l) ex_parse [("i", [LStr "A"; LStr "B"])] (Some (Many [PObj (ex_v "x"); PObj (ex_v "y")]))
            (Some (Many [PObj (ex_p "a")])) (Some (Many [PEqn (MkEqn "e<dim:i>" "x = y" None); PEqn (MkEqn "f<dim:i>" "x = a" None)])) (Some "y") true.
Example c21_well_filed_ex : well_filed (run ex_parse ex_m0 ex_hist).
Proof. apply c19_unique_names__p. repeat split; try constructor; intros; discriminate. Qed.
Example c21_ex :
  match ex_built2 with
  | Ok m => dkeys (m_pars m) = ["a"] /\ dkeys (m_vars m) = ["x"] /\ dkeys (m_upars m) = ["a"] /\
            get m (Some ["x"]) = Ok (GotOne (ex_v "x")) /\ get m (Some ["x"; "a"]) = Ok (GotMany [ex_v "x"; ex_p "a"]) /\
            get m (Some ["x"; "y"]) = Err ValueError /\ get m None = Ok (GotMany [ex_p "a"; ex_v "x"]) /\
            get_symbol m (Some ["x_B"]) = Ok (GotOne (MkSymbol "x_B" true true)) /\ get_symbol m (Some ["x"]) = Err ValueError
  | Err _ => False
  end.
Proof. vm_compute. repeat split; reflexivity. Qed.

(** C22 *)
Theorem c22_square_counts :
  forall (order : list string -> list string) (parse : parser) (c : coords)
         (vs ps : list mobj) (qs : list equation) (es : list seqn)
         (numeraire : option string) (num : option mobj) (uv up : list mobj) (ue : list seqn)
         (vshapes eshapes : list (list nat)),
  (forall o, In o vs -> o_kind o = KVar) -> (forall o, In o ps -> o_kind o = KPar) ->
  NoDup (map o_name vs) -> NoDup (map o_name ps) -> NoDup (map q_name qs) ->
  (forall o, In o vs -> NoDup (o_dims o) /\ o_dim_vals o = []) ->
  Forall2 (has_shape c) vs vshapes ->
  Forall2 (fun q e => parse (combine (map o_name vs) vs) (combine (map o_name ps) ps) c num (q_text q) =
                        Some (se_id e, se_dims e) /\ e = MkSeqn (se_id e) (q_name q) (se_dims e) [] []) qs es ->
  Forall2 (fun e s => Forall2 (fun d n => exists ls, dget d c = Some ls /\ length ls = n) (se_dims e) s) es eshapes ->
  match numeraire with None => num = None | Some n => exists o, num = Some o /\ In o vs /\ o_name o = n end ->
  unpack_objects order vs c = Ok uv -> NoDup (map make_indexed_name uv) ->
  unpack_objects order ps c = Ok up -> NoDup (map make_indexed_name up) ->
  unpack_eq_list es c = Ok ue -> NoDup (map se_name ue) ->
  let built := construct order parse c (Some (Many (map PObj vs))) (Some (Many (map PObj ps)))
                         (Some (Many (map PEqn qs))) numeraire true in
  (list_sum (map prodn vshapes) = list_sum (map prodn eshapes) -> exists m, built = Ok m) /\
  (list_sum (map prodn vshapes) <> list_sum (map prodn eshapes) -> built = Err ValueError).
Proof. exact @c22_square_counts__p. Qed.
Print Assumptions c22_square_counts.
Theorem c22_numeraire_refuted :
  (* one equation for the one remaining unknown: rejected *)
  construct (fun l => l) toy_parse [] (Some (Many (map PObj toy_vars))) (Some (Many (map PObj toy_pars)))
            (Some (Many [PEqn (MkEqn "market" "x = a" None)])) (Some "p") true = Err ValueError /\
  (* two equations for the one remaining unknown: accepted *)
  (exists m, construct (fun l => l) toy_parse [] (Some (Many (map PObj toy_vars))) (Some (Many (map PObj toy_pars)))
            (Some (Many [PEqn (MkEqn "market" "x = a" None); PEqn (MkEqn "walras" "x * p = a" None)])) (Some "p") true = Ok m /\
            dkeys (m_vars m) = ["x"] /\ length (m_ueqs m) = 2).
Proof. exact @c22_numeraire_refuted__p. Qed.
Print Assumptions c22_numeraire_refuted.
Theorem c22_text_ignored_refuted :
  forall (order : list string -> list string) (parse parse' : parser) (c : coords) (vars pars : option pyarg)
         (qs qs' : list equation) (numeraire : option string),
  map q_name qs = map q_name qs' -> NoDup (map q_name qs) ->
  is_ok (construct order parse c vars pars (Some (Many (map PEqn qs))) numeraire false) =
  is_ok (construct order parse' c vars pars (Some (Many (map PEqn qs'))) numeraire false).
Proof. exact @c22_text_ignored_refuted__p. Qed.
Print Assumptions c22_text_ignored_refuted.
Example c22_square_counts_ex :
  exists uv up ue, let c := [("i", [LStr "A"; LStr "B"])] in
  let vs := [ex_v "x"; ex_v "y"] in let ps := [ex_p "a"] in
  let es := [MkSeqn 7 "e<dim:i>" ["i"] [] []; MkSeqn 7 "f<dim:i>" ["i"] [] []] in
  Forall2 (has_shape c) vs [[2]; [2]] /\
  Forall2 (fun q e => ex_parse (combine (map o_name vs) vs) (combine (map o_name ps) ps) c None (q_text q) =
                        Some (se_id e, se_dims e) /\ e = MkSeqn (se_id e) (q_name q) (se_dims e) [] [])
          [MkEqn "e<dim:i>" "x = y" None; MkEqn "f<dim:i>" "x = a" None] es /\
  unpack_objects (fun l => l) vs c = Ok uv /\ map make_indexed_name uv = ["x_A"; "x_B"; "y_A"; "y_B"] /\
  unpack_objects (fun l => l) ps c = Ok up /\ map make_indexed_name up = ["a"] /\
  unpack_eq_list es c = Ok ue /\ map se_name ue = ["eA"; "eB"; "fA"; "fB"].
Proof.
  do 3 eexists. split; [repeat constructor; eexists; split; reflexivity|].
  split; [repeat constructor|]. split; [vm_compute; reflexivity|]. split; [vm_compute; reflexivity|].
  split; [vm_compute; reflexivity|]. split; [vm_compute; reflexivity|]. split; vm_compute; reflexivity.
Qed.
(** In the pytensor path an equation with two scalar components under a name
    without marker counts once: a model with two unknowns is rejected. *)
Example c22_text_ignored_ex :
  let vs := Some (Many [PObj (ex_v "x")]) in
  construct (fun l => l) ex_parse [("i", [LStr "A"; LStr "B"])] vs None
            (Some (Many [PEqn (MkEqn "e" "x = 1" None)])) None false = Err ValueError /\
  is_ok (construct (fun l => l) ex_parse [("i", [LStr "A"; LStr "B"])] vs None
            (Some (Many [PEqn (MkEqn "e<dim:i>" "x.sum() = 1" None)])) None false) = true.
Proof. split; vm_compute; reflexivity. Qed.

(** C23 *)
Theorem c23_numeraire_not_variable :
  forall (order : list string -> list string) (parse : parser) (c : coords) (vs : list mobj)
         (pars eqs : option pyarg) (n : string) (sympy : bool) (m : model),
  n <> "" ->
  construct order parse c (Some (Many (map PObj vs))) pars eqs (Some n) sympy = Ok m ->
  (exists o, m_numeraire m = Some o /\ In o vs /\ o_name o = n) /\
  dkeys (m_vars m) = filter (fun k => negb (String.eqb k n)) (map o_name vs) /\
  ~ In n (dkeys (m_vars m)) /\ get_one m n = (match dget n (m_pars m) with Some o => Ok o | None => Err ValueError end).
Proof. exact @c23_numeraire_not_variable__p. Qed.
Print Assumptions c23_numeraire_not_variable.
Theorem c23_unpacked_refuted :
  exists (m : model),
    construct (fun l => l) toy_parse [] (Some (Many (map PObj toy_vars))) (Some (Many (map PObj toy_pars)))
            (Some (Many [PEqn (MkEqn "market" "x = a" None); PEqn (MkEqn "walras" "x * p = a" None)])) (Some "p") true = Ok m /\
    In "p" (dkeys (m_uvars m)) /\ ~ In "p" (dkeys (m_pars m)) /\ ~ In "p" (dkeys (m_upars m)) /\
    get m (Some ["p"]) = Err ValueError /\
    get_symbol m (Some ["p"]) = Ok (GotOne (MkSymbol "p" true true)).
Proof. exact @c23_unpacked_refuted__p. Qed.
Print Assumptions c23_unpacked_refuted.
Example c23_numeraire_not_variable_ex :
  match ex_built2 with
  | Ok m => m_numeraire m = Some (ex_v "y") /\ dkeys (m_vars m) = ["x"] /\ dkeys (m_uvars m) = ["x_A"; "x_B"; "y_A"; "y_B"]
  | Err _ => False
  end /\ ex_built = Err ValueError.
Proof. vm_compute. repeat split; reflexivity. Qed.
