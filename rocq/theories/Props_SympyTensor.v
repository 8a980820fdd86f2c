(** C85: the sympytensor functions return the residuals of the written equations and their derivatives. *)
From Coq Require Import Reals Lra.
From Verif Require Import Py PyStr NdArray M_Primitives M_Utilities M_Expand M_SymExpr M_Calculus M_Simplify M_Lambdify M_NumbaModel M_SympyTensor.
From Verif Require Import S_Layout S_Calculus S_Reduce S_Simplify S_Lambdify S_NumbaModel S_SympyTensor.
From Verif Require Import L_Reduce L_Reduce5 L_Lambdify L_Lambdify2 L_NumbaModel L_SympyTensor L_SympyTensor2 Props_NumbaModel.
Local Open Scope string_scope.
Local Open Scope list_scope.

(** The model of C81: P[i] = T * Y and Sum(P[i], (i, 0, 1)) = Y *)
Definition st_compile params := compile_sympytensor_cge_functions sympy_rule (uniq sexpr_eqb) (uniq pair_eqb) sexpr_eqb (fun l => l) em_c None em_vars params em_eqs.
(** What is compiled *)
Definition st_eqs : list sexpr :=
  [SBin OSub (SSym "P_food") (SBin OMul (SSym "T") (SSym "Y")); SBin OSub (SSym "P_steel") (SBin OMul (SSym "T") (SSym "Y"));
   SBin OSub (SBin OAdd (SSym "P_food") (SBin OAdd (SSym "P_steel") (SNum 0))) (SSym "Y")].
Definition st_replace : dict (string * list nat) := [("P_food", ("P", [0])); ("T", ("T", [])); ("Y", ("Y", [])); ("P_steel", ("P", [1]))].
Definition st_vs : list string := ["P_food"; "P_steel"; "Y"].
Definition st_grad : list sexpr := Eval cbv in make_sympy_gradient (squared_loss st_eqs) st_vs.
Definition st_jac : list (list sexpr) := Eval cbv in map (fun e => map (fun y => diff y e) st_vs) st_eqs.
Definition st_hess : list (list sexpr) := Eval cbv in map (fun e => map (fun y => diff y e) st_vs) st_grad.
Definition st_hessp : list sexpr := Eval cbv in make_sympy_hessp st_grad st_vs.
Definition st_f : sympytensor_functions :=
  MkSympytensor
    (call ["P"; "Y"; "T"] (fun data => map_res (graph_value data st_replace []) st_eqs))
    (matrix_function ["P"; "Y"; "T"] st_replace st_jac)
    (call ["P"; "Y"; "T"] (fun data => graph_value data st_replace [] (squared_loss st_eqs)))
    (call ["P"; "Y"; "T"] (fun data => map_res (graph_value data st_replace []) st_grad))
    (matrix_function ["P"; "Y"; "T"] st_replace st_hess)
    (call ["P"; "Y"; "T"; "P_point"; "Y_point"]
       (fun kwargs => let* point := point_vector em_vars kwargs in map_res (graph_value kwargs st_replace point) st_hessp)).
Example st_compiled : st_compile em_params = Ok st_f.
Proof. reflexivity. Qed.
Example st_declaration : declaration (fun l => l) em_c em_vars em_params em_uv em_up.
Proof.
  destruct em_data as (A & B & _ & C & _). split; [exact A|]. split; [exact B|]. split.
  { intros i ls H. cbn in H. destruct (String.eqb i "i"); [injection H as <-|discriminate]. repeat constructor; cbn; intuition discriminate. }
  split; [reflexivity|]. split; [reflexivity|]. split; [exact C|]. cbn. repeat constructor; cbn; intuition discriminate.
Qed.
Example st_arguments : arguments em_c em_vars em_params em_d em_v em_w [2; 3; 4]%R [5]%R.
Proof.
  destruct em_data as (_ & _ & H & _ & _ & D). split; [exact H|]. split; [|split; [exact em_flat|exact D]]. cbn. intros k. tauto.
Qed.
Example st_equations : em_vars <> [] /\ em_eqs <> [] /\
  (forall lr, In lr em_eqs -> flat_reductions em_c (fun _ => [["food"; "steel"]]) (written lr) /\ has_value em_c em_v em_w lr /\
     exists es, equation_symbols sympy_rule (uniq sexpr_eqb) (uniq pair_eqb) sexpr_eqb em_c None (em_uv ++ em_up) (fst lr) (snd lr) = Ok es) /\
  (forall o, In o (em_vars ++ em_params) -> exists lr es, In lr em_eqs /\
     equation_symbols sympy_rule (uniq sexpr_eqb) (uniq pair_eqb) sexpr_eqb em_c None (em_uv ++ em_up) (fst lr) (snd lr) = Ok es /\ occurs_in em_c es o) /\
  ~ In "hess_point" (map make_indexed_name (em_uv ++ em_up)).
Proof.
  split; [discriminate|]. split; [discriminate|]. split.
  { intros lr Hl. destruct (@em_equations lr Hl) as (A & B & es & E & _). eauto. }
  split; [|rewrite em_names; cbn; intuition discriminate].
  intros o [<-|[<-|[<-|[]]]]; eexists; eexists; (split; [left; reflexivity|]); (split; [reflexivity|]).
  - eexists. exists ["food"]. split; [left; reflexivity|]. split; [|apply mem_str_In; reflexivity]. repeat constructor. exists ["food"; "steel"]. cbn; tauto.
  - eexists. exists []. split; [left; reflexivity|]. split; [constructor|apply mem_str_In; reflexivity].
  - eexists. exists []. split; [left; reflexivity|]. split; [constructor|apply mem_str_In; reflexivity].
Qed.

Theorem c85_system :
  forall sub_into set_order dict_order evaluates order, walks_set set_order -> walks_set dict_order ->
  forall c axes vars params equations uv up d v w x theta,
    declaration order c vars params uv up -> arguments c vars params d v w x theta -> vars <> [] -> equations <> [] ->
    (forall lr, In lr equations -> flat_reductions c axes (written lr) /\ has_value c v w lr /\
       exists es, equation_symbols sub_into set_order dict_order evaluates c None (uv ++ up) (fst lr) (snd lr) = Ok es) ->
    (forall o, In o (vars ++ params) -> exists lr es, In lr equations /\
       equation_symbols sub_into set_order dict_order evaluates c None (uv ++ up) (fst lr) (snd lr) = Ok es /\ occurs_in c es o) ->
    let names := map make_indexed_name (uv ++ up) in
    ~ In "hess_point"%string names ->
    exists f, compile_sympytensor_cge_functions sub_into set_order dict_order evaluates order c None vars params equations = Ok f /\
      (exists blocks, Forall2 (residuals c v w) equations blocks /\
        sf_system f d = Ok (List.concat blocks) /\
        sf_resid f d = Ok (/ 2 * rsum (map (fun r => r * r) (List.concat blocks)))%R) /\
      forall kw, (exists k, In k (dkeys kw) /\ ~ In k (map o_name (vars ++ params))) \/ (exists n, In n (map o_name (vars ++ params)) /\ ~ In n (dkeys kw)) ->
        sf_system f kw = Err TypeError /\ sf_jac f kw = Err TypeError /\ sf_resid f kw = Err TypeError /\ sf_grad f kw = Err TypeError /\ sf_hess f kw = Err TypeError.
Proof. exact @c85_system__p. Qed.
Print Assumptions c85_system.
Example c85_system_ex : exists r l, st_compile em_params = Ok st_f /\ sf_system st_f em_d = Ok r /\ r = [-18; -17; 1]%R /\ sf_resid st_f em_d = Ok l /\ l = 307%R /\
  sf_system st_f [("P", mkArr [2] [2; 3]%R); ("Y", mkArr [] [4]%R)] = Err TypeError.
Proof. do 2 eexists. split; [exact st_compiled|]. split; [reflexivity|]. split; [lists|]. split; [reflexivity|]. split; [lists|]. reflexivity. Qed.

Theorem c85_jacobian :
  forall sub_into set_order dict_order evaluates order, walks_set set_order -> walks_set dict_order ->
  forall c axes vars params equations uv up d v w x theta,
    declaration order c vars params uv up -> arguments c vars params d v w x theta -> vars <> [] -> equations <> [] ->
    (forall lr, In lr equations -> flat_reductions c axes (written lr) /\ has_value c v w lr /\
       exists es, equation_symbols sub_into set_order dict_order evaluates c None (uv ++ up) (fst lr) (snd lr) = Ok es) ->
    (forall o, In o (vars ++ params) -> exists lr es, In lr equations /\
       equation_symbols sub_into set_order dict_order evaluates c None (uv ++ up) (fst lr) (snd lr) = Ok es /\ occurs_in c es o) ->
    let names := map make_indexed_name (uv ++ up) in
    ~ In "hess_point"%string names ->
    exists f, compile_sympytensor_cge_functions sub_into set_order dict_order evaluates order c None vars params equations = Ok f /\
      exists blocks, sf_jac f d = Ok (List.concat blocks) /\
        Forall2 (fun lr block => exists dims shape, equation_dims c (written lr) dims /\ dims_shape c dims shape /\ length block = prodn shape /\
          forall idx ls, labels_of c dims idx ls -> exists row, nth_error block (offset shape idx) = Some row /\ length row = length x /\
            forall j o a idx' ls', nth_error vars j = Some o -> dget (o_name o) d = Some a -> labels_of c (o_dims o) idx' ls' ->
              exists r dv, aget a idx' = Ok r /\ nth_error row (start_of d vars j + offset (ashape a) idx') = Some dv /\
                ((forall es e, equation_symbols sub_into set_order dict_order evaluates c None (uv ++ up) (fst lr) (snd lr) = Ok es ->
                    nth_error es (offset shape idx) = Some e -> smooth (state_of names (x ++ theta)) (fun _ _ => 0%R) e) ->
                 derivable_pt_lim (fun t => number (den c (put_elem o ls' t v) (put_scal o t w) (assign dims ls) (written lr))) r dv)) equations blocks.
Proof. exact @c85_jacobian__p. Qed.
Print Assumptions c85_jacobian.
Example c85_jacobian_ex : exists J, st_compile em_params = Ok st_f /\ sf_jac st_f em_d = Ok J /\ J = [[1; 0; -5]; [0; 1; -5]; [1; 1; -1]]%R.
Proof. eexists. split; [exact st_compiled|]. split; [reflexivity|]. lists. Qed.

Theorem c85_gradient :
  forall sub_into set_order dict_order evaluates order, walks_set set_order -> walks_set dict_order ->
  forall c axes vars params equations uv up d v w x theta,
    declaration order c vars params uv up -> arguments c vars params d v w x theta -> vars <> [] -> equations <> [] ->
    (forall lr, In lr equations -> flat_reductions c axes (written lr) /\ has_value c v w lr /\
       exists es, equation_symbols sub_into set_order dict_order evaluates c None (uv ++ up) (fst lr) (snd lr) = Ok es) ->
    (forall o, In o (vars ++ params) -> exists lr es, In lr equations /\
       equation_symbols sub_into set_order dict_order evaluates c None (uv ++ up) (fst lr) (snd lr) = Ok es /\ occurs_in c es o) ->
    let names := map make_indexed_name (uv ++ up) in
    ~ In "hess_point"%string names ->
    exists f, compile_sympytensor_cge_functions sub_into set_order dict_order evaluates order c None vars params equations = Ok f /\
      exists G, sf_grad f d = Ok G /\ length G = length x /\
        forall j o a idx ls, nth_error vars j = Some o -> dget (o_name o) d = Some a -> labels_of c (o_dims o) idx ls ->
          exists r dv, aget a idx = Ok r /\ nth_error G (start_of d vars j + offset (ashape a) idx) = Some dv /\
            ((forall lr es, In lr equations -> equation_symbols sub_into set_order dict_order evaluates c None (uv ++ up) (fst lr) (snd lr) = Ok es ->
                Forall (smooth (state_of names (x ++ theta)) (fun _ _ => 0%R)) es) ->
             exists blocks, (forall t, Forall2 (residuals c (put_elem o ls t v) (put_scal o t w)) equations (blocks t)) /\
               derivable_pt_lim (fun t => / 2 * rsum (map (fun z => z * z) (List.concat (blocks t))))%R r dv).
Proof. exact @c85_gradient__p. Qed.
Print Assumptions c85_gradient.
Example c85_gradient_ex : exists G, st_compile em_params = Ok st_f /\ sf_grad st_f em_d = Ok G /\ G = [-17; -16; 174]%R.
Proof. eexists. split; [exact st_compiled|]. split; [reflexivity|]. lists. Qed.

Theorem c85_hessian :
  forall sub_into set_order dict_order evaluates order, walks_set set_order -> walks_set dict_order ->
  forall c axes vars params equations uv up d v w x theta,
    declaration order c vars params uv up -> arguments c vars params d v w x theta -> vars <> [] -> equations <> [] ->
    (forall lr, In lr equations -> flat_reductions c axes (written lr) /\ has_value c v w lr /\
       exists es, equation_symbols sub_into set_order dict_order evaluates c None (uv ++ up) (fst lr) (snd lr) = Ok es) ->
    (forall o, In o (vars ++ params) -> exists lr es, In lr equations /\
       equation_symbols sub_into set_order dict_order evaluates c None (uv ++ up) (fst lr) (snd lr) = Ok es /\ occurs_in c es o) ->
    let names := map make_indexed_name (uv ++ up) in
    ~ In "hess_point"%string names ->
    exists f, compile_sympytensor_cge_functions sub_into set_order dict_order evaluates order c None vars params equations = Ok f /\
      ((forall lr es, In lr equations -> equation_symbols sub_into set_order dict_order evaluates c None (uv ++ up) (fst lr) (snd lr) = Ok es ->
          Forall (smooth (state_of names (x ++ theta)) (fun _ _ => 0%R)) es) ->
       exists H, sf_hess f d = Ok H /\ length H = length x /\ (forall i row, nth_error H i = Some row -> length row = length x) /\
         (forall i k, i < length x -> k < length x -> nth k (nth i H []) 0%R = nth i (nth k H []) 0%R) /\
         (forall j o a idx ls, nth_error vars j = Some o -> dget (o_name o) d = Some a -> labels_of c (o_dims o) idx ls ->
            forall dt, (forall t, exists x' theta', arguments c vars params (dt t) (put_elem o ls t v) (put_scal o t w) x' theta') ->
            exists r, aget a idx = Ok r /\ forall i, i < length x -> exists g, (forall t, exists G, sf_grad f (dt t) = Ok G /\ nth_error G i = Some (g t)) /\
              derivable_pt_lim g r (nth (start_of d vars j + offset (ashape a) idx) (nth i H []) 0%R)) /\
         (forall pts, direction vars d pts -> NoDup (map o_name (vars ++ params) ++ point_names vars) ->
            sf_hessp f (d ++ combine (point_names vars) pts) =
              Ok (map (fun row => rsum (map (fun kd => fst kd * snd kd)%R (combine row (List.concat (map (@adata R) pts))))) H))).
Proof. exact @c85_hessian__p. Qed.
Print Assumptions c85_hessian.
(** The Hessian J' J of the linear system, and its product with (1, 0, 2) *)
Example c85_hessian_ex : exists H h, st_compile em_params = Ok st_f /\ sf_hess st_f em_d = Ok H /\ H = [[2; 1; -6]; [1; 2; -6]; [-6; -6; 51]]%R /\
  direction em_vars em_d [mkArr [2] [1; 0]%R; mkArr [] [2]%R] /\ NoDup (map o_name (em_vars ++ em_params) ++ point_names em_vars) /\
  sf_hessp st_f (em_d ++ combine (point_names em_vars) [mkArr [2] [1; 0]%R; mkArr [] [2]%R]) = Ok h /\ h = [-10; -11; 96]%R.
Proof.
  do 2 eexists. split; [exact st_compiled|]. split; [reflexivity|]. split; [lists|]. split.
  { repeat constructor; eexists; split; reflexivity. }
  split; [cbn; repeat constructor; cbn; intuition discriminate|]. split; [reflexivity|]. lists.
Qed.

(** The data as Y varies *)
Example c85_hessian_family : forall t, arguments em_c em_vars em_params [("P", mkArr [2] [2; 3]%R); ("Y", mkArr [] [t]); ("T", mkArr [] [5]%R)]
  (put_elem (exobj KVar "Y" []) [] t em_v) (put_scal (exobj KVar "Y" []) t em_w) [2; 3; t]%R [5]%R.
Proof.
  intros t. destruct em_data as (_ & _ & H & _ & _ & (D1 & D2)). split.
  { intros o Ho. split; [now apply H|]. destruct Ho as [<-|[<-|[<-|[]]]]; eexists; (split; [reflexivity|]); (split; [reflexivity|]); unfold has_shape; cbn; repeat constructor.
    eexists; split; reflexivity. }
  split; [cbn; intros k; tauto|]. split; [reflexivity|]. split.
  - intros b ls r. cbn [put_elem exobj o_dims]. rewrite (D1 b ls r).
    split; intros (o & a & idx & Ho & B & D & A & L); exists o, a, idx; (split; [exact Ho|]); (split; [exact B|]); (split; [exact D|]); (split; [|exact L]);
      destruct Ho as [<-|[<-|[<-|[]]]]; try (now destruct D); subst b; exact A.
  - intros s r. unfold put_scal. cbn [exobj o_dims o_name]. destruct (String.eqb_spec s "Y") as [->|N].
    + split; [intros Q; injection Q as <-; exists (exobj KVar "Y" []), (mkArr [] [t]); repeat split; cbn; tauto|].
      intros (o & a & [<-|[<-|[<-|[]]]] & E & D & A & G); try discriminate. cbn in A. injection A as <-. cbn in G. injection G as <-. reflexivity.
    + rewrite (D2 s r). split; intros (o & a & Ho & E & D & A & G); exists o, a; (split; [exact Ho|]); (split; [exact E|]); (split; [exact D|]); (split; [|exact G]);
        destruct Ho as [<-|[<-|[<-|[]]]]; subst s; try (now destruct N); exact A.
Qed.

Theorem c85_unused :
  forall sub_into set_order dict_order evaluates order, walks_set set_order -> walks_set dict_order ->
  forall c axes vars params equations uv up d v w x theta,
    declaration order c vars params uv up -> arguments c vars params d v w x theta -> vars <> [] -> equations <> [] ->
    (forall lr, In lr equations -> flat_reductions c axes (written lr) /\ has_value c v w lr /\
       exists es, equation_symbols sub_into set_order dict_order evaluates c None (uv ++ up) (fst lr) (snd lr) = Ok es) ->
    (exists o, In o (vars ++ params) /\ forall lr es, In lr equations ->
       equation_symbols sub_into set_order dict_order evaluates c None (uv ++ up) (fst lr) (snd lr) = Ok es -> ~ occurs_in c es o) ->
    compile_sympytensor_cge_functions sub_into set_order dict_order evaluates order c None vars params equations = Err ValueError.
Proof. exact @c85_unused__p. Qed.
Print Assumptions c85_unused.
(** A parameter G that is in no equation *)
Example c85_unused_ex : st_compile (em_params ++ [exobj KPar "G" []]) = Err ValueError.
Proof. reflexivity. Qed.

Theorem c85_numeraire_refuted :
  ~ (forall sub_into set_order dict_order evaluates order c n vars params equations d f J x theta,
       walks_set set_order -> walks_set dict_order -> In n vars ->
       compile_sympytensor_cge_functions sub_into set_order dict_order evaluates order c (Some n) vars params equations = Ok f ->
       variable_dict_to_flat_array d (packed_variables (Some n) vars) params = Ok (x, theta) -> sf_jac f d = Ok J ->
       forall row, In row J -> length row = length x).
Proof. exact @c85_numeraire_refuted__p. Qed.
Print Assumptions c85_numeraire_refuted.
