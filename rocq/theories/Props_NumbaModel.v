(** C81: the numba functions return the residuals of the written equations and their derivatives. *)
From Coq Require Import Reals Lra.
From Verif Require Import Py PyStr NdArray M_Primitives M_Utilities M_Expand M_SymExpr M_Calculus M_Simplify M_Lambdify M_NumbaModel.
From Verif Require Import S_Layout S_Calculus S_Reduce S_Simplify S_Lambdify S_NumbaModel.
From Verif Require Import L_Reduce L_Reduce5 L_Lambdify L_Lambdify2 L_NumbaModel.
Local Open Scope string_scope.
Local Open Scope list_scope.

(** Equal lists of reals *)
Ltac lists := cbn; repeat match goal with |- _ :: _ = _ :: _ => apply f_equal2 | |- [] = [] => reflexivity end;
  repeat match goal with |- context [py_pow ?x (IZR ?n)] => change (py_pow x (IZR n)) with (rpow x (IZR n)); rewrite rpow_IZR end; cbn [powerRZ];
  try (change (Pos.to_nat 2) with 2%nat); try (change (Pos.to_nat 1) with 1%nat); cbn [pow]; lra.

(** P over goods and a scalar Y are variables, T a parameter:
    P[i] = T * Y and Sum(P[i], (i, 0, 1)) = Y *)
Definition em_c : dict (list string) := [("i", ["food"; "steel"])].
Definition em_vars : list mobj := [exobj KVar "P" ["i"]; exobj KVar "Y" []].
Definition em_params : list mobj := [exobj KPar "T" []].
Definition em_eqs : list (sexpr * sexpr) :=
  [(SIx "P" [IVar "i"], SBin OMul (SSym "T") (SSym "Y")); (SRed RSum (SIx "P" [IVar "i"]) [("i", (0, 1))], SSym "Y")].
Definition em_d : dict (arr R) := [("P", mkArr [2] [2; 3]%R); ("Y", mkArr [] [4]%R); ("T", mkArr [] [5]%R)].
Definition em_v : elements := fun b ls => if String.eqb b "P" then
  match ls with [l] => if String.eqb l "food" then Some 2%R else if String.eqb l "steel" then Some 3%R else None | _ => None end else None.
Definition em_w : scalars := fun s => if String.eqb s "Y" then Some 4%R else if String.eqb s "T" then Some 5%R else None.
Definition em_uv := match unpack_objects (fun l => l) em_vars (lab_coords em_c) with Ok l => l | Err _ => [] end.
Definition em_up := match unpack_objects (fun l => l) em_params (lab_coords em_c) with Ok l => l | Err _ => [] end.
Definition em_compile := compile_numba_cge_functions sympy_rule (uniq sexpr_eqb) (uniq pair_eqb) sexpr_eqb first_cse (fun l => l) em_c None em_vars em_params em_eqs.

Example em_names : map make_indexed_name (em_uv ++ em_up) = ["P_food"; "P_steel"; "Y"; "T"].
Proof. reflexivity. Qed.
Example em_flat : variable_dict_to_flat_array em_d em_vars em_params = Ok ([2; 3; 4]%R, [5]%R).
Proof. reflexivity. Qed.
Example em_contract : walks_set (uniq sexpr_eqb) /\ walks_set (uniq pair_eqb) /\ eliminates first_cse.
Proof. split; [apply uniq_walks, sexpr_eqb_eq|]. split; [apply uniq_walks, pair_eqb_eq|apply first_cse_ok]. Qed.
Example em_data : plain_labels em_c /\ NoDup (dkeys em_c) /\ has_data em_c (em_vars ++ em_params) em_d /\
  NoDup (map make_indexed_name (em_uv ++ em_up)) /\ (forall n, In n (map make_indexed_name (em_uv ++ em_up)) -> is_name n = true /\ ~ In n reserved) /\
  data_of em_c (em_vars ++ em_params) em_d em_v em_w.
Proof.
  split.
  { intros i ls H. cbn in H. destruct (String.eqb i "i"); [injection H as <-; split; [discriminate|repeat constructor]|discriminate]. }
  split; [repeat constructor; cbn; tauto|]. split.
  { intros o [<-|[<-|[<-|[]]]]; (split; [split; [repeat constructor; cbn; tauto|]; repeat split; cbn; tauto|]); eexists; (split; [reflexivity|]); (split; [reflexivity|]); unfold has_shape; cbn; repeat constructor.
    eexists; split; reflexivity. }
  rewrite em_names. split; [repeat constructor; cbn; intuition discriminate|]. split.
  { intros n Hn. cbn in Hn. repeat destruct Hn as [<-|Hn]; try (split; [reflexivity|cbn; intuition discriminate]). destruct Hn. }
  split.
  - intros b ls r. split.
    + unfold em_v. destruct (String.eqb_spec b "P") as [->|]; [|discriminate]. destruct ls as [|l [|]]; try discriminate.
      destruct (String.eqb_spec l "food") as [->|]; [|destruct (String.eqb_spec l "steel") as [->|]; [|discriminate]]; intros H; injection H as <-;
        exists (exobj KVar "P" ["i"]), (mkArr [2] [2; 3]%R); [exists [0]|exists [1]];
        (split; [cbn; tauto|]); (split; [reflexivity|]); (split; [discriminate|]); (split; [reflexivity|]); (split; [|reflexivity]); (split; [reflexivity|]);
        repeat constructor; eexists; split; reflexivity.
    + intros (o & a & idx & [<-|[<-|[<-|[]]]] & <- & D & A & (L & F) & G); try (now cbn in D). cbn in A. injection A as <-. destruct idx as [|k [|]]; try discriminate.
      cbn in F. inversion F as [|? l ? ls' (all & E1 & E2) F']; subst. inversion F'; subst. cbn in E1. injection E1 as <-. cbn [fst snd] in E2.
      destruct k as [|[|k]]; cbn in E2; [injection E2 as <-..|destruct k; discriminate]; cbn in G; injection G as <-; reflexivity.
  - intros s r. split.
    + unfold em_w. destruct (String.eqb_spec s "Y") as [->|]; [|destruct (String.eqb_spec s "T") as [->|]; [|discriminate]]; intros H; injection H as <-;
        [exists (exobj KVar "Y" []), (mkArr [] [4]%R)|exists (exobj KPar "T" []), (mkArr [] [5]%R)]; repeat split; cbn; tauto.
    + intros (o & a & [<-|[<-|[<-|[]]]] & <- & D & A & G); try discriminate; cbn in A; injection A as <-; cbn in G; injection G as <-; reflexivity.
Qed.
Example em_equations : forall lr, In lr em_eqs -> flat_reductions em_c (fun _ => [["food"; "steel"]]) (written lr) /\ has_value em_c em_v em_w lr /\
  exists es, equation_symbols sympy_rule (uniq sexpr_eqb) (uniq pair_eqb) sexpr_eqb em_c None (em_uv ++ em_up) (fst lr) (snd lr) = Ok es /\
    Forall (smooth (state_of ["P_food"; "P_steel"; "Y"; "T"] [2; 3; 4; 5]%R) (fun _ _ => 0%R)) es.
Proof.
  assert (V : forall dims ls, element em_c dims ls -> In "i" dims -> (exists f, dims = filter f (dkeys em_c)) -> ls = ["food"] \/ ls = ["steel"]).
  { intros dims ls E I (f & ->). cbn in I, E. destruct (f "i"); [|destruct I]. inversion E as [|? l ? ls' (all & E1 & E2) F']; subst. inversion F'; subst.
    cbn in E1. injection E1 as <-. destruct E2 as [<-|[<-|[]]]; auto. }
  intros lr [<-|[<-|[]]]; (split; [|split; [|eexists; split; [reflexivity|repeat constructor]]]).
  - cbn. auto.
  - intros dims ls (N & (f & D) & O) E. assert (I : In "i" dims). { apply O. split; [cbn; tauto|]. apply OfL. cbn. apply OfIx. cbn. tauto. }
    destruct (V dims ls E I (ex_intro _ f D)) as [-> | ->]; subst dims; cbn in I |- *; destruct (f "i"); try destruct I; cbn; discriminate.
  - cbn. repeat split; auto.
    + intros b l [H|[]]; injection H as <- <-. repeat constructor. eexists; split; reflexivity.
    + destruct H as [H|[]]; injection H as <- <- <-; auto.
    + destruct H as [H|[]]; injection H as <- <- <-. eexists; split; [reflexivity|]; cbn; lia.
  - intros dims ls _ _. cbn. discriminate.
Qed.

Theorem c81_system :
  forall sub_into set_order dict_order evaluates cse order, walks_set set_order -> walks_set dict_order -> eliminates cse ->
  forall c axes numeraire vars params equations d v w uv up x theta,
    plain_labels c -> NoDup (dkeys c) -> has_data c (vars ++ params) d ->
    unpack_objects order vars (lab_coords c) = Ok uv -> unpack_objects order params (lab_coords c) = Ok up ->
    let names := map make_indexed_name (uv ++ up) in
    NoDup names -> (forall n, In n names -> is_name n = true /\ ~ In n reserved) ->
    variable_dict_to_flat_array d vars params = Ok (x, theta) -> data_of c (vars ++ params) d v w -> unit_numeraire w numeraire ->
    vars <> [] -> equations <> [] ->
    (forall lr, In lr equations -> flat_reductions c axes (written lr) /\ has_value c v w lr /\
       exists es, equation_symbols sub_into set_order dict_order evaluates c numeraire (uv ++ up) (fst lr) (snd lr) = Ok es) ->
    exists f, compile_numba_cge_functions sub_into set_order dict_order evaluates cse order c numeraire vars params equations = Ok f /\
      exists blocks, Forall2 (residuals c v w) equations blocks /\
        nf_system f x theta = Ok (OVec (List.concat blocks)) /\
        nf_resid f x theta = Ok (OScalar (/ 2 * rsum (map (fun r => r * r) (List.concat blocks)))%R).
Proof. exact @c81_system__p. Qed.
Print Assumptions c81_system.
(** 2 - 5 * 4, 3 - 5 * 4 and 2 + 3 - 4 *)
Example c81_system_ex : exists f r l, em_compile = Ok f /\ nf_system f [2; 3; 4]%R [5]%R = Ok (OVec r) /\ r = [-18; -17; 1]%R /\
  nf_resid f [2; 3; 4]%R [5]%R = Ok (OScalar l) /\ l = 307%R.
Proof.
  do 3 eexists. split; [reflexivity|]. split; [reflexivity|]. split; [lists|]. split; [reflexivity|]. lists.
Qed.

Theorem c81_jacobian :
  forall sub_into set_order dict_order evaluates cse order, walks_set set_order -> walks_set dict_order -> eliminates cse ->
  forall c axes numeraire vars params equations d v w uv up x theta,
    plain_labels c -> NoDup (dkeys c) -> has_data c (vars ++ params) d ->
    unpack_objects order vars (lab_coords c) = Ok uv -> unpack_objects order params (lab_coords c) = Ok up ->
    let names := map make_indexed_name (uv ++ up) in
    NoDup names -> (forall n, In n names -> is_name n = true /\ ~ In n reserved) ->
    variable_dict_to_flat_array d vars params = Ok (x, theta) -> data_of c (vars ++ params) d v w -> unit_numeraire w numeraire ->
    vars <> [] -> equations <> [] ->
    (forall lr, In lr equations -> flat_reductions c axes (written lr) /\ has_value c v w lr /\
       exists es, equation_symbols sub_into set_order dict_order evaluates c numeraire (uv ++ up) (fst lr) (snd lr) = Ok es) ->
    exists f, compile_numba_cge_functions sub_into set_order dict_order evaluates cse order c numeraire vars params equations = Ok f /\
      exists blocks, nf_jac f x theta = Ok (OMat (List.concat blocks)) /\
        Forall2 (fun lr block => exists dims shape, equation_dims c (written lr) dims /\ dims_shape c dims shape /\ length block = prodn shape /\
          forall idx ls, labels_of c dims idx ls -> exists row, nth_error block (offset shape idx) = Some row /\ length row = length x /\
            forall j o a idx' ls', nth_error vars j = Some o -> dget (o_name o) d = Some a -> labels_of c (o_dims o) idx' ls' -> not_numeraire o numeraire ->
              exists r dv, aget a idx' = Ok r /\ nth_error row (start_of d vars j + offset (ashape a) idx') = Some dv /\
                ((forall es e, equation_symbols sub_into set_order dict_order evaluates c numeraire (uv ++ up) (fst lr) (snd lr) = Ok es ->
                    nth_error es (offset shape idx) = Some e -> smooth (state_of names (x ++ theta)) (fun _ _ => 0%R) e) ->
                 derivable_pt_lim (fun t => number (den c (put_elem o ls' t v) (put_scal o t w) (assign dims ls) (written lr))) r dv)) equations blocks.
Proof. exact @c81_jacobian__p. Qed.
Print Assumptions c81_jacobian.
Example c81_jacobian_ex : exists f J, em_compile = Ok f /\ nf_jac f [2; 3; 4]%R [5]%R = Ok (OMat J) /\ J = [[1; 0; -5]; [0; 1; -5]; [1; 1; -1]]%R /\
  start_of em_d em_vars 1 + offset [] [] = 2 /\ labels_of em_c ["i"] [1] ["steel"].
Proof.
  do 2 eexists. split; [reflexivity|]. split; [reflexivity|]. split; [lists|]. split; [reflexivity|]. split; [reflexivity|]. repeat constructor. eexists; split; reflexivity.
Qed.

Theorem c81_gradient :
  forall sub_into set_order dict_order evaluates cse order, walks_set set_order -> walks_set dict_order -> eliminates cse ->
  forall c axes numeraire vars params equations d v w uv up x theta,
    plain_labels c -> NoDup (dkeys c) -> has_data c (vars ++ params) d ->
    unpack_objects order vars (lab_coords c) = Ok uv -> unpack_objects order params (lab_coords c) = Ok up ->
    let names := map make_indexed_name (uv ++ up) in
    NoDup names -> (forall n, In n names -> is_name n = true /\ ~ In n reserved) ->
    variable_dict_to_flat_array d vars params = Ok (x, theta) -> data_of c (vars ++ params) d v w -> unit_numeraire w numeraire ->
    vars <> [] -> equations <> [] ->
    (forall lr, In lr equations -> flat_reductions c axes (written lr) /\ has_value c v w lr /\
       exists es, equation_symbols sub_into set_order dict_order evaluates c numeraire (uv ++ up) (fst lr) (snd lr) = Ok es) ->
    exists f, compile_numba_cge_functions sub_into set_order dict_order evaluates cse order c numeraire vars params equations = Ok f /\
      exists G, nf_grad f x theta = Ok (OVec G) /\ length G = length x /\
        forall j o a idx ls, nth_error vars j = Some o -> dget (o_name o) d = Some a -> labels_of c (o_dims o) idx ls -> not_numeraire o numeraire ->
          exists r dv, aget a idx = Ok r /\ nth_error G (start_of d vars j + offset (ashape a) idx) = Some dv /\
            ((forall lr es, In lr equations -> equation_symbols sub_into set_order dict_order evaluates c numeraire (uv ++ up) (fst lr) (snd lr) = Ok es ->
                Forall (smooth (state_of names (x ++ theta)) (fun _ _ => 0%R)) es) ->
             exists blocks, (forall t, Forall2 (residuals c (put_elem o ls t v) (put_scal o t w)) equations (blocks t)) /\
               derivable_pt_lim (fun t => / 2 * rsum (map (fun z => z * z) (List.concat (blocks t))))%R r dv).
Proof. exact @c81_gradient__p. Qed.
Print Assumptions c81_gradient.
Example c81_gradient_ex : exists f G, em_compile = Ok f /\ nf_grad f [2; 3; 4]%R [5]%R = Ok (OVec G) /\ G = [-17; -16; 174]%R.
Proof.
  do 2 eexists. split; [reflexivity|]. split; [reflexivity|]. lists.
Qed.
