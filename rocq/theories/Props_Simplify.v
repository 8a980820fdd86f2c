(** C73, C74: from written equations to scalar residuals; the numeraire. *)
From Coq Require Import Reals Lra.
From Verif Require Import Py PyStr NdArray M_Primitives M_Expand M_SymExpr M_Simplify.
From Verif Require Import S_Layout S_Reduce S_Simplify L_Reduce L_Reduce5 L_Simplify2.
Local Open Scope string_scope.
Local Open Scope list_scope.

(** The model of the examples: P over goods, Y over regions, X over both, a scalar T *)
Definition ex_coords : dict (list string) := [("i", ["food"; "steel"]); ("r", ["north"; "south"])].
Definition ex_objs : list mobj :=
  [exobj KVar "P" ["i"]; exobj KVar "X" ["i"; "r"]; exobj KVar "Y" ["r"]; exobj KPar "T" []].
Definition ex_us : list mobj :=
  match unpack_objects (fun l => l) ex_objs (lab_coords ex_coords) with Ok l => l | Err _ => [] end.
(** Sum(P[i] * X[i, r], (i, 0, 1)) = T * Y[r] *)
Definition ex_lhs : sexpr := SRed RSum (SBin OMul (SIx "P" [IVar "i"]) (SIx "X" [IVar "i"; IVar "r"])) [("i", (0, 1))].
Definition ex_rhs : sexpr := SBin OMul (SSym "T") (SIx "Y" [IVar "r"]).
Definition ex_axes (b : string) : list (list string) :=
  if String.eqb b "X" then [["food"; "steel"]; ["north"; "south"]] else [["food"; "steel"]].
Definition ex_residual (r : string) : sexpr :=
  SBin OSub (SBin OAdd (SBin OMul (SSym "P_food") (SSym ("X_food_" ++ r))) (SBin OAdd (SBin OMul (SSym "P_steel") (SSym ("X_steel_" ++ r))) (SNum 0)))
            (SBin OMul (SSym "T") (SSym ("Y_" ++ r))).
Definition ex_pipeline := equation_symbols sympy_rule (uniq sexpr_eqb) (uniq pair_eqb) sexpr_eqb ex_coords.
Example ex_hyps :
  plain_labels ex_coords /\ NoDup (dkeys ex_coords) /\ flat_reductions ex_coords ex_axes (SBin OSub ex_lhs ex_rhs) /\
  (forall o, In o ex_objs -> declared ex_coords o) /\ unpack_objects (fun l => l) ex_objs (lab_coords ex_coords) = Ok ex_us.
Proof.
  split; [|split; [|split; [|split]]].
  - intros i ls H. cbn in H. destruct (String.eqb i "i"); [injection H as <-; split; [discriminate|repeat constructor]|].
    destruct (String.eqb i "r"); [injection H as <-; split; [discriminate|repeat constructor]|discriminate].
  - repeat constructor; cbn; intuition discriminate.
  - cbn. repeat split; auto.
    + intros b l [E|[E|[]]]; injection E as <- <-; repeat constructor; eexists; split; reflexivity.
    + destruct H as [E|[]]; injection E as <- <- <-; auto.
    + destruct H as [E|[]]; injection E as <- <- <-. eexists; split; [reflexivity|]; cbn; lia.
  - intros o [<-|[<-|[<-|[<-|[]]]]]; cbn; (split; [repeat constructor; cbn; intuition discriminate|]); repeat split; cbn; tauto.
  - reflexivity.
Qed.

Theorem c73_value :
  forall sub_into set_order dict_order evaluates, walks_set set_order -> walks_set dict_order ->
  forall order c axes numeraire objs us lhs rhs es,
    plain_labels c -> NoDup (dkeys c) -> flat_reductions c axes (SBin OSub lhs rhs) ->
    (forall o, In o objs -> declared c o) -> unpack_objects order objs (lab_coords c) = Ok us ->
    match numeraire with None => True | Some o => o_dims o = [] end ->
    equation_symbols sub_into set_order dict_order evaluates c numeraire us lhs rhs = Ok es ->
    exists dims shape,
      NoDup dims /\ (exists f, dims = filter f (dkeys c)) /\
      (forall d, In d dims <-> In d (dkeys c) /\ occurs_free d (SBin OSub lhs rhs)) /\
      Forall2 (fun d n => exists all, dget d c = Some all /\ length all = n) dims shape /\
      length es = prodn shape /\
      forall idx ls, labels_of c dims idx ls ->
        exists e, nth_error es (offset shape idx) = Some e /\
          forall v w sv x, belongs c objs v w -> scalar_view c objs v w sv ->
            match numeraire with None => True | Some o => w (o_base_name o) = Some 1%R end ->
            den c v w (assign dims ls) (SBin OSub lhs rhs) = Some x ->
            indexed_exprs e = [] /\ no_reduction e /\ forall v' g', den c v' sv g' e = Some x.
Proof. exact @c73_value__p. Qed.
Print Assumptions c73_value.
(** The written equation becomes two scalar residuals, the second that of south *)
Example c73_value_ex :
  ex_pipeline None ex_us ex_lhs ex_rhs = Ok [ex_residual "north"; ex_residual "south"] /\
  labels_of ex_coords ["r"] [1] ["south"] /\ offset [2] [1] = 1 /\
  den ex_coords (fun b _ => Some (if String.eqb b "P" then 2 else 3)%R) (fun _ => Some 5%R) (assign ["r"] ["south"]) (SBin OSub ex_lhs ex_rhs) = Some (-3)%R.
Proof.
  split; [reflexivity|]. split; [split; [reflexivity|]; repeat constructor; exists ["north"; "south"]; split; reflexivity|]. split; [reflexivity|].
  cbn. f_equal. lra.
Qed.

(** Data for exactly the declared elements, and their scalar names *)
Definition ex_elems : list (string * list string) :=
  [("P", ["food"]); ("P", ["steel"]); ("X", ["food"; "north"]); ("X", ["food"; "south"]); ("X", ["steel"; "north"]); ("X", ["steel"; "south"]); ("Y", ["north"]); ("Y", ["south"])].
Definition ex_v (b : string) (ls : list string) : option R :=
  if existsb (fun p => (String.eqb b (fst p) && list_eqb String.eqb ls (snd p))%bool) ex_elems then Some (if String.eqb b "P" then 2 else 3)%R else None.
Definition ex_w (s : string) : option R := if String.eqb s "T" then Some 5%R else None.
Example c73_value_data : belongs ex_coords ex_objs ex_v ex_w /\ (exists sv, scalar_view ex_coords ex_objs ex_v ex_w sv) /\
  den ex_coords ex_v ex_w (assign ["r"] ["south"]) (SBin OSub ex_lhs ex_rhs) = Some (-3)%R.
Proof.
  split; [|split].
  - split.
    + intros b ls x H. unfold ex_v in H. destruct (existsb _ ex_elems) eqn:E; [|discriminate]. apply existsb_exists in E as ((b' & ls') & I & Q).
      apply andb_prop in Q as (Q1 & Q2). apply String.eqb_eq in Q1. apply (list_eqb_eq String.eqb String.eqb_eq) in Q2. cbn in Q1, Q2. subst b' ls'.
      assert (W : forall n ds l, In (exobj KVar n ds) ex_objs -> ds <> [] -> element ex_coords ds l -> exists o, In o ex_objs /\ o_name o = n /\ o_dims o <> [] /\ element ex_coords (o_dims o) l).
      { intros n ds l A B C. exists (exobj KVar n ds). auto. }
      assert (EI : forall l, In l ["food"; "steel"] -> exists all, dget "i" ex_coords = Some all /\ In l all) by (intros; eexists; split; [reflexivity|auto]).
      assert (ER : forall l, In l ["north"; "south"] -> exists all, dget "r" ex_coords = Some all /\ In l all) by (intros; eexists; split; [reflexivity|auto]).
      cbn in I. repeat (destruct I as [I|I]; [injection I as <- <-|]); [..|easy].
      1-2: apply (W "P" ["i"]); [cbn; tauto|discriminate|]; repeat constructor; apply EI; cbn; tauto.
      1-4: apply (W "X" ["i"; "r"]); [cbn; tauto|discriminate|]; repeat constructor; [apply EI|apply ER]; cbn; tauto.
      1-2: apply (W "Y" ["r"]); [cbn; tauto|discriminate|]; repeat constructor; apply ER; cbn; tauto.
    + intros s x H. unfold ex_w in H. destruct (String.eqb_spec s "T"); [|discriminate]. subst. exists (exobj KPar "T" []). split; [cbn; tauto|auto].
  - apply (@c73_view__p (fun l => l) ex_coords ex_objs ex_us); try apply ex_hyps. vm_compute. repeat constructor; cbn; intuition discriminate.
  - cbn. f_equal. lra.
Qed.

Theorem c73_accepted :
  forall sub_into set_order dict_order evaluates, walks_set set_order -> walks_set dict_order ->
  forall c axes us lhs rhs, plain_labels c -> NoDup (dkeys c) -> flat_reductions c axes (SBin OSub lhs rhs) ->
    evaluates lhs rhs = false -> exists es, equation_symbols sub_into set_order dict_order evaluates c None us lhs rhs = Ok es.
Proof. exact @c73_accepted__p. Qed.
Print Assumptions c73_accepted.
Example c73_accepted_ex : sexpr_eqb ex_lhs ex_rhs = false /\ exists es, ex_pipeline None ex_us ex_lhs ex_rhs = Ok es.
Proof. split; [reflexivity|]. eexists. reflexivity. Qed.

Theorem c73_view :
  forall order c objs us, plain_labels c -> (forall o, In o objs -> declared c o) ->
    unpack_objects order objs (lab_coords c) = Ok us -> NoDup (map make_indexed_name us) ->
    forall v w, exists sv, scalar_view c objs v w sv.
Proof. exact @c73_view__p. Qed.
Print Assumptions c73_view.
Example c73_view_ex : map make_indexed_name ex_us =
  ["P_food"; "P_steel"; "X_food_north"; "X_food_south"; "X_steel_north"; "X_steel_south"; "Y_north"; "Y_south"; "T"].
Proof. reflexivity. Qed.

Theorem c73_collision_refuted :
  exists c objs us lhs rhs es e v w,
    plain_labels c /\ NoDup (dkeys c) /\ flat_reductions c (fun _ => []) (SBin OSub lhs rhs) /\
    (forall o, In o objs -> declared c o) /\ NoDup (map o_name objs) /\
    unpack_objects (fun l => l) objs (lab_coords c) = Ok us /\ belongs c objs v w /\
    equation_symbols sympy_rule (uniq sexpr_eqb) (uniq pair_eqb) (fun _ _ => false) c None us lhs rhs = Ok es /\
    nth_error es 0 = Some e /\
    den c v w (assign ["i"] ["a"]) (SBin OSub lhs rhs) = Some 1%R /\
    forall v' sv g' x, den c v' sv g' e = Some x -> x = 0%R.
Proof. exact @c73_collision_refuted__p. Qed.
Print Assumptions c73_collision_refuted.

Theorem c74_scalar :
  forall set_order dict_order evaluates, walks_set set_order -> walks_set dict_order ->
  forall c axes o lhs rhs e dims, plain_labels c -> flat_reductions c axes (SBin OSub lhs rhs) -> o_dims o = [] ->
    standardize sympy_rule set_order dict_order evaluates c (Some o) lhs rhs = Ok (e, dims) ->
    forall v w w' g, w' (o_base_name o) = Some 1%R -> (forall s, s <> o_base_name o -> w' s = w s) ->
      den c v w g e = den c v w' g (SBin OSub lhs rhs).
Proof. exact @c74_scalar__p. Qed.
Print Assumptions c74_scalar.
(** With the numeraire T the residual no longer contains it *)
Example c74_scalar_ex :
  standardize sympy_rule (uniq sexpr_eqb) (uniq pair_eqb) sexpr_eqb ex_coords (Some (exobj KPar "T" [])) ex_lhs ex_rhs =
    Ok (SBin OSub (SBin OAdd (SBin OMul (SIx "P" [ILab "food"]) (SIx "X" [ILab "food"; IVar "r"])) (SBin OAdd (SBin OMul (SIx "P" [ILab "steel"]) (SIx "X" [ILab "steel"; IVar "r"])) (SNum 0)))
             (SBin OMul (SNum 1) (SIx "Y" [IVar "r"])), ["r"]) /\ o_dims (exobj KPar "T" []) = [].
Proof. split; reflexivity. Qed.

Theorem c74_normalisation :
  forall sub_into set_order dict_order evaluates, (forall a, evaluates a a = true) ->
  forall c o, standardize sub_into set_order dict_order evaluates c (Some o) (to_sympy o) (SNum 1) = Err ValueError.
Proof. exact @c74_normalisation__p. Qed.
Print Assumptions c74_normalisation.
Example c74_normalisation_ex : (forall a, sexpr_eqb a a = true) /\
  standardize sympy_rule (uniq sexpr_eqb) (uniq pair_eqb) sexpr_eqb ex_coords (Some (exobj KPar "T" [])) (SSym "T") (SNum 1) = Err ValueError.
Proof. split; [exact sexpr_eqb_refl|reflexivity]. Qed.

Theorem c74_indexed_refuted :
  exists c axes o lhs rhs e dims v v' w g,
    plain_labels c /\ flat_reductions c axes (SBin OSub lhs rhs) /\ declared c o /\ o_dims o = ["i"] /\
    (forall b l, In (b, l) (indexed_exprs (SBin OSub lhs rhs)) -> l = [IVar "i"]) /\
    standardize sympy_rule (uniq sexpr_eqb) (uniq pair_eqb) (fun _ _ => false) c (Some o) lhs rhs = Ok (e, dims) /\
    (forall b ls, b <> o_name o -> v b ls = v' b ls) /\
    den c v w g e = Some 10%R /\ den c v' w g e = Some 2%R.
Proof. exact @c74_indexed_refuted__p. Qed.
Print Assumptions c74_indexed_refuted.

Theorem c74_indexed_own :
  forall set_order dict_order evaluates, walks_set set_order -> walks_set dict_order ->
  forall c o lhs rhs e dims, plain_labels c -> declared c o -> o_dims o <> [] ->
    no_reduction lhs -> no_reduction rhs ->
    standardize sympy_rule set_order dict_order evaluates c (Some o) lhs rhs = Ok (e, dims) ->
    (forall v w g ls, all_some (map g (o_dims o)) = Some ls -> v (o_name o) ls = Some 1%R ->
       den c v w g e = den c v w g (SBin OSub lhs rhs)) /\
    ~ In (o_name o, map IVar (o_dims o)) (indexed_exprs e).
Proof. exact @c74_indexed_own__p. Qed.
Print Assumptions c74_indexed_own.
(** P[i] * Y[r] = X[i, r] with the numeraire P *)
Example c74_indexed_own_ex :
  standardize sympy_rule (uniq sexpr_eqb) (uniq pair_eqb) sexpr_eqb ex_coords (Some (exobj KVar "P" ["i"])) (SBin OMul (SIx "P" [IVar "i"]) (SIx "Y" [IVar "r"])) (SIx "X" [IVar "i"; IVar "r"]) =
    Ok (SBin OSub (SBin OMul (SNum 1) (SIx "Y" [IVar "r"])) (SIx "X" [IVar "i"; IVar "r"]), ["i"; "r"]).
Proof. reflexivity. Qed.
