(** C87: the tables of a model. *)
From Coq Require Import Reals.
From Verif Require Import Py PyStr NdArray M_Primitives M_Expand M_SymExpr M_Calibrate M_Output M_Tables.
From Verif Require Import S_Markers S_Output S_Tables L_Output L_Calibrate L_Tables.
Local Open Scope string_scope.
Local Open Scope list_scope.

(** Variables P over i and Y, parameter T, and a result for Y and T *)
Definition sm_obj (k : kind) (name latex description : string) (dims : list string) : mobj := MkObj k name dims [] name latex description name true false 0.
Definition sm_P := sm_obj KVar "P" "P_{i}" "Price of <dim:i>" ["i"].
Definition sm_Y := sm_obj KVar "Y" "Y" "Income" [].
Definition sm_T := sm_obj KPar "T" "T" "2015" [].
Definition sm_vars : dict mobj := [("P", sm_P); ("Y", sm_Y)].
Definition sm_params : dict mobj := [("T", sm_T)].
Definition sm_r : result := MkResult ["Y"] ["T"] [None; Some 2%R] [Some 4%R; Some 2%R] true.
Definition sm_print (l r : sexpr) : string := "eq".
Example sm_registered : registered sm_vars sm_params.
Proof. split; [intros n o [H|[H|[H|[]]]]; injection H as <- <-; reflexivity|repeat constructor; cbn; intuition discriminate]. Qed.

Theorem c87_summary :
  forall doprint vars params q results objs,
    registered vars params -> asked vars params q objs -> NoDup ("Symbol"%string :: "Description"%string :: map fst results) ->
    (forall k r o, In (k, r) results -> In o objs -> dget (o_name o) (initial_dict r) <> None /\ dget (o_name o) (fitted_dict r) <> None) ->
    exists info headings rows, summary vars params q results = Ok info /\ print_table doprint info = Ok (headings, rows) /\
      Forall2 (fun o row => row_of o results row) objs rows /\
      hd [] headings = ("\textbf{Symbol}" :: "\textbf{Description}" :: flat_map (fun nr => [("\textbf{" ++ fst nr ++ "}"); ""]) results)%string /\
      forall row, In row headings -> length row = 2 + 2 * length results.
Proof. exact @c87_summary__p. Qed.
Print Assumptions c87_summary.
Example c87_summary_ex : exists info headings rows, summary sm_vars sm_params (Names ["T"; "Y"]) [("base", sm_r)] = Ok info /\ print_table sm_print info = Ok (headings, rows) /\
  headings = [["\textbf{Symbol}"; "\textbf{Description}"; "\textbf{base}"; ""]; [""; ""; "\textbf{Initial}"; "\textbf{Final}"]] /\
  rows = [[Latex "T"; Latex "2015"; Number (Some 2%R); Number (Some 2%R)]; [Latex "Y"; Latex "\text{Income}"; Number None; Number (Some 4%R)]].
Proof. do 3 eexists. split; [reflexivity|]. split; [reflexivity|]. split; reflexivity. Qed.
(** It meets the hypotheses *)
Example c87_summary_ex2 : asked sm_vars sm_params (Names ["T"; "Y"]) [sm_T; sm_Y] /\
  (forall k r o, In (k, r) [("base", sm_r)] -> In o [sm_T; sm_Y] -> dget (o_name o) (initial_dict r) <> None /\ dget (o_name o) (fitted_dict r) <> None) /\
  exists info headings rows, summary sm_vars sm_params AllObjects [] = Ok info /\ print_table sm_print info = Ok (headings, rows) /\
    Forall2 (fun o row => row_of o [] row) [sm_P; sm_Y; sm_T] rows.
Proof.
  split; [|split].
  - cbn [asked]. repeat constructor; cbn; tauto.
  - intros k r o [H|[]] [<-|[<-|[]]]; injection H as <- <-; split; discriminate.
  - destruct (@c87_summary sm_print sm_vars sm_params AllObjects [] [sm_P; sm_Y; sm_T] sm_registered eq_refl) as (info & h & rows & A & B & C & _).
    + repeat constructor; cbn; intuition discriminate.
    + intros k r o [].
    + exists info, h, rows. auto.
Qed.

Theorem c87_unknown :
  forall vars params l results n, In n l -> ~ In n (map fst (vars ++ params)) -> summary vars params (Names l) results = Err ValueError.
Proof. exact @c87_unknown__p. Qed.
Print Assumptions c87_unknown.
Example c87_unknown_ex : summary sm_vars sm_params (Names ["Y"; "X"]) [] = Err ValueError.
Proof. apply (@c87_unknown sm_vars sm_params ["Y"; "X"] [] "X"); cbn; intuition discriminate. Qed.

Theorem c87_dims_refuted :
  forall vars params q objs k r results o,
    registered vars params -> asked vars params q objs -> In o objs -> ~ In (o_name o) (r_variables r ++ r_parameters r) ->
    summary vars params q ((k, r) :: results) = Err KeyError.
Proof. exact @c87_dims_refuted__p. Qed.
Print Assumptions c87_dims_refuted.
(** With a result, the summary of all objects fails on P *)
Example c87_dims_refuted_ex : summary sm_vars sm_params AllObjects [("base", MkResult ["P_food"; "P_steel"; "Y"] ["T"] [None; None; None; Some 2%R] [Some 1%R; Some 1%R; Some 4%R; Some 2%R] true)] = Err KeyError.
Proof. apply (@c87_dims_refuted sm_vars sm_params AllObjects [sm_P; sm_Y; sm_T] _ _ _ sm_P sm_registered eq_refl); [now left|cbn; intuition discriminate]. Qed.

Theorem c87_shared_refuted :
  forall v p, o_name v = o_name p ->
    exists d, summary [(o_name v, v)] [(o_name p, p)] AllObjects [] =
      Ok (("Symbol"%string, Data [CObj p; CObj p]) :: d).
Proof. exact @c87_shared_refuted__p. Qed.
Print Assumptions c87_shared_refuted.
Example c87_shared_refuted_ex : exists d, summary [("Y", sm_Y)] [("Y", sm_obj KPar "Y" "\bar{Y}" "Endowment" [])] AllObjects [] =
  Ok (("Symbol", Data [CObj (sm_obj KPar "Y" "\bar{Y}" "Endowment" []); CObj (sm_obj KPar "Y" "\bar{Y}" "Endowment" [])]) :: d).
Proof. apply (@c87_shared_refuted sm_Y (sm_obj KPar "Y" "\bar{Y}" "Endowment" [])). reflexivity. Qed.

Theorem c87_equations :
  forall doprint equations,
    exists rows, equation_table doprint (map (fun e => SympyEquation (fst e) (fst (snd e)) (snd (snd e))) equations) =
      Ok ([["\textbf{}"; "\textbf{Name}"; "\textbf{Equation}"]]%string, rows) /\ length rows = length equations /\
      forall i name lhs rhs, nth_error equations i = Some (name, (lhs, rhs)) ->
        exists text, nth_error rows i = Some [Whole (i + 1); Latex text; Latex (doprint lhs rhs)] /\ described name text.
Proof. exact @c87_equations__p. Qed.
Print Assumptions c87_equations.
Example c87_equations_ex : exists headings, equation_table sm_print [SympyEquation "Price of <dim:i>" (SSym "P") (SNum 1); SympyEquation "Income" (SSym "Y") (SNum 2)] =
  Ok (headings, [[Whole 1; Latex "\text{Price of i}"; Latex "eq"]; [Whole 2; Latex "\text{Income}"; Latex "eq"]]).
Proof. eexists. reflexivity. Qed.

Theorem c87_plain_refuted :
  forall doprint equations n, In (PlainEquation n) equations -> equation_table doprint equations = Err AttributeError.
Proof. exact @c87_plain_refuted__p. Qed.
Print Assumptions c87_plain_refuted.
Example c87_plain_refuted_ex : equation_table sm_print [PlainEquation "Income"] = Err AttributeError.
Proof. apply (@c87_plain_refuted sm_print _ "Income"). now left. Qed.

Theorem c87_short_values_refuted :
  forall v vs, length v < length vs -> length (make_summary_table vs (Some v)) = S (length v) /\ length (make_summary_table vs None) = S (length vs).
Proof. exact @c87_short_values_refuted__p. Qed.
Print Assumptions c87_short_values_refuted.
Example c87_short_values_refuted_ex : length (make_summary_table [("Y", "Income"); ("T", "Tax")] (Some [Some 1%R])) = 2.
Proof. apply (@c87_short_values_refuted [Some 1%R] [("Y", "Income"); ("T", "Tax")]). cbn. lia. Qed.

Theorem c87_plain_rows :
  forall doprint vs values equations, length values = length vs ->
    (exists h rows, make_summary_table vs None = h :: rows /\ h = [Latex "\text{Symbol}"; Latex "\text{Description}"] /\ length rows = length vs /\
       forall i symbol description, nth_error vs i = Some (symbol, description) ->
         nth_error rows i = Some [Latex symbol; Latex ("\text{" ++ description ++ "}")]%string) /\
    (exists h rows, make_summary_table vs (Some values) = h :: rows /\ h = [Latex "\text{Symbol}"; Latex "\text{Description}"; Latex "\text{Calibrated Value}"] /\ length rows = length vs /\
       forall i symbol description x, nth_error vs i = Some (symbol, description) -> nth_error values i = Some x ->
         nth_error rows i = Some [Latex symbol; Latex ("\text{" ++ description ++ "}"); Number x]%string) /\
    (exists h rows, make_equation_table doprint equations = h :: rows /\ h = [Latex ""; Latex "\text{Equation}"; Latex "\text{Equation}"] /\ length rows = length equations /\
       forall i id name l r, nth_error equations i = Some (id, name, (l, r)) ->
         nth_error rows i = Some [Whole id; Latex ("\text{" ++ name ++ "}"); Latex (doprint l r)]%string).
Proof. exact @c87_plain_rows__p. Qed.
Print Assumptions c87_plain_rows.
Example c87_plain_rows_ex : exists h, make_summary_table [("Y", "Income"); ("T", "Tax")] (Some [Some 1%R; None]) =
  [h; [Latex "Y"; Latex "\text{Income}"; Number (Some 1%R)]; [Latex "T"; Latex "\text{Tax}"; Number None]] /\
  length [Some 1%R; None] = length [("Y", "Income"); ("T", "Tax")].
Proof. eexists. split; reflexivity. Qed.

Theorem c87_unsupported :
  forall doprint (heading : string) cells, In COther cells -> print_table doprint [(heading, Data cells)] = Err ValueError.
Proof. exact @c87_unsupported__p. Qed.
Print Assumptions c87_unsupported.
Example c87_unsupported_ex : print_table sm_print [("Value", Data [CInt 1; COther; CStr "x"])] = Err ValueError.
Proof. apply c87_unsupported. cbn. auto. Qed.
