(** C101: the root inputs of an expression. *)
From Coq Require Import Reals.
From Verif Require Import Py PyStr M_SymExpr S_Reduce M_Inputs S_Inputs L_Inputs.
Local Open Scope string_scope.
Local Open Scope list_scope.

(** y + Sum(x[i, j], (j, 0, 1)), as in tests/base/test_cge.py:178 *)
Definition in_expr : sexpr := SBin OAdd (SSym "y") (SRed RSum (SIx "x" [IVar "i"; IVar "j"]) [("j", (0, 1))]).

Theorem c101_determined :
  forall (coords coords' : dict (list string)) (v v' : elements) (w w' : scalars) (g g' : assignment) (e : sexpr),
  (forall s, In s (get_inputs e) -> dget s coords = dget s coords' /\ v s = v' s /\ w s = w' s /\ g s = g' s) ->
  den coords v w g e = den coords' v' w' g' e.
Proof. exact @c101_determined__p. Qed.
Print Assumptions c101_determined.
(** Other arrays, other scalars and other indices may have any value. *)
Example c101_determined_ex :
  get_inputs in_expr = ["y"; "x"; "i"; "j"; "j"] /\
  forall (a b : R), let g s := if String.eqb s "i" then Some "C" else None in
  den [("j", ["A"; "B"])] (fun s _ => if mem_str s (get_inputs in_expr) then Some 2%R else Some a) (fun _ => Some 1%R) g in_expr =
  den [("j", ["A"; "B"]); ("k", [])] (fun s _ => if mem_str s (get_inputs in_expr) then Some 2%R else Some b) (fun s => if String.eqb s "z" then None else Some 1%R) g in_expr.
Proof.
  split; [reflexivity |]. intros a b g. apply c101_determined. cbn. intros s H.
  destruct H as [<- | [<- | [<- | [<- | [<- | []]]]]]; repeat split; reflexivity.
Qed.

Theorem c101_occurs :
  forall (e : sexpr) (s : string), In s (get_inputs e) <-> named s e.
Proof. exact @c101_occurs__p. Qed.
Print Assumptions c101_occurs.
Example c101_occurs_ex : named "x" in_expr /\ ~ named "z" in_expr.
Proof.
  split; [apply c101_occurs; cbn; auto |]. intros H. apply c101_occurs in H. cbn in H.
  repeat (destruct H as [H | H]; [discriminate |]). exact H.
Qed.

Theorem c101_constant :
  forall (e : sexpr), get_inputs e = [] ->
  forall coords coords' v v' w w' g g', den coords v w g e = den coords' v' w' g' e.
Proof. exact @c101_constant__p. Qed.
Print Assumptions c101_constant.
Example c101_constant_ex : get_inputs (SFun FExp (SNum 2)) = [] /\
  forall coords v w g, den coords v w g (SFun FExp (SNum 2)) = Some (exp 2).
Proof. split; reflexivity. Qed.

Theorem c101_repeated_refuted :
  exists (e : sexpr), ~ NoDup (get_inputs e).
Proof. exact @c101_repeated_refuted__p. Qed.
Print Assumptions c101_repeated_refuted.

Theorem c101_bound_refuted :
  exists (e : sexpr) (s : string),
    In s (get_inputs e) /\
    forall coords v v' w w' g g',
      (forall t, t <> s -> v t = v' t /\ w t = w' t /\ g t = g' t) ->
      den coords v w g e = den coords v' w' g' e.
Proof. exact @c101_bound_refuted__p. Qed.
Print Assumptions c101_bound_refuted.

Theorem c101_prod :
  forall (args : list R),
  (args <> [] -> prod_args Rmult args = Ok (rop_val RProd args)) /\ prod_args Rmult [] = Err TypeError.
Proof. exact @c101_prod__p. Qed.
Print Assumptions c101_prod.
Example c101_prod_ex : prod_args Rmult [2; 3; 5]%R = Ok (2 * (3 * (5 * 1)))%R.
Proof. destruct (@c101_prod [2; 3; 5]%R) as (H & _). apply H. discriminate. Qed.
