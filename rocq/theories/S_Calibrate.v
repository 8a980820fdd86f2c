(** What a calibration means, for C86. *)
From Coq Require Import Reals.
From Verif Require Import Py PyStr M_SymExpr M_Calculus S_Reduce S_Recursive.
Local Open Scope list_scope.

(** The valuation gives every symbol that has a number in the table that number;
    None in the table is nan *)
Definition reads (v : string -> R) (d : dict (option R)) : Prop :=
  forall s r, dget s d = Some (Some r) -> v s = r.
(** Every symbol of the equations has a number *)
Definition determined (d : dict (option R)) (equations : list sexpr) : Prop :=
  forall e s, In e equations -> In s (atoms e) -> exists r, dget s d = Some (Some r).
(** Half the sum of the squared residuals *)
Definition half_squares (v : string -> R) (equations : list sexpr) : R :=
  (1 / 2 * fold_right (fun e a => value v e ^ 2 + a) 0 equations)%R.

(** The compiled error function: half the sum of the squared residuals of the
    equations, and nan when a number is missing *)
Definition measures (f : list (option R) -> list (option R) -> res (option R)) (equations : list sexpr) (vars params : list string) : Prop :=
  forall x theta, length x = length vars -> length theta = length params ->
    let d := combine (vars ++ params) (x ++ theta) in
    (determined d equations -> forall v, reads v d -> f x theta = Ok (Some (half_squares v equations))) /\
    (~ determined d equations -> f x theta = Ok None).
(** The compiled system: the residuals *)
Definition computes (f : list (option R) -> list (option R) -> res (list (option R))) (equations : list sexpr) (vars params : list string) : Prop :=
  forall x theta, length x = length vars -> length theta = length params ->
    let d := combine (vars ++ params) (x ++ theta) in
    determined d equations -> forall v, reads v d -> f x theta = Ok (map (fun e => Some (value v e)) equations).
