(** Specification vocabulary for printed Piecewise expressions (C96). *)
From Coq Require Import ZArith.
From Verif Require Import Py PyStr M_Piecewise.
Local Open Scope string_scope.
Local Open Scope list_scope.

(** Opening minus closing round brackets *)
Fixpoint depth (s : string) : Z :=
  match s with
  | "" => 0
  | String c s' => ((if Ascii.eqb c "(" then 1 else if Ascii.eqb c ")" then -1 else 0) + depth s')%Z
  end.

(** No bracket is closed before it is opened, and all are closed *)
Definition balanced (s : string) : Prop :=
  depth s = 0%Z /\ forall p q, s = (p ++ q)%string -> (0 <= depth p)%Z.

(** A text that can stand as an operand of a conditional expression: brackets
    balanced, the words if and else only inside of brackets *)
Definition operand (s : string) : Prop :=
  balanced s /\
  (forall p q, s = (p ++ " if" ++ q)%string -> (0 < depth p)%Z) /\
  (forall p q, s = (p ++ " else" ++ q)%string -> (0 < depth p)%Z).

(** The value of a Piecewise: that of the first case whose condition holds, and
    [default] if none does *)
Fixpoint first_case {V} (cases : list (V * bool)) (default : V) : V :=
  match cases with
  | [] => default
  | (v, true) :: _ => v
  | (_, false) :: l => first_case l default
  end.

(** A case is printed as texts Python can read: a number with its brackets
    balanced, a condition that can stand as an operand and is true exactly when
    the condition holds *)
Definition readable {N C V} (print_float : N -> string) (print_cond : C -> string) (atom : string -> option V) (truth : V -> bool)
  (value : N -> V) (holds : C -> bool) (n : N) (c : C) : Prop :=
  balanced (print_float n) /\ python_value atom truth (print_float n) = Some (value n) /\
  operand (print_cond c) /\ (exists w, python_value atom truth (print_cond c) = Some w /\ truth w = holds c).
