(** Specification side of C109: the forms of text whose meaning for the sympy
    backends does not depend on anything else sympy may do. *)
From Verif Require Import Py PyStr M_PyExpr S_Meaning S_Parse.
Local Open Scope string_scope.
Local Open Scope list_scope.

Section Forms.
Context (names dims : list string).

(** The limits (i, lo, hi) of sums and products *)
Inductive plain_limits : pexpr -> Prop :=
| pl_none : plain_limits ENil
| pl_more i lo hi m n rest : In i dims -> number lo = Some m -> number hi = Some n -> plain_limits rest ->
    plain_limits (ECons (ETuple (ECons (EWord i) (ECons (EWord lo) (ECons (EWord hi) ENil)))) rest).

(** Whole numbers, names, arithmetic, exp, log, Sum and Product with limits, and
    changes of an index; functions that the model does not hide by a name *)
Inductive plain_form : pexpr -> Prop :=
| pf_number w n : number w = Some n -> plain_form (EWord w)
| pf_name w : number w = None -> In w names -> ~ In w dims -> plain_form (EWord w)
| pf_op op a b : plain_form a -> plain_form b -> plain_form (EBin op a b)
| pf_neg a : plain_form a -> plain_form (ENeg a)
| pf_function f a : f = "exp" \/ f = "log" -> ~ In f names -> ~ In f dims -> plain_form a -> plain_form (ECall (EWord f) (ECons a ENil))
| pf_reduction f a l ls : f = "Sum" \/ f = "Product" -> ~ In f names -> ~ In f dims -> plain_form a -> plain_limits (ECons l ls) ->
    plain_form (ECall (EWord f) (ECons a (ECons l ls)))
| pf_index a i j : plain_form a -> In i dims -> In j dims -> plain_form (index_changed a i j).
End Forms.
