(** Specification side of C112: models with a numeraire. *)
From Coq Require Import Reals.
From Verif Require Import Py PyStr NdArray M_Primitives M_Utilities M_PyExpr M_SymExpr M_Simplify M_SympyTensor.
From Verif Require Import S_Layout S_Simplify S_NumbaModel S_SympyTensor.
Local Open Scope list_scope.

(** A declared model with [n] among its variables, and data for all other
    variables and for the parameters: what simulate has after the numeraire was
    taken out of the variables. [x] and [theta] are the flat vectors *)
Definition with_numeraire (order : list string -> list string) (c : dict (list string)) (n : mobj) (vars params uv up : list mobj)
  (d : dict (arr R)) (x theta : list R) : Prop :=
  declaration order c vars params uv up /\ In n vars /\ declared c n /\ has_data c (packed_variables (Some n) vars) d /\
  variable_dict_to_flat_array d (packed_variables (Some n) vars) params = Ok (x, theta).

(** What the function of two vectors gives is an error: the length check fails
    (or len itself is the name of a variable) *)
Definition refused {A} (r : res A) : Prop := r = Err AssertionError \/ r = Err NameError.

(** The name is read when the expression is evaluated *)
Inductive reads (w : string) : pexpr -> Prop :=
| reads_word : reads w (EWord w)
| reads_left op a b : reads w a -> reads w (EBin op a b)
| reads_right op a b : reads w b -> reads w (EBin op a b)
| reads_neg a : reads w a -> reads w (ENeg a)
| reads_index a args : reads w a -> reads w (EIndex a args)
| reads_method a m args : reads w a -> reads w (ECall (EAttr a m) args).
