(** Specification side of C109: the notation of equation texts that means the
    same for the sympy backends as on paper. *)
From Coq Require Import Reals.
From Verif Require Import Py PyStr NdArray M_Primitives M_PyExpr M_SymExpr S_PyExpr S_Meaning S_Layout S_Tensor.
Local Open Scope string_scope.
Local Open Scope list_scope.

(** Sum(body, (i, lo, hi)) and a.subs({i:j}) *)
Definition sum_over (body : pexpr) (i lo hi : string) : pexpr :=
  ECall (EWord "Sum") (ECons body (ECons (ETuple (ECons (EWord i) (ECons (EWord lo) (ECons (EWord hi) ENil)))) ENil)).
Definition index_changed (a : pexpr) (i j : string) : pexpr :=
  ECall (EAttr a "subs") (ECons (EDict (ECons (EPair (EWord i) (EWord j)) ENil)) ENil).

Section Notation_.
Context (c : dict (list string)) (objs : list mobj).

(** Whole numbers, the objects of the model (not named like a dim), arithmetic,
    changes of an index to one with the same labels and, if [sums], sums over
    positions of an index. A sum or a changed index is not inside another sum's
    or change's reach: no sum in a sum, no change of a sum. *)
Inductive index_notation : bool -> pexpr -> Prop :=
| in_number sums w n : number w = Some n -> index_notation sums (EWord w)
| in_object sums o : In o objs -> number (o_name o) = None -> ~ In (o_name o) (dkeys c) -> index_notation sums (EWord (o_name o))
| in_op sums op a b : index_notation sums a -> index_notation sums b -> index_notation sums (EBin op a b)
| in_neg sums a : index_notation sums a -> index_notation sums (ENeg a)
| in_subs sums a i j : index_notation false a -> In i (dkeys c) -> In j (dkeys c) -> dget i c = dget j c ->
    index_notation sums (index_changed a i j)
| in_sum body i lo hi m n labels : index_notation false body -> ~ In "Sum" (map o_name objs ++ dkeys c) ->
    dget i c = Some labels -> number lo = Some m -> number hi = Some n -> m <= n -> n < length labels ->
    index_notation true (sum_over body i lo hi).

(** The dim [d] is left to run in the expression: one of a mentioned object's,
    not summed over and not replaced *)
Inductive runs_over (d : string) : pexpr -> Prop :=
| ro_word o : In o objs -> number (o_name o) = None -> In d (o_dims o) -> runs_over d (EWord (o_name o))
| ro_left op a b : runs_over d a -> runs_over d (EBin op a b)
| ro_right op a b : runs_over d b -> runs_over d (EBin op a b)
| ro_neg a : runs_over d a -> runs_over d (ENeg a)
| ro_kept a i j : runs_over d a -> d <> i -> runs_over d (index_changed a i j)
| ro_put a i : runs_over i a -> runs_over d (index_changed a i d)
| ro_sum body i lo hi : runs_over d body -> d <> i -> runs_over d (sum_over body i lo hi).

(** The text [s] is the equation el = er in this notation *)
Definition indexed_equation (s : string) (el er : pexpr) : Prop :=
  exists lhs rhs, s = (lhs ++ "=" ++ rhs)%string /\ is_expr lhs el /\ is_expr rhs er /\ index_notation true el /\ index_notation true er.

(** The dims of an expression, in the order of the coords *)
Definition dims_of_text (e : pexpr) (dims : list string) : Prop :=
  NoDup dims /\ (exists f, dims = filter f (dkeys c)) /\ forall d, In d dims <-> In d (dkeys c) /\ runs_over d e.
End Notation_.
