(** Specification side of C111: the same producer with all prices multiplied by
    one number and all quantities by another. *)
From Coq Require Import Reals.
From Verif Require Import Py PyStr M_Primitives M_PyExpr.
From Verif Require Import S_PyExpr S_Meaning S_Production.
Local Open Scope list_scope.

(** The same texts and shares, prices times [k], quantities times [m] *)
Definition rescaled (k m : R) (f f' : factor) : Prop :=
  f_name f' = f_name f /\ f_price f' = f_price f /\ f_share f' = f_share f /\ share f' = share f /\ price f' = (k * price f)%R /\ qty f' = (m * qty f)%R.

(** The text is a unit with the value [v] at one valuation and [v'] at another *)
Definition unit_both (rho rho' : valuation) (ix : indices) (s : string) (v v' : R) : Prop := unit_val rho ix s v /\ unit_val rho' ix s v'.
