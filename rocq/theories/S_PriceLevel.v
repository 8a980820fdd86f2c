(** Specification vocabulary for C122: models that do not determine the price
    level. Used by statements only. *)
From Coq Require Import Reals.
From Verif Require Import Py PyStr M_SymExpr S_Calculus S_Euler S_Converge S_Trace.
Local Open Scope list_scope.
Local Open Scope R_scope.

(** The values [x] of the variables with the prices multiplied by [lam] *)
Definition at_price_level (prices variables : list string) (lam : R) (x : list R) : list R :=
  map (fun yv => if mem_str (fst yv) prices then lam * snd yv else snd yv) (combine variables x).

(** At the parameters [th], all prices of a solution can be multiplied by a
    positive number. *)
Definition free_price_level (prices variables parameters : list string) (equations : list sexpr) (th : list R) : Prop :=
  forall x lam, length x = length variables -> 0 < lam -> Forall (fun r => r = 0) (values_at variables parameters equations x th) ->
    Forall (fun r => r = 0) (values_at variables parameters equations (at_price_level prices variables lam x) th).

(** Some price is not zero. *)
Definition has_price (prices variables : list string) (x : list R) : Prop :=
  exists i y, nth_error variables i = Some y /\ In y prices /\ nth i x 0 <> 0.

(** numpy.linalg.solve and pytensor solve raise for singular matrices. *)
Definition refuses_singular (solve : list (list R) -> list R -> res (list R)) (n : nat) : Prop :=
  forall M b, is_matrix n n M -> ~ nonsingular M n -> exists e, solve M b = Err e.
