(** The real functions that expressions denote, for C41, C49 and C50. *)
From Coq Require Import Reals.
From Verif Require Import Py PyStr M_SymExpr.
Local Open Scope string_scope.

Section Value.
(** Values of the symbols and of the elements of indexed objects *)
Context (v : string -> R) (p : string -> list idx -> R).

Definition is_num (e : sexpr) : option Z := match e with SNum z => Some z | _ => None end.

(** The value of an expression without reductions. A power with a literal
    integer exponent is the integer power, any other power exp(b log a). *)
Fixpoint val (e : sexpr) : R :=
  match e with
  | SNum z => IZR z
  | SSym s => v s
  | SIx b l => p b l
  | SBin OAdd a b => val a + val b
  | SBin OSub a b => val a - val b
  | SBin OMul a b => val a * val b
  | SBin ODiv a b => val a / val b
  | SBin OPow a b => match is_num b with Some n => powerRZ (val a) n | None => Rpower (val a) (val b) end
  | SFun FExp a => exp (val a)
  | SFun FLog a => ln (val a)
  | SRed _ _ _ => 0
  end%R.

(** Where the expression is defined and smooth; no reductions *)
Fixpoint smooth (e : sexpr) : Prop :=
  match e with
  | SNum _ | SSym _ | SIx _ _ => True
  | SBin ODiv a b => smooth a /\ smooth b /\ val b <> 0
  | SBin OPow a b => smooth a /\ smooth b /\ match is_num b with Some n => (n < 0)%Z -> val a <> 0 | None => 0 < val a end
  | SBin _ a b => smooth a /\ smooth b
  | SFun FExp a => smooth a
  | SFun FLog a => smooth a /\ 0 < val a
  | SRed _ _ _ => False
  end%R.
End Value.

Definition set_sym (v : string -> R) (x : string) (t : R) : string -> R := fun s => if String.eqb s x then t else v s.

(** d is the partial derivative of the expression e in the symbol x *)
Definition partial_derivative (v : string -> R) (p : string -> list idx -> R) (x : string) (e : sexpr) (d : R) : Prop :=
  derivable_pt_lim (fun t => val (set_sym v x t) p e) (v x) d.

Fixpoint rsum (l : list R) : R := match l with nil => 0%R | cons x l' => (x + rsum l')%R end.

(** The value of each name in the current state *)
Definition state_of (names : list string) (xs : list R) (s : string) : R :=
  match dget s (combine names xs) with Some r => r | None => 0%R end.
