(** What it means to satisfy a system, for C51. *)
From Coq Require Import Reals.
From Verif Require Import Py PyStr M_SymExpr M_Calculus S_Reduce.

(** The value of an expression over plain symbols; there are no indexed
    objects and no reductions *)
Fixpoint value (v : string -> R) (e : sexpr) : R :=
  match e with
  | SNum z => IZR z
  | SSym s => v s
  | SBin o a b => bin_val o (value v a) (value v b)
  | SFun f a => fn_val f (value v a)
  | SIx _ _ | SRed _ _ _ => 0%R
  end.
(** The valuation makes the equation true (an equation is an expression that
    should be zero) *)
Definition holds (v : string -> R) (e : sexpr) : Prop := value v e = 0%R.
(** An expression without symbols: a number *)
Definition constant (e : sexpr) : Prop := atoms e = nil.
(** The valuation gives every known symbol its known value *)
Definition agrees (v : string -> R) (known : dict sexpr) : Prop :=
  forall s c, dget s known = Some c -> v s = value v c.

(** sp.simplify does not change where an expression vanishes and invents no
    symbols; .evalf() keeps the value of a number (no rounding) *)
Definition good_simplify (f : sexpr -> sexpr) : Prop :=
  forall e, (forall v, holds v (f e) <-> holds v e) /\ (forall s, In s (atoms (f e)) -> In s (atoms e)).
Definition good_evalf (f : sexpr -> sexpr) : Prop :=
  forall e, constant e -> constant (f e) /\ forall v, value v (f e) = value v e.
(** What sp.solve returns are numbers that solve the equation *)
Definition sound_solver (solve : sexpr -> string -> list sexpr) : Prop :=
  forall e x r, (forall s, In s (atoms e) -> s = x) -> In r (solve e x) ->
    constant r /\ forall v, v x = value v r -> holds v e.

(** The expressions obtained from the equations by filling in numbers that are
    right in the valuation v, and simplifying *)
Fixpoint put (known : dict sexpr) (e : sexpr) : sexpr :=
  match e with
  | SSym s => match dget s known with Some c => c | None => e end
  | SNum _ | SIx _ _ => e
  | SBin o a b => SBin o (put known a) (put known b)
  | SFun f a => SFun f (put known a)
  | SRed o a l => SRed o (put known a) l
  end.
Inductive reduced (simplify : sexpr -> sexpr) (v : string -> R) (equations : list sexpr) : sexpr -> Prop :=
| reduced_eq e : In e equations -> reduced simplify v equations e
| reduced_step e known : reduced simplify v equations e ->
    (forall s c, dget s known = Some c -> constant c) -> agrees v known ->
    reduced simplify v equations (simplify (put known e)).
