(** Specification vocabulary for C117. Used by statements only. *)
From Coq Require Import Reals.
From Verif Require Import Py PyStr M_Kink.
Local Open Scope string_scope.
Local Open Scope list_scope.
Local Open Scope R_scope.

(** The environment with another value of [x] *)
Definition set_sym (env : string -> R) (x : string) (t : R) : string -> R := fun y => if String.eqb y x then t else env y.

(** The mathematical value: the maximum, and the natural logarithm *)
Fixpoint meaning (env : string -> R) (e : kexpr) : R :=
  match e with
  | KNum r => r
  | KSym x => env x
  | KAdd a b => meaning env a + meaning env b
  | KMul a b => meaning env a * meaning env b
  | KInv a => / meaning env a
  | KMax a b => Rmax (meaning env a) (meaning env b)
  | KLog a => ln (meaning env a)
  | KHeaviside _ | KDelta _ _ => 0
  end.

(** Expressions that users write *)
Fixpoint written (e : kexpr) : Prop :=
  match e with
  | KNum _ | KSym _ => True
  | KAdd a b | KMul a b | KMax a b => written a /\ written b
  | KInv a | KLog a => written a
  | KHeaviside _ | KDelta _ _ => False
  end.

(** No denominator is zero, logarithms have positive arguments, and no maximum is
    taken of equal numbers. *)
Fixpoint away (env : string -> R) (e : kexpr) : Prop :=
  match e with
  | KNum _ | KSym _ => True
  | KAdd a b | KMul a b => away env a /\ away env b
  | KInv a => away env a /\ meaning env a <> 0
  | KMax a b => away env a /\ away env b /\ meaning env a <> meaning env b
  | KLog a => away env a /\ 0 < meaning env a
  | KHeaviside a | KDelta _ a => away env a
  end.

(** The derivatives with respect to the symbols of a list, the first one first *)
Definition kdiffs (xs : list string) (e : kexpr) : kexpr := fold_left (fun e x => kdiff x e) xs e.

(** [g] gives the derivative of [f] with respect to [x] at [env]; [f] has a
    value close to it. *)
Definition is_partial (x : string) (env : string -> R) (f g : (string -> R) -> option R) : Prop :=
  exists (F : R -> R) (G del : R), 0 < del /\ g env = Some G /\
    (forall t, Rabs (t - env x) < del -> f (set_sym env x t) = Some (F t)) /\ derivable_pt_lim F (env x) G.
