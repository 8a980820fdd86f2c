(** What is assumed of sp.cse, and the usable names, for C41 and C80. *)
From Coq Require Import Reals.
From Verif Require Import Py PyStr M_SymExpr M_Calculus S_Calculus S_Reduce.
Local Open Scope string_scope.
Local Open Scope list_scope.

(** The names of sympy's numbered symbols: x0, x1, ... *)
Definition digit (c : ascii) : bool := (Nat.leb 48 (nat_of_ascii c) && Nat.leb (nat_of_ascii c) 57)%bool.
Definition numbered (n : string) : Prop :=
  exists ds, n = String "x" ds /\ forallb digit (list_ascii_of_string ds) = true.

(** The symbols used by the definitions and the expressions are [known] or were defined before *)
Fixpoint scoped (known : list string) (defs : list (string * sexpr)) (out : list sexpr) : Prop :=
  match defs with
  | [] => forall e s, In e out -> In s (atoms e) -> In s known
  | (n, d) :: defs' => (forall s, In s (atoms d) -> In s known) /\ scoped (n :: known) defs' out
  end.

(** The number an expression of numbers evaluates to; [p] gives the values of
    the leaves with indices *)
Fixpoint numval (v : string -> R) (p : string -> list idx -> R) (e : sexpr) : R :=
  match e with
  | SNum z => IZR z
  | SSym s => v s
  | SIx b l => p b l
  | SBin o a b => bin_val o (numval v p a) (numval v p b)
  | SFun f a => fn_val f (numval v p a)
  | SRed _ _ _ => 0%R
  end.

(** The valuation after the definitions *)
Fixpoint with_defs (v : string -> R) (p : string -> list idx -> R) (defs : list (string * sexpr)) : string -> R :=
  match defs with
  | [] => v
  | (n, d) :: defs' => with_defs (set_sym v n (numval v p d)) p defs'
  end.

(** Common sub-expression elimination: fresh numbered symbols, no new leaves,
    the same values *)
Definition eliminates (cse : list sexpr -> list (string * sexpr) * list sexpr) : Prop :=
  forall es, let defs := fst (cse es) in let out := snd (cse es) in
    length out = length es /\ NoDup (map fst defs) /\
    (forall n, In n (map fst defs) -> numbered n /\ ~ In n (flat_map atoms es)) /\
    scoped (flat_map atoms es) defs out /\
    (forall e b l, In e (map snd defs ++ out) -> In (b, l) (indexed_exprs e) -> In (b, l) (flat_map indexed_exprs es)) /\
    (Forall no_reduction es -> Forall no_reduction (map snd defs ++ out)) /\
    forall v p, map (numval (with_defs v p defs) p) out = map (numval v p) es.

(** Names that break the generated function when they are assigned in it *)
Definition reserved : list string := ["exog_inputs"; "endog_inputs"; "np"; "len"].

(** The simplest one finds nothing *)
Definition no_cse (es : list sexpr) : list (string * sexpr) * list sexpr := ([], es).
(** One that names the first expression x0 whenever that symbol is free *)
Definition first_cse (es : list sexpr) : list (string * sexpr) * list sexpr :=
  match es with
  | e :: es' => if mem_str "x0" (flat_map atoms es) then ([], es) else ([("x0", e)], SSym "x0" :: es')
  | [] => ([], [])
  end.
