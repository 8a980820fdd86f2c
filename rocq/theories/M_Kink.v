(** Maxima, logarithms and their derivatives in the code generated for numba
    (compile/numba_tools.py:20-25, 52-61). The derivatives are taken by sympy
    (compile/sympy.py:6-27); the rules below are the ones of the library. *)
From Coq Require Import Reals.
From Verif Require Import Py PyStr M_NumbaSource.
Local Open Scope string_scope.
Local Open Scope list_scope.

(** Expressions with numbers, symbols, sums, products, reciprocals, maxima of two
    expressions, logarithms, and the functions that differentiation brings:
    Heaviside and DiracDelta with its derivatives (compile/sympy.py:10, 15) *)
Inductive kexpr :=
| KNum (r : R) | KSym (x : string) | KAdd (a b : kexpr) | KMul (a b : kexpr) | KInv (a : kexpr)
| KMax (a b : kexpr) | KLog (a : kexpr) | KHeaviside (a : kexpr) | KDelta (order : nat) (a : kexpr).

(** a - b as sympy writes it (compile/sympy.py:10, 15) *)
Definition kminus (a b : kexpr) : kexpr := KAdd a (KMul (KNum (-1)) b).

(** expr.diff(x), compile/sympy.py:10, 15. Simplified: nothing is simplified. *)
Fixpoint kdiff (x : string) (e : kexpr) : kexpr :=
  match e with
  | KNum _ => KNum 0
  | KSym y => KNum (if String.eqb x y then 1 else 0)
  | KAdd a b => KAdd (kdiff x a) (kdiff x b)
  | KMul a b => KAdd (KMul (kdiff x a) b) (KMul a (kdiff x b))
  | KInv a => KMul (KNum (-1)) (KMul (kdiff x a) (KMul (KInv a) (KInv a)))
  | KMax a b => KAdd (KMul (KHeaviside (kminus a b)) (kdiff x a)) (KMul (KHeaviside (kminus b a)) (kdiff x b))
  | KLog a => KMul (kdiff x a) (KInv a)
  | KHeaviside a => KMul (KDelta 0 a) (kdiff x a)
  | KDelta k a => KMul (KDelta (S k) a) (kdiff x a)
  end.

(** _print_log (compile/numba_tools.py:57-61): a call with all arguments *)
Definition print_log (args : list R) : call := ("numpy.log", args).
(** _print_DiracDelta (compile/numba_tools.py:52-55) *)
Definition print_delta : string := "0.0".

(** What the calls printed at compile/numba_tools.py:22-25, 58-61 give. The
    logarithm is defined for positive numbers (numpy gives NaN or -inf for the
    others). None: there is no real value. *)
Definition eval_kcall (c : call) : option R :=
  if String.eqb (fst c) "numpy.log"
  then match snd c with [a] => if Rlt_dec 0 a then Some (ln a) else None | _ => None end
  else eval_call c.
(** The literals that can be printed for DiracDelta (compile/numba_tools.py:55) *)
Definition eval_literal (s : string) : option R := if String.eqb s "0.0" then Some 0%R else None.

(** numpy.heaviside(a, 1/2), printed by the library for Heaviside (base class at
    compile/numba_tools.py:17) *)
Definition heaviside (a : R) : R := if Rlt_dec a 0 then 0%R else if Rlt_dec 0 a then 1%R else (1 / 2)%R.

(** The values the generated code computes (compile/numba_tools.py:169-192) *)
Fixpoint kvalue (env : string -> R) (e : kexpr) : option R :=
  match e with
  | KNum r => Some r
  | KSym x => Some (env x)
  | KAdd a b => match kvalue env a, kvalue env b with Some u, Some v => Some (u + v)%R | _, _ => None end
  | KMul a b => match kvalue env a, kvalue env b with Some u, Some v => Some (u * v)%R | _, _ => None end
  | KInv a => match kvalue env a with Some u => if Req_EM_T u 0 then None else Some (/ u)%R | None => None end
  | KMax a b => match kvalue env a, kvalue env b with Some u, Some v => eval_kcall (print_max [u; v]) | _, _ => None end
  | KLog a => match kvalue env a with Some u => eval_kcall (print_log [u]) | None => None end
  | KHeaviside a => match kvalue env a with Some u => Some (heaviside u) | None => None end
  | KDelta _ a => eval_literal print_delta
  end.
