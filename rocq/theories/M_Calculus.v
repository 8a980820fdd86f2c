(** Symbolic derivatives: compile/sympy.py, the Jacobian functions of
    tools/sympy_tools.py:475-529, the symbolic parts of compile/numba.py and
    compile/sympytensor.py, and the numba Euler step.

    The variables are plain symbols: the model's arrays have been replaced by
    one symbol per element (base/cge.py:211-236). *)
From Verif Require Import Py PyStr M_SymExpr.
Local Open Scope string_scope.
Local Open Scope list_scope.

(** expr.diff(x) for a symbol x: sympy's rules. Terms that vanish or cancel
    are kept; sympy drops them. A literal integer exponent uses the power rule;
    reductions have been expanded before
    (as called in compile/sympy.py:15, compile/numba.py:139, tools/sympy_tools.py:501). *)
Fixpoint diff (x : string) (e : sexpr) : sexpr :=
  match e with
  | SNum _ => SNum 0
  | SSym s => SNum (if String.eqb s x then 1 else 0)
  | SIx _ _ => SNum 0
  | SBin OAdd a b => SBin OAdd (diff x a) (diff x b)
  | SBin OSub a b => SBin OSub (diff x a) (diff x b)
  | SBin OMul a b => SBin OAdd (SBin OMul (diff x a) b) (SBin OMul a (diff x b))
  | SBin ODiv a b =>
    SBin ODiv (SBin OSub (SBin OMul (diff x a) b) (SBin OMul a (diff x b))) (SBin OMul b b)
  | SBin OPow a b =>
    match b with
    | SNum n => if Z.eqb n 0 then SNum 0 else SBin OMul (SBin OMul b (SBin OPow a (SNum (n - 1)))) (diff x a)
    | _ => SBin OMul e (SBin OAdd (SBin OMul (diff x b) (SFun FLog a)) (SBin ODiv (SBin OMul b (diff x a)) a))
    end
  | SFun FExp a => SBin OMul e (diff x a)
  | SFun FLog a => SBin ODiv (diff x a) a
  | SRed o a l => SRed o (diff x a) l
  end.

(** The equations as a list or as an sp.Matrix (rows of entries)
    (the argument of compile/sympy.py:6-8 and tools/sympy_tools.py:506-527) *)
Inductive system := SysList (l : list sexpr) | SysMatrix (rows : list (list sexpr)).

(** shape[1] of an sp.Matrix (tools/sympy_tools.py:524) *)
Definition ncols (rows : list (list sexpr)) : nat := match rows with [] => 0 | r :: _ => length r end.

(** Matrix.jacobian of sympy: both arguments must be a row or a column (compile/sympy.py:10) *)
Definition as_vector (s : system) : res (list sexpr) :=
  match s with
  | SysList [] => Err TypeError
  | SysList l => Ok l
  | SysMatrix [r] => Ok r
  | SysMatrix rows => if Nat.eqb (ncols rows) 1 then Ok (List.concat rows) else Err TypeError
  end.

(** compile/sympy.py:6-11 make_sympy_jacobian *)
Definition make_sympy_jacobian (equations : system) (wrt : list string) : res (list (list sexpr)) :=
  let* l := as_vector equations in
  match wrt with
  | [] => Err TypeError
  | _ => Ok (map (fun e => map (fun x => diff x e) wrt) l)
  end.

(** compile/sympy.py:14-16 make_sympy_gradient: a column *)
Definition make_sympy_gradient (loss : sexpr) (wrt : list string) : list sexpr := map (fun x => diff x loss) wrt.

(** sum(l): starts from the integer 0 (compile/sympy.py:25) *)
Definition py_sum (l : list sexpr) : sexpr := fold_left (SBin OAdd) l (SNum 0).

(** compile/sympy.py:19-28 make_sympy_hessp *)
Definition hess_point (i : nat) : sexpr := SIx "hess_point" [IPos i].
(** compile/sympy.py:19-28 make_sympy_hessp *)
Definition make_sympy_hessp (grad : list sexpr) (variables : list string) : list sexpr :=
  let n := length variables in
  let hessp_loss := py_sum (map (fun i => SBin OMul (nth i grad (SNum 0)) (hess_point i)) (seq 0 n)) in
  make_sympy_gradient hessp_loss variables.

(** compile/numba.py:30 and compile/sympytensor.py:180: the squared loss *)
Definition squared_loss (equations : list sexpr) : sexpr :=
  SBin OMul (SBin ODiv (SNum 1) (SNum 2)) (py_sum (map (fun e => SBin OPow e (SNum 2)) equations)).

(** eq.atoms(): its leaves. Only the symbols matter here (tools/sympy_tools.py:498). *)
Fixpoint atoms (e : sexpr) : list string :=
  match e with
  | SNum _ | SIx _ _ => []
  | SSym s => [s]
  | SBin _ a b => atoms a ++ atoms b
  | SFun _ a => atoms a
  | SRed _ a _ => atoms a
  end.

(** enumerate (tools/sympy_tools.py:497, 499) *)
Definition enumerate {A} (l : list A) : list (nat * A) := combine (seq 0 (length l)) l.

(** tools/sympy_tools.py:475-503 jacobian_as_dok_data *)
Definition jacobian_as_dok_data (eqs : list sexpr) (variables : list string) : (nat * nat) * list ((nat * nat) * sexpr) :=
  ((length eqs, length variables),
   flat_map (fun ie => flat_map (fun jx => if mem_str (snd jx) (atoms (snd ie)) then [((fst ie, fst jx), diff (snd jx) (snd ie))] else [])
                        (enumerate variables))
            (enumerate eqs)).

(** sp.SparseMatrix( *shape, dok): the entry at (i, j), zero when absent
    (tools/sympy_tools.py:529) *)
Fixpoint dok_get (d : list ((nat * nat) * sexpr)) (i j : nat) : sexpr :=
  match d with
  | [] => SNum 0
  | ((a, b), e) :: d' => if (Nat.eqb a i && Nat.eqb b j)%bool then e else dok_get d' i j
  end.

(** tools/sympy_tools.py:506-529 sparse_jacobian *)
Definition sparse_jacobian (eqs : system) (variables : list string) : res ((nat * nat) * list ((nat * nat) * sexpr)) :=
  match eqs with
  | SysList l => Ok (jacobian_as_dok_data l variables)
  | SysMatrix rows =>
    if negb (Nat.eqb (ncols rows) 1) then Err ValueError
    else Ok (jacobian_as_dok_data (List.concat rows) variables)
  end.
