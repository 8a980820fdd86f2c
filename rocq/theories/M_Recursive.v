(** Recursive calibration: tools/sympy_tools.py:532-591. *)
From Verif Require Import Py PyStr M_SymExpr M_Calculus.
Local Open Scope string_scope.
Local Open Scope list_scope.

(** eq.subs(known_values), tools/sympy_tools.py:558 and 573. The values are
    numbers (expressions without symbols), so the order does not matter. *)
Fixpoint fill (known : dict sexpr) (e : sexpr) : sexpr :=
  match e with
  | SSym s => match dget s known with Some c => c | None => e end
  | SNum _ | SIx _ _ => e
  | SBin o a b => SBin o (fill known a) (fill known b)
  | SFun f a => SFun f (fill known a)
  | SRed o a l => SRed o (fill known a) l
  end.

(** [var for var in eq.free_symbols], tools/sympy_tools.py:561: a set *)
Definition free_symbols (e : sexpr) : list string := nodup String.string_dec (atoms e).

(** l.remove(x), tools/sympy_tools.py:579: the first equal element; ValueError
    when there is none *)
Fixpoint list_remove (x : sexpr) (l : list sexpr) : res (list sexpr) :=
  match l with
  | [] => Err ValueError
  | y :: l' => if sexpr_eqb y x then Ok l' else let* r := list_remove x l' in Ok (y :: r)
  end.

Section Solve.
(** sp.simplify, .evalf() and sp.solve, which are external. sp.solve of one
    equation for one symbol returns a list. *)
Context (simplify evalf : sexpr -> sexpr) (solve : sexpr -> string -> list sexpr).

(** The state of the inner loop: known_values, new_solution_found, remove
    (tools/sympy_tools.py:556-581) *)
Record pass_state := { ps_known : dict sexpr; ps_found : bool; ps_remove : list sexpr }.

(** tools/sympy_tools.py:560-577: the body of the inner loop *)
Definition try_equation (st : pass_state) (eq : sexpr) : pass_state :=
  match free_symbols eq with
  | [unknown] =>
    let solution := match solve eq unknown with [] => SNum 0 | s :: _ => s end in
    {| ps_known := dset unknown (evalf (fill (ps_known st) solution)) (ps_known st);
       ps_found := true; ps_remove := ps_remove st ++ [eq] |}
  | [] => {| ps_known := ps_known st; ps_found := ps_found st; ps_remove := ps_remove st ++ [eq] |}
  | _ => st
  end.

(** tools/sympy_tools.py:557-580: one pass; also whether something was solved *)
Definition one_pass (known : dict sexpr) (unsolved : list sexpr) : res (dict sexpr * bool * list sexpr) :=
  let simplified_equations := map (fun eq => simplify (fill known eq)) unsolved in
  let st := fold_left try_equation simplified_equations {| ps_known := known; ps_found := false; ps_remove := [] |} in
  let* remaining := fold_res (fun l eq => list_remove eq l) simplified_equations (ps_remove st) in
  Ok (ps_known st, ps_found st, remaining).

(** tools/sympy_tools.py:556-586: the outer loop *)
Fixpoint passes (max_iter n_equations : nat) (known : dict sexpr) (unsolved : list sexpr) : res (dict sexpr * list sexpr) :=
  match max_iter with
  | O => Ok (known, unsolved)
  | S max_iter' =>
    let* r := one_pass known unsolved in
    let '(known', found, unsolved') := r in
    if Nat.eqb (length known') n_equations then Ok (known', unsolved')
    else if negb found then Ok (known', unsolved')
    else passes max_iter' n_equations known' unsolved'
  end.

(** tools/sympy_tools.py:532-591 recursive_solve_symbolic *)
Definition recursive_solve_symbolic (equations : list sexpr) (known_values : dict sexpr) (max_iter : nat) : res (dict sexpr) :=
  let* r := passes max_iter (length equations) known_values equations in
  match snd r with
  | [] => Ok (fst r)
  | _ => Err ValueError
  end.
End Solve.
