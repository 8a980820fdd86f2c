(** From the text of an equation to the two sides add_sympy_equation works on
    (/repo/cge_modeling/base/cge.py:396-432): the names parse_expr is given, and
    the expressions it builds.

    sympy itself is external. Modelled are numbers, the names of the model,
    arithmetic, exp and log, Sum and Product with limits, and .subs({i:j}); what
    parse_expr makes of anything else (unknown names, decimal fractions, an
    index used as a number, other calls) is the argument [other]. The
    transformations of transformations="all" other than that of the sign "=" are
    taken not to change such texts, and the automatic evaluation sympy does is
    not modelled (as in M_SymExpr.v). *)
From Coq Require Import Ascii ZArith.
From Verif Require Import Py PyStr M_Primitives M_PyExpr M_Expand M_SymExpr M_Simplify.
Local Open Scope string_scope.
Local Open Scope list_scope.

(** A word that is a whole number: an sp.Integer (base/cge.py:410-412) *)
Fixpoint read_digits (acc : nat) (s : string) : option nat :=
  match s with
  | "" => Some acc
  | String ch s' => if is_digit ch then read_digits (10 * acc + (nat_of_ascii ch - 48)) s' else None
  end.
(** base/cge.py:410-412 *)
Definition whole_number (w : string) : option nat := match w with "" => None | _ => read_digits 0 w end.

(** The operators of sympy (base/cge.py:410-412) *)
Definition sympy_op (op : M_PyExpr.binop) : M_SymExpr.binop :=
  match op with Add => OAdd | Sub => OSub | Mul => OMul | Div => ODiv | Power => OPow end.
(** The reductions and functions of sympy, by name (base/cge.py:410-412) *)
Definition reduction (f : string) : option rop :=
  if String.eqb f "Sum" then Some RSum else if String.eqb f "Product" then Some RProd else None.
(** base/cge.py:410-412 *)
Definition function (f : string) : option fn1 :=
  if String.eqb f "exp" then Some FExp else if String.eqb f "log" then Some FLog else None.

(** base/cge.py:398-406 the names of variables and parameters in local_dict
    (a parameter replaces a variable of the same name); the names of the dims,
    which replace both, are kept apart *)
Definition local_dict (vars params : list mobj) : dict sexpr :=
  dupdate (dict_of_list (map (fun o => (o_name o, to_sympy o)) vars))
          (dict_of_list (map (fun o => (o_name o, to_sympy o)) params)).

(** The limits (i, lo, hi) of a Sum or Product (base/cge.py:410-412) *)
Fixpoint limits_of (dims : list string) (args : pexpr) : option (list (string * (nat * nat))) :=
  match args with
  | ENil => Some []
  | ECons (ETuple (ECons (EWord i) (ECons (EWord lo) (ECons (EWord hi) ENil)))) rest =>
      match (if mem_str i dims then Some i else None), whole_number lo, whole_number hi, limits_of dims rest with
      | Some i, Some lo, Some hi, Some l => Some ((i, (lo, hi)) :: l)
      | _, _, _, _ => None
      end
  | _ => None
  end.

Section Parse.
Variable other : pexpr -> res sexpr.

(** base/cge.py:410-412 sp.parse_expr(text, local_dict=local_dict,
    transformations="all") for the tree of one side *)
Fixpoint sympy_of (names : dict sexpr) (dims : list string) (e : pexpr) : res sexpr :=
  match e with
  | EWord w =>
      match whole_number w with
      | Some n => Ok (SNum (Z.of_nat n))
      | None => if mem_str w dims then other e else match dget w names with Some t => Ok t | None => other e end
      end
  | EBin op a b => let* x := sympy_of names dims a in let* y := sympy_of names dims b in Ok (SBin (sympy_op op) x y)
  | ENeg a => let* x := sympy_of names dims a in Ok (SBin OMul (SNum (-1)) x)
  | ECall (EWord f) (ECons body lims) =>
      if mem_str f dims || dmem f names then other e
      else match reduction f, function f, limits_of dims lims with
           | Some o, _, Some (l :: ls) => let* x := sympy_of names dims body in Ok (SRed o x (l :: ls))
           | None, Some h, Some [] => let* x := sympy_of names dims body in Ok (SFun h x)
           | _, _, _ => other e
           end
  | ECall (EAttr a m) (ECons (EDict (ECons (EPair (EWord i) (EWord j)) ENil)) ENil) =>
      if String.eqb m "subs" && mem_str i dims && mem_str j dims
      then let* x := sympy_of names dims a in Ok (put_index i (IVar j) x)
      else other e
  | _ => other e
  end.

(** The text before and after the first sign "=", which parse_expr turns into
    Eq(left, right) (base/cge.py:410-412) *)
Fixpoint cut_eq (seen s : string) : option (string * string) :=
  match s with
  | "" => None
  | String ch s' => if Ascii.eqb ch "=" then Some (seen, s') else cut_eq (seen ++ String ch "") s'
  end.

(** base/cge.py:409-420 the sides sympy_eq.lhs and sympy_eq.rhs. Without "="
    there is no lhs (427-432). Simplified: a text the grammar of M_PyExpr.v does
    not cover is refused. *)
Definition sympy_sides (c : dict (list string)) (vars params : list mobj) (s : string) : res (sexpr * sexpr) :=
  match cut_eq "" s with
  | None => Err ValueError
  | Some (lhs, rhs) =>
      match parse lhs, parse rhs with
      | Some el, Some er =>
          let names := local_dict vars params in
          match (let* x := sympy_of names (dkeys c) el in let* y := sympy_of names (dkeys c) er in Ok (x, y)) with
          | Ok p => Ok p
          | Err _ => Err ValueError
          end
      | _, _ => Err ValueError
      end
  end.

(** base/cge.py:454-461 the equations of the model, one after the other, as
    sides *)
Definition sympy_equations (c : dict (list string)) (vars params : list mobj) (texts : list string) : res (list (sexpr * sexpr)) :=
  map_res (sympy_sides c vars params) texts.
End Parse.
