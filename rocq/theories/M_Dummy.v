(** Model of make_dummy_sub_dict and replace_indexed_variables
    (tools/sympy_tools.py:433-472): arrays replaced by plain symbols before
    printing.

    As in M_Simplify the assumptions of symbols are not modelled. *)
From Verif Require Import Py PyStr M_Primitives M_SymExpr M_Simplify.
Local Open Scope string_scope.
Local Open Scope list_scope.

(** isinstance(x.to_sympy(), sp.Indexed), tools/sympy_tools.py:456, 461 *)
Definition is_indexed (e : sexpr) : bool := match e with SIx _ _ => true | _ => false end.

(** The dict comprehensions of tools/sympy_tools.py:453-462 *)
Definition dummies (objs : list mobj) : list (sexpr * sexpr) :=
  fold_left (fun d o => sdset (to_sympy o) (SSym (o_base_name o)) d) (filter (fun o => is_indexed (to_sympy o)) objs) [].

(** tools/sympy_tools.py:433-464 make_dummy_sub_dict; the two dicts are merged *)
Definition make_dummy_sub_dict (variables parameters : list mobj) : list (sexpr * sexpr) :=
  fold_left (fun d kv => sdset (fst kv) (snd kv) d) (dummies parameters) (dummies variables).

Section Subs.
(** As in M_SymExpr *)
Variable sub_into : sexpr -> list string -> bool.
Variable dict_order : list (sexpr * sexpr) -> list (sexpr * sexpr).
(** tools/sympy_tools.py:467-472 replace_indexed_variables, 93-96 sub_all_eqs *)
Definition replace_indexed_variables (equations : list sexpr) (sub_dict : list (sexpr * sexpr)) : list sexpr :=
  map (subs sub_into dict_order sub_dict) equations.
End Subs.
