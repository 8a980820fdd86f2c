(** From the two sides of a parsed equation to the scalar residuals handed to
    the compilers: the numeraire, the standard form, one copy per combination
    of labels, and the removal of indices
    (/repo/cge_modeling/base/cge.py:210-230, 396-449, 463-470;
     base/primitives.py:190-201, 260-270; tools/sympy_tools.py:93-166, 387-430). *)
From Verif Require Import Py PyStr M_Primitives M_Expand M_SymExpr.
Local Open Scope string_scope.
Local Open Scope list_scope.

(** The index sympy makes of a label: sympify of a str or an int
    (base/primitives.py:199-201, 268). Negative integers are not
    distinguished from symbols of the same text. *)
Definition label_index (l : label) : idx :=
  match l with
  | LStr s => label_idx s
  | LInt z => if Z.leb 0 z then IPos (Z.to_nat z) else ILab (str_of_Z z)
  end.

(** base/primitives.py:190-201 ModelObject.to_sympy with the default
    arguments. The assumptions of the symbols are not modelled. *)
Definition to_sympy (o : mobj) : sexpr :=
  match o_dims o with
  | [] => SSym (o_base_name o)
  | ds => SIx (o_base_name o)
            (map (fun d => match dget d (o_dim_vals o) with Some l => label_index l | None => IVar d end) ds)
  end.

(** tools/sympy_tools.py:120-137 indexed_variable_to_sympy_symbol *)
Definition indexed_variable_to_sympy_symbol (o : mobj) : sexpr := SSym (make_indexed_name o).

(** A dict whose keys are expressions: a repeated key keeps its place and
    takes the later value (tools/sympy_tools.py:166) *)
Fixpoint sdset (k v : sexpr) (d : list (sexpr * sexpr)) : list (sexpr * sexpr) :=
  match d with
  | [] => [(k, v)]
  | (k', v') :: d' => if sexpr_eqb k' k then (k', v) :: d' else (k', v') :: sdset k v d'
  end.

(** tools/sympy_tools.py:140-166 indexed_variables_to_sub_dict *)
Definition indexed_variables_to_sub_dict (objs : list mobj) : list (sexpr * sexpr) :=
  fold_left (fun d kv => sdset (fst kv) (snd kv) d)
            (combine (map to_sympy objs) (map indexed_variable_to_sympy_symbol objs)) [].

(** eq.subs(sp.Idx(dim), value), base/primitives.py:267-268. Inside a
    reduction over that index nothing is replaced. *)
Definition put_idx (i : string) (x y : idx) : idx :=
  match y with IVar s => if String.eqb s i then x else y | _ => y end.
(** eq.subs(sp.Idx(dim), value), base/primitives.py:267-268 *)
Fixpoint put_index (i : string) (x : idx) (e : sexpr) : sexpr :=
  match e with
  | SNum _ | SSym _ => e
  | SIx b l => SIx b (map (put_idx i x) l)
  | SBin o a b => SBin o (put_index i x a) (put_index i x b)
  | SFun f a => SFun f (put_index i x a)
  | SRed o a l => if mem_str i (map fst l) then e else SRed o (put_index i x a) l
  end.

(** base/primitives.py:260-270 _SympyEquation.update_dim_value, the effect on
    [_eq] *)
Definition update_eq_expr (e : sexpr) (dl : string * label) : sexpr :=
  put_index (fst dl) (label_index (snd dl)) e.

(** tools/sympy_tools.py:387-430 expand_obj_by_indices on an equation, called
    with its own dims (base/cge.py:348-352, 466-467): the expressions [_eq] of
    the copies *)
Definition unpack_expr (c : coords) (dims : list string) (e : sexpr) : res (list sexpr) :=
  let* labels := map_res (fun d => dgetitem d c) dims in
  Ok (map (fun ls => fold_left update_eq_expr (combine dims ls) e) (product labels)).

(** The coords dict with str labels (base/cge.py:100-115, used both as
    strings at tools/sympy_tools.py:309 and as labels at base/cge.py:349) *)
Definition lab_coords (c : dict (list string)) : coords :=
  map (fun kv => (fst kv, map LStr (snd kv))) c.

Section Pipeline.
Variable sub_into : sexpr -> list string -> bool.
Variable set_order : list sexpr -> list sexpr.
Variable dict_order : list (sexpr * sexpr) -> list (sexpr * sexpr).
(** Whether sympy decides an Eq of the two sides to be True or False, in which
    case it has no lhs (base/cge.py:428). *)
Variable evaluates : sexpr -> sexpr -> bool.

(** base/cge.py:422-449 the end of add_sympy_equation: the numeraire is
    replaced by 1, the sides are subtracted, reductions are expanded, and the
    dims found. *)
Definition standardize (c : dict (list string)) (numeraire : option mobj) (lhs rhs : sexpr)
  : res (sexpr * list string) :=
  let fix_num e := match numeraire with None => e | Some o => subs1 sub_into (to_sympy o) (SNum 1) e end in
  let l := fix_num lhs in
  let r := fix_num rhs in
  if evaluates l r then Err ValueError
  else match substitute_reduce_ops sub_into set_order dict_order c (SBin OSub l r) with
       | Ok e => Ok (e, find_equation_dims e (dkeys c))
       | Err _ => Err ValueError
       end.

(** base/cge.py:466-467 and 210-230 (_simplify_unpacked_sympy_representation):
    the symbols of the unpacked equations. [us] are the unpacked variables and
    parameters. *)
Definition equation_symbols (c : dict (list string)) (numeraire : option mobj) (us : list mobj) (lhs rhs : sexpr)
  : res (list sexpr) :=
  let* ed := standardize c numeraire lhs rhs in
  let* es := unpack_expr (lab_coords c) (snd ed) (fst ed) in
  Ok (map (subs sub_into dict_order (indexed_variables_to_sub_dict us)) es).
End Pipeline.
