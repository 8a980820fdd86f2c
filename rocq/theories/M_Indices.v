(** Index enumeration and names of indexed symbols
    (/repo/cge_modeling/tools/sympy_tools.py:60-81, 169-228, 250-258;
    tools/utils.py:44-52). *)
From Verif Require Import Py PyStr M_Primitives.
Local Open Scope string_scope.
Local Open Scope list_scope.

Section Expand.
(** sympy expressions, indices and index values. [eqb] is ==, [has] is
    expr.has(index), [subs] is expr.subs({index: value}); what they do is not
    modelled (tools/sympy_tools.py:71-77). *)
Context {E I W : Type} (eqb : E -> E -> bool) (has : E -> I -> bool) (subs : E -> I -> W -> E).

(** tools/sympy_tools.py:73-77: the loop over the values of one index; [acc] is new_expressions *)
Definition add_instances (index : I) (value_list : list W) (acc : list E) (expr : E) : list E :=
  if has expr index
  then fold_left (fun acc value => let new_expr := subs expr index value in
                                   if existsb (eqb new_expr) acc then acc else acc ++ [new_expr])
                 value_list acc
  else acc ++ [expr].

(** tools/sympy_tools.py:60-81 expand_indices; idx_values[0] of an empty list is
    an IndexError *)
Fixpoint expand_indices (expressions : list E) (idx_symbols : list I) (idx_values : list (list W)) : res (list E) :=
  match idx_symbols with
  | [] => Ok expressions
  | index :: remaining =>
    match idx_values with
    | [] => Err IndexError
    | value_list :: remaining_values =>
      expand_indices (fold_left (add_instances index value_list) expressions []) remaining remaining_values
    end
  end.
End Expand.

(** tools/sympy_tools.py:169-217 enumerate_indexbase: each dict maps index
    values to labels *)
Definition enumerate_indexbase {E I W} (eqb : E -> E -> bool) (has : E -> I -> bool) (subs : E -> I -> W -> E)
           (exprs : list E) (indices : list I) (index_dicts : list (list (W * W))) (expand_using : string) : res (list E) :=
  let idx_values := map (map fst) index_dicts in
  let idx_labels := map (map snd) index_dicts in
  if String.eqb expand_using "index" then expand_indices eqb has subs exprs indices idx_values
  else expand_indices eqb has subs exprs indices idx_labels.

(** tools/utils.py:44-52 brackets_to_snake_case *)
Definition brackets_to_snake_case (name : string) : string :=
  let name := str_replace "]" "" name in
  let name := str_replace "[" "_" name in
  let name := str_replace "," "_" name in
  str_replace " " "" name.

(** Indexed.name of sympy: the printed form (as read in tools/sympy_tools.py:221) *)
Definition indexed_name (base : string) (indices : list string) : string :=
  (base ++ "[" ++ join ", " indices ++ "]")%string.

(** tools/sympy_tools.py:220-221 indexed_var_to_symbol: the name of the symbol *)
Definition indexed_var_to_symbol (v : string * list string) : string :=
  brackets_to_snake_case (indexed_name (fst v) (snd v)).

(** tools/sympy_tools.py:224-228 make_indexbase_sub_dict: dict(zip(exprs, symbols));
    the keys are the indexed variables by their printed form *)
Definition make_indexbase_sub_dict (exprs : list (string * list string)) : dict string :=
  dict_of_list (combine (map (fun v => indexed_name (fst v) (snd v)) exprs) (map indexed_var_to_symbol exprs)).

(** tools/sympy_tools.py:250-258 symbol: the name; the sectors are strings *)
Definition symbol (name : string) (sectors : list string) : string :=
  match sectors with
  | [] => name
  | _ => (name ++ "_" ++ join "_" sectors)%string
  end.
