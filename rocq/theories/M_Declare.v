(** Model of the helpers that make symbols from descriptions of variables
    (tools/sympy_tools.py:84-90, 231-247, 265-278), of union_many
    (tools/utils.py:36-41) and of the text of latex_print_equations
    (tools/output_tools.py:394-409).

    An index is given by its name. Assumptions are a list of named flags. *)
From Verif Require Import Py PyStr.
Local Open Scope string_scope.
Local Open Scope list_scope.

(** Assumptions of a symbol (tools/sympy_tools.py:84-90) *)
Definition assumptions := list (string * bool).

(** sp.Symbol or an IndexedBase (tools/sympy_tools.py:87-90) *)
Inductive base := BSymbol (name : string) (a : assumptions) | BBase (name : string) (a : assumptions).
(** A symbol, or an IndexedBase with its indices (tools/sympy_tools.py:237-245) *)
Inductive svalue := VBase (b : base) | VIndexed (b : base) (index : list string).

(** tools/sympy_tools.py:84-90 make_symbol *)
Definition make_symbol (name : string) (index : bool) (a : option assumptions) : base :=
  let a := match a with None => [] | Some a => a end in
  if index then BBase name a else BSymbol name a.

(** tools/sympy_tools.py:237-240 inject_index *)
Definition inject_index (x : base) (has_idx : bool) (idx : list string) : svalue :=
  if has_idx then VIndexed x idx else VBase x.

(** tools/sympy_tools.py:231-247 info_to_symbols: unpacking zip of nothing into
    two names raises ValueError *)
Definition info_to_symbols (var_info : list (string * list string)) (a : option assumptions) : res (list svalue) :=
  match var_info with
  | [] => Err ValueError
  | _ =>
      let names := map fst var_info in
      let index_symbols := map snd var_info in
      let has_index := map (fun idx => Nat.ltb 0 (length idx)) index_symbols in
      let base_vars := map (fun nh => make_symbol (fst nh) (snd nh) a) (combine names has_index) in
      Ok (map (fun xhi => inject_index (fst (fst xhi)) (snd (fst xhi)) (snd xhi)) (combine (combine base_vars has_index) index_symbols))
  end.

(** A description: the entries name and index of the dict, either may be
    missing (tools/sympy_tools.py:266) *)
Record info := MkInfo { i_name : option string; i_index : option (list string) }.

(** tools/sympy_tools.py:265-270 dict_info_to_symbols *)
Definition dict_info_to_symbols (dict_info : list info) (a : option assumptions) : res (list svalue * dict svalue) :=
  let* tuple_info := map_res (fun d => match i_name d with
                                       | None => Err KeyError
                                       | Some n => Ok (n, match i_index d with Some l => l | None => [] end)
                                       end) dict_info in
  let* symbols := info_to_symbols tuple_info a in
  Ok (symbols, dict_of_list (combine (map fst tuple_info) symbols)).

(** A key of a dict: a string or something else (tools/sympy_tools.py:276) *)
Inductive key (K : Type) := KStr (s : string) | KOther (k : K).
Arguments KStr {K} s. Arguments KOther {K} k.
(** tools/sympy_tools.py:273-278 remove_string_keys *)
Definition remove_string_keys {K V} (d : list (key K * V)) : list (key K * V) :=
  filter (fun kv => match fst kv with KStr _ => false | KOther _ => true end) d.

(** An argument of union_many: a list, tuple or set, a frozenset or another
    hashable object (tools/utils.py:38-39) *)
Inductive uarg (A : Type) := UColl (l : list A) | UFrozen (l : list A) | UOne (a : A).
Arguments UColl {A} l. Arguments UFrozen {A} l. Arguments UOne {A} a.
(** An element of the union: an object, or a frozenset as one element (tools/utils.py:38-40) *)
Inductive uelem (A : Type) := EOne (a : A) | EFrozen (l : list A).
Arguments EOne {A} a. Arguments EFrozen {A} l.
(** y after lines 38-39 of tools/utils.py *)
Definition elements_of {A} (y : uarg A) : list (uelem A) :=
  match y with UColl l => map EOne l | UFrozen l => [EFrozen l] | UOne a => [EOne a] end.
(** tools/utils.py:36-41 union_many; a set is a list whose order and repetitions
    do not matter *)
Definition union_many {A} (x : list (uelem A)) (args : list (uarg A)) : list (uelem A) :=
  fold_left (fun x y => x ++ elements_of y) args x.

(** A description of an equation: d.get gives None for a missing entry. The
    expression is given by its LaTeX text, which exists for None too; a missing
    number prints as None (tools/output_tools.py:395-397, 402) *)
Record eq_info := MkEq { e_name : option string; e_latex : string; e_id : string }.
(** tools/output_tools.py:401-402 *)
Definition equation_text (d : eq_info) : res string :=
  match e_name d with
  | None => Err TypeError
  | Some n => Ok ("\text{" ++ n ++ "} &\\" ++ e_latex d ++ "&\tag{" ++ e_id d ++ "}" ++ "\\")%string
  end.
(** tools/output_tools.py:394-409 latex_print_equations: the text, returned or displayed *)
Definition latex_print_equations (equation_info : list eq_info) : res string :=
  let* parts := map_res equation_text equation_info in
  Ok ("\begin{align}" ++ fold_left append parts "" ++ "\end{align}")%string.
