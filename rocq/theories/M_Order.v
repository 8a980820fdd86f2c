(** Comparison of model objects: the dataclasses ModelObject, Variable and
    Parameter are declared with order=True, which generates __eq__ and __lt__
    (/repo/cge_modeling/base/primitives.py:46-58, 215-222), and
    finalize_calibration sorts objects (/repo/cge_modeling/base/cge.py:1174).

    Simplified: the field assumptions is left out; it is compared last, after
    real and positive, from which it is filled (base/primitives.py:61-62). *)
From Verif Require Import Py PyStr M_Primitives.
Local Open Scope string_scope.
Local Open Scope list_scope.

(** The values of fields (base/primitives.py:48-58) *)
Inductive fvalue := VStr (s : string) | VTuple (l : list string) | VDict (d : dict label) | VBool (b : bool) | VInt (n : nat).

(** The fields in the order of their declaration (base/primitives.py:48-57) *)
Definition fields (o : mobj) : list fvalue :=
  [VStr (o_name o); VTuple (o_dims o); VDict (o_dim_vals o); VStr (o_latex_name o); VStr (o_full_latex o);
   VStr (o_description o); VStr (o_base_name o); VBool (o_real o); VBool (o_positive o); VInt (o_extend o)].

(** == of two dictionaries: the order of the keys does not matter (base/primitives.py:50) *)
Definition dict_eqb (a b : dict label) : bool :=
  Nat.eqb (length a) (length b) &&
  forallb (fun kv => match dget (fst kv) b with Some v => label_eqb (snd kv) v | None => false end) a.
(** == of two tuples of strings (base/primitives.py:49) *)
Fixpoint tuple_eqb (a b : list string) : bool :=
  match a, b with
  | [], [] => true
  | x :: a', y :: b' => String.eqb x y && tuple_eqb a' b'
  | _, _ => false
  end.
(** == of two values (base/primitives.py:46) *)
Definition value_eqb (x y : fvalue) : bool :=
  match x, y with
  | VStr a, VStr b => String.eqb a b
  | VTuple a, VTuple b => tuple_eqb a b
  | VDict a, VDict b => dict_eqb a b
  | VBool a, VBool b => Bool.eqb a b
  | VInt a, VInt b => Nat.eqb a b
  | _, _ => false
  end.

(** < of two strings, by character codes (base/primitives.py:46) *)
Definition str_ltb (a b : string) : bool := match String.compare a b with Lt => true | _ => false end.
(** < of two tuples of strings: the first difference decides (base/primitives.py:46) *)
Fixpoint tuple_ltb (a b : list string) : bool :=
  match a, b with
  | [], [] => false
  | [], _ :: _ => true
  | _ :: _, [] => false
  | x :: a', y :: b' => if String.eqb x y then tuple_ltb a' b' else str_ltb x y
  end.
(** < of two values: dictionaries have no order (base/primitives.py:46) *)
Definition value_lt (x y : fvalue) : res bool :=
  match x, y with
  | VStr a, VStr b => Ok (str_ltb a b)
  | VTuple a, VTuple b => Ok (tuple_ltb a b)
  | VBool a, VBool b => Ok (negb a && b)
  | VInt a, VInt b => Ok (Nat.ltb a b)
  | _, _ => Err TypeError
  end.

(** < of the tuples of fields: the first pair that differs is compared (base/primitives.py:46) *)
Fixpoint fields_lt (a b : list fvalue) : res bool :=
  match a, b with
  | [], [] => Ok false
  | [], _ :: _ => Ok true
  | _ :: _, [] => Ok false
  | x :: a', y :: b' => if value_eqb x y then fields_lt a' b' else value_lt x y
  end.

(** other.__class__ is self.__class__ (base/primitives.py:215, 220) *)
Definition kind_eqb (a b : kind) : bool := match a, b with KVar, KVar => true | KPar, KPar => true | _, _ => false end.
(** The generated __lt__ (base/primitives.py:46, 215, 220): NotImplemented on both
    sides, hence TypeError, for objects of different classes *)
Definition obj_lt (a b : mobj) : res bool := if kind_eqb (o_kind a) (o_kind b) then fields_lt (fields a) (fields b) else Err TypeError.
(** The generated __eq__ (base/primitives.py:46, 215, 220) *)
Definition obj_eq (a b : mobj) : bool :=
  kind_eqb (o_kind a) (o_kind b) && forallb (fun xy => value_eqb (fst xy) (snd xy)) (combine (fields a) (fields b)).

(** sorted(objects): a stable sort that compares with < only (base/cge.py:1174);
    an insertion sort stands for the sort of CPython *)
Fixpoint insert_lt (o : mobj) (l : list mobj) : res (list mobj) :=
  match l with
  | [] => Ok [o]
  | x :: l' => let* b := obj_lt x o in
               if b then let* r := insert_lt o l' in Ok (x :: r) else Ok (o :: l)
  end.
(** base/cge.py:1174 *)
Definition py_sorted (l : list mobj) : res (list mobj) := fold_right (fun o acc => let* r := acc in insert_lt o r) (Ok []) l.
