(** Model of the methods of CGEModel that collect a calibration:
    check_shape, finalize_calibration, initialize_parameter and get_shape
    (/repo/cge_modeling/base/cge.py:559-561, 1159-1188).

    Simplified: the local variables of the caller are a dict of numeric arrays
    or pandas objects; values that are not numeric arrays are not modelled.
    Printed messages are a list. Objects are sorted by their names: the
    dataclass order of base/primitives.py compares names first, and no two
    variables (or parameters) of a model share a name. *)
From Verif Require Import Py PyStr NdArray M_Primitives M_Utilities M_Registry.
Local Open Scope string_scope.
Local Open Scope list_scope.

(** self.get(name) with a single string (base/cge.py:512-525, 560, 1160, 1186) *)
Definition get_object (m : model) (name : string) : res mobj :=
  let* g := get m (Some [name]) in
  match g with GotOne o => Ok o | GotMany _ => Err TypeError end.

(** base/cge.py:559-561 get_shape: the lengths yielded by the generator it
    returns, here already iterated *)
Definition get_shape (m : model) (name : string) : res (list nat) :=
  let* o := get_object m name in
  infer_shape (m_coords m) o.

(** base/cge.py:1167, 1182: what is printed *)
Inductive message := WrongShape (name : string) (got expected : list nat) | NotFound (name : string).

(** A local variable of the caller: a pandas object or anything np.array takes
    (base/cge.py:1178-1179) *)
Inductive local_value (V : Type) := Pandas (values : arr V) | Plain (a : arr V).
Arguments Pandas {V} values. Arguments Plain {V} a.

(** data == data2 on shapes (base/cge.py:1164, 1166) *)
Definition shape_eqb (a b : list nat) : bool := if list_eq_dec Nat.eq_dec a b then true else false.

Section Values.
Context {V : Type}.

(** data.squeeze(): the axes of length one are removed (base/cge.py:1165) *)
Definition squeeze (a : arr V) : arr V := mkArr (filter (fun n => negb (Nat.eqb n 1)) (ashape a)) (adata a).

(** base/cge.py:1159-1168 check_shape *)
Definition check_shape (m : model) (data : arr V) (name : string) : res (arr V * list message) :=
  let* o := get_object m name in
  let* shape := infer_shape (m_coords m) o in
  let data := if (shape_eqb (ashape data) [1] || shape_eqb (ashape data) []) && shape_eqb shape [] then squeeze data else data in
  Ok (data, if shape_eqb (ashape data) shape then [] else [WrongShape name (ashape data) shape]).

(** data.values of a pandas object (base/cge.py:1178-1179) *)
Definition values_of (v : local_value V) : arr V := match v with Pandas a => a | Plain a => a end.

(** a.name <= b.name, by character codes (base/cge.py:1174) *)
Definition name_leb (a b : string) : bool := match String.compare a b with Gt => false | _ => true end.

(** sorted(...): insertion by name (base/cge.py:1174) *)
Fixpoint insert_object (o : mobj) (l : list mobj) : list mobj :=
  match l with
  | [] => [o]
  | x :: l' => if name_leb (o_name o) (o_name x) then o :: l else x :: insert_object o l'
  end.
(** base/cge.py:1174 *)
Definition sort_objects (l : list mobj) : list mobj := fold_right insert_object [] l.

(** base/cge.py:1174-1182, the loop of finalize_calibration *)
Fixpoint finalize_loop (m : model) (locals : dict (local_value V)) (objs : list mobj) (d : dict (arr V)) (out : list message)
  : res (dict (arr V) * list message) :=
  match objs with
  | [] => Ok (d, out)
  | o :: objs' =>
      match (if String.eqb (o_name o) "_" then None else dget (o_name o) locals) with
      | Some v =>
          let* r := check_shape m (values_of v) (o_name o) in
          finalize_loop m locals objs' (dset (o_name o) (fst r) d) (out ++ snd r)
      | None => finalize_loop m locals objs' d (out ++ [NotFound (o_name o)])
      end
  end.

(** base/cge.py:1170-1183 finalize_calibration *)
Definition finalize_calibration (m : model) (locals : dict (local_value V)) : res (dict (arr V) * list message) :=
  finalize_loop m locals (sort_objects (dvals (m_vars m)) ++ sort_objects (dvals (m_pars m))) [] [].

(** base/cge.py:1185-1188 initialize_parameter *)
Definition initialize_parameter (m : model) (name : string) (value : V) : res (arr V) :=
  let* o := get_object m name in
  let* size := infer_shape (m_coords m) o in
  Ok (mkArr size (repeat value (prodn size))).

End Values.
