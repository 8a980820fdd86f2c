(** expand_obj_by_indices with object identity made explicit.

    In tools/sympy_tools.py:424-429 each result is obj.copy(), a deepcopy
    (base/primitives.py:211-212), which update_dim_value then changes in place:
    it writes into the dim_vals dictionary object the copy refers to and
    rebinds _full_latex_name and description (base/primitives.py:203-209).

    Two heaps: objects, and the dictionaries their dim_vals refer to. The other
    attributes are never changed in place and are stored by value; the
    [o_dim_vals] field of a stored object is not used. *)
From Verif Require Import Py PyStr M_Primitives M_Expand.

(** a ModelObject (base/primitives.py:46-58): its fields and the location of its dim_vals dict *)
Record hobj := MkHobj { ho_fields : mobj; ho_dv : nat }.
(** the objects and dicts alive during tools/sympy_tools.py:387-430 *)
Record oheap := MkHeap { h_objs : list hobj; h_dicts : list (dict label) }.

(** lst[loc] = x (the assignments of base/primitives.py:203-209) *)
Fixpoint lset {A} (l : list A) (loc : nat) (x : A) : list A :=
  match l, loc with
  | [], _ => []
  | _ :: l', 0 => x :: l'
  | y :: l', S k => y :: lset l' k x
  end.

(** The object as its attributes read (base/primitives.py:46-58). *)
Definition with_dim_vals (o : mobj) (dv : dict label) : mobj :=
  MkObj (o_kind o) (o_name o) (o_dims o) dv (o_latex_name o) (o_full_latex o) (o_description o)
        (o_base_name o) (o_real o) (o_positive o) (o_extend o).
(** reading an object (base/primitives.py:46-58) through its dim_vals reference *)
Definition view (h : oheap) (loc : nat) : option mobj :=
  match nth_error (h_objs h) loc with
  | None => None
  | Some ho => match nth_error (h_dicts h) (ho_dv ho) with
               | None => None
               | Some d => Some (with_dim_vals (ho_fields ho) d)
               end
  end.

(** base/primitives.py:211-212 copy = deepcopy: a new object with a new
    dictionary. Dangling references cannot occur in Python; the model raises. *)
Definition copy_heap (h : oheap) (loc : nat) : res (oheap * nat) :=
  match nth_error (h_objs h) loc with
  | None => Err AttributeError
  | Some ho =>
      match nth_error (h_dicts h) (ho_dv ho) with
      | None => Err AttributeError
      | Some d => Ok (MkHeap (h_objs h ++ [MkHobj (ho_fields ho) (length (h_dicts h))])
                             (h_dicts h ++ [d]),
                      length (h_objs h))
      end
  end.

(** base/primitives.py:203-209 update_dim_value, in place *)
Definition update_heap (h : oheap) (loc : nat) (dim : string) (value : label) : res oheap :=
  match nth_error (h_objs h) loc with
  | None => Err AttributeError
  | Some ho =>
      match nth_error (h_dicts h) (ho_dv ho) with
      | None => Err AttributeError
      | Some d =>
          let o := ho_fields ho in
          if mem_str dim (o_dims o) then
            let d' := dset dim value d in
            let full := initialize_full_latex_name (o_dims o) d' (o_latex_name o) (o_extend o) in
            let descr := initialize_description (Some (o_description o)) (o_dims o) d' full
                                                (o_positive o) (o_real o) in
            let o' := MkObj (o_kind o) (o_name o) (o_dims o) (o_dim_vals o) (o_latex_name o) full descr
                            (o_base_name o) (o_real o) (o_positive o) (o_extend o) in
            Ok (MkHeap (lset (h_objs h) loc (MkHobj o' (ho_dv ho)))
                       (lset (h_dicts h) (ho_dv ho) d'))
          else Err ValueError
      end
  end.

(** tools/sympy_tools.py:425-428: one iteration of the loop over label_prod *)
Definition one_copy_heap (src : nat) (dims : list string) (s : oheap * list nat) (ls : list label)
  : res (oheap * list nat) :=
  let* hl := copy_heap (fst s) src in
  let* h := fold_res (fun h dl => update_heap h (snd hl) (fst dl) (snd dl)) (fst hl) (combine dims ls) in
  Ok (h, snd s ++ [snd hl]).

(** tools/sympy_tools.py:387-430 expand_obj_by_indices on a heap; returns the
    locations of the new objects. *)
Definition expand_heap (order : list string -> list string) (h : oheap) (src : nat) (c : coords)
           (dims : option (list string)) (mode : unused_mode) : res (oheap * list nat) :=
  match view h src with
  | None => Err AttributeError
  | Some o =>
      let dims := match dims with None => o_dims o | Some ds => ds end in
      let* dims := validate_dims order o dims mode in
      let* labels := map_res (fun d => dgetitem d c) dims in
      fold_res (one_copy_heap src dims) (h, []) (product labels)
  end.
