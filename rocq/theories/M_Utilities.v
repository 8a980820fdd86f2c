(** Model of /repo/cge_modeling/base/utilities.py *)
From Verif Require Import Py PyStr NdArray M_Primitives.
Local Open Scope string_scope.

(** base/utilities.py:210-256 infer_object_shape_from_coords:
    tuple(len(coords[dim]) for dim in obj.dims), KeyError on a missing dim. *)
Definition infer_shape (c : coords) (o : mobj) : res (list nat) :=
  map_res (fun d => let* ls := dgetitem d c in Ok (length ls)) (o_dims o).

Section Flat.
Context {V : Type}.

(** base/utilities.py:330-341, the loop of flat_array_to_variable_dict *)
Fixpoint unpack_loop (c : coords) (x : list V) (cursor : nat) (objs : list mobj)
         (d : dict (arr V)) : res (dict (arr V)) :=
  match objs with
  | [] => Ok d
  | o :: objs' =>
      let* shape := infer_shape c o in
      let s := prodn shape in
      let* value := reshape (slice x cursor s) shape in
      unpack_loop c x (cursor + s) objs' (dset (o_name o) value d)
  end.

(** base/utilities.py:278-341 flat_array_to_variable_dict *)
Definition flat_array_to_variable_dict (x : list V) (objs : list mobj) (c : coords)
  : res (dict (arr V)) := unpack_loop c x 0 objs [].

(** [np.atleast_1d(d[var.name]).ravel() for var in objs] and np.concatenate
    (base/utilities.py:386): KeyError for a missing name, ValueError for an
    empty list of arrays. *)
Definition concat_named (d : dict (arr V)) (objs : list mobj) : res (list V) :=
  let* parts := map_res (fun o => let* a := dgetitem (o_name o) d in Ok (ravel a)) objs in
  match parts with
  | [] => Err ValueError
  | _ => Ok (List.concat parts)
  end.

(** base/utilities.py:344-389 variable_dict_to_flat_array *)
Definition variable_dict_to_flat_array (d : dict (arr V)) (vars params : list mobj)
  : res (list V * list V) :=
  let* v := concat_named d vars in
  let* p := concat_named d params in
  Ok (v, p).

(** mask[a : a + n] = b on a boolean array; slices clamp (base/utilities.py:272, 410). *)
Fixpoint set_slice (mask : list bool) (a n : nat) (b : bool) : list bool :=
  match mask, a, n with
  | [], _, _ => []
  | m :: mask', S a', _ => m :: set_slice mask' a' n b
  | m :: mask', 0, S n' => b :: set_slice mask' 0 n' b
  | _, 0, 0 => mask
  end.

(** base/utilities.py:265-274, the loop of make_flat_array_return_mask *)
Fixpoint return_mask_loop (c : coords) (omit : list string) (cursor : nat) (objs : list mobj)
         (mask : list bool) : res (list bool) :=
  match objs with
  | [] => Ok mask
  | o :: objs' =>
      let* shape := infer_shape c o in
      let s := prodn shape in
      let mask' := if mem_str (o_name o) omit then set_slice mask cursor s false else mask in
      return_mask_loop c omit (cursor + s) objs' mask'
  end.

(** base/utilities.py:259-275 make_flat_array_return_mask; only the length of
    the array argument is used. *)
Definition make_flat_array_return_mask (x : list V) (objs : list mobj) (omit : list string)
           (c : coords) : res (list bool) :=
  return_mask_loop c omit 0 objs (repeat true (length x)).

(** numpy boolean selection x[mask] (IndexError unless lengths agree) (base/cge.py:761-861) *)
Fixpoint select (mask : list bool) (x : list V) : list V :=
  match mask, x with
  | b :: mask', v :: x' => if b then v :: select mask' x' else select mask' x'
  | _, _ => []
  end.
(** x[mask], base/cge.py:761-861 *)
Definition bool_index (x : list V) (mask : list bool) : res (list V) :=
  if Nat.eqb (length mask) (length x) then Ok (select mask x) else Err IndexError.

(** np.prod(np.atleast_1d(v).shape) (base/utilities.py:394) *)
Definition asize (a : arr V) : nat :=
  prodn (match ashape a with [] => [1] | s => s end).

(** base/utilities.py:396-401: slice_dict[k] = slice(cumcount - count, cumcount) *)
Fixpoint slice_dict (start : nat) (d : dict (arr V)) : dict (nat * nat) :=
  match d with
  | [] => []
  | (k, a) :: d' => (k, (start, asize a)) :: slice_dict (start + asize a) d'
  end.

(** base/utilities.py:392-412 flat_mask_from_param_names; a single name is
    passed as a one-element list. An empty dictionary makes np.concatenate
    fail. *)
Definition flat_mask_from_param_names (d : dict (arr V)) (names : list string) : res (list bool) :=
  match d with
  | [] => Err ValueError
  | _ =>
    let sd := slice_dict 0 d in
    let flat := List.concat (map (fun kv => ravel (snd kv)) d) in
    fold_res (fun mask name => let* s := dgetitem name sd in
                               Ok (set_slice mask (fst s) (snd s) true))
             (repeat false (length flat)) names
  end.

End Flat.

(** A row of better_optimize's MINIMIZE_MODE_KWARGS (external table) (base/utilities.py:417). *)
Record mode_kwargs := MkMode { uses_grad : bool; uses_hess : bool; uses_hessp : bool }.

(** base/utilities.py:415-423 get_method_defaults. The generator evaluates the
    three entries in order; an unknown method is a KeyError only if some flag
    is None. *)
Definition get_method_defaults (table : dict mode_kwargs) (use_grad use_hess use_hessp : option bool)
           (method : string) : res (bool * bool * bool) :=
  let pick (arg : option bool) (f : mode_kwargs -> bool) : res bool :=
      match arg with
      | Some b => Ok b
      | None => let* row := dgetitem method table in Ok (f row)
      end in
  let* g := pick use_grad uses_grad in
  let* h := pick use_hess uses_hess in
  let* hp := pick use_hessp uses_hessp in
  Ok (g, if h && hp then false else h, hp).

Section Scenario.
(** Parameter values with Python's += and *= (numpy broadcasting may raise). *)
Context (V : Type).
Context (vadd vmul : V -> V -> res V).

(** d[k] op= v for each pair of a shock dictionary (base/utilities.py:456-462) *)
Definition apply_op (op : V -> V -> res V) (d : dict V) (kv : string * V) : res (dict V) :=
  let* old := dgetitem (fst kv) d in
  let* new := op old (snd kv) in
  Ok (dset (fst kv) new d).

(** Counter(l): some key occurs more than once (base/utilities.py:441-442) *)
Fixpoint has_repeat (l : list string) : bool :=
  match l with
  | [] => false
  | x :: l' => mem_str x l' || has_repeat l'
  end.

(** base/utilities.py:426-464 create_final_param_dict. [None] arguments are
    empty dictionaries (lines 434-436). deepcopy makes the result independent
    of the argument; the model is pure. *)
Definition create_final_param_dict (initial : dict V) (final_values final_delta final_pct : option (dict V))
  : res (dict V) :=
  let dflt (o : option (dict V)) := match o with Some d => d | None => [] end in
  let fv := dflt final_values in
  let fd := dflt final_delta in
  let fp := dflt final_pct in
  let all := (dkeys fv ++ dkeys fd ++ dkeys fp)%list in
  match all with
  | [] => Err ValueError
  | _ =>
    if has_repeat all then Err ValueError
    else
      let s0 := dupdate initial fv in
      let* s1 := fold_res (apply_op vadd) s0 fd in
      fold_res (apply_op vmul) s1 fp
  end.
End Scenario.
