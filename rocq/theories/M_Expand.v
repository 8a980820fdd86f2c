(** Expansion of indexed objects into scalar ones, and their names
    (/repo/cge_modeling/tools/sympy_tools.py:99-117, 352-430;
     /repo/cge_modeling/base/utilities.py:25-63, 101-207). *)
From Verif Require Import Py PyStr M_Primitives.
Local Open Scope string_scope.

(** tools/sympy_tools.py:99-117 make_indexed_name; the delimiter argument is
    ignored by the code. *)
Definition make_indexed_name (o : mobj) : string :=
  join "_" (o_name o :: map str_label (dvals (o_dim_vals o))).

(** on_unused_dim: Literal["raise", "ignore"] (tools/sympy_tools.py:352-384) *)
Inductive unused_mode := Raise | Ignore.

(** tools/sympy_tools.py:352-384 _validate_dims. [order] is the iteration
    order of a Python set (line 382), an arbitrary permutation. *)
Definition validate_dims (order : list string -> list string) (o : mobj) (dims : list string)
           (mode : unused_mode) : res (list string) :=
  let unknown := filter (fun d => negb (mem_str d (o_dims o))) dims in
  match unknown, mode with
  | [], _ => Ok dims
  | _, Raise => Err ValueError
  | _, Ignore => Ok (order (dedup (filter (fun d => mem_str d (o_dims o)) dims)))
  end.

(** tools/sympy_tools.py:424-429: the inner loop on one deep copy. *)
Definition set_labels (o : mobj) (dims : list string) (ls : list label) : res mobj :=
  fold_res (fun o dl => update_dim_value o (fst dl) (snd dl)) o (combine dims ls).

(** tools/sympy_tools.py:387-430 expand_obj_by_indices for an object with a
    dims attribute. obj.copy() is deepcopy, so the argument is not affected. *)
Definition expand_obj_by_indices (order : list string -> list string) (o : mobj) (c : coords)
           (dims : option (list string)) (mode : unused_mode) : res (list mobj) :=
  let dims := match dims with None => o_dims o | Some ds => ds end in
  let* dims := validate_dims order o dims mode in
  let* labels := map_res (fun d => dgetitem d c) dims in
  map_res (set_labels o dims) (product labels).

(** base/cge.py:333-355 CGEModel._unpack_objects *)
Definition unpack_objects (order : list string -> list string) (objs : list mobj) (c : coords)
  : res (list mobj) :=
  let* ls := map_res (fun o => expand_obj_by_indices order o c None Ignore) objs in
  Ok (List.concat ls).

(** base/cge.py:375-379, 390-394 _unpack_parameters, _unpack_variables:
    dict(zip(unpacked_names, unpacked_objs)). *)
Definition unpack_group (order : list string -> list string) (objs : list mobj) (c : coords)
  : res (dict mobj) :=
  let* us := unpack_objects order objs c in
  Ok (dict_of_list (combine (map make_indexed_name us) us)).

(** base/utilities.py:101-173 _expand_var_by_index. The constructor call of
    lines 160-167 passes name, dims, dim_vals and description only; real,
    positive and extend_subscript take their defaults True, True, False. *)
Definition expand_var_by_index (greek : string -> string) (o : mobj) (c : coords) : res (list mobj) :=
  if existsb (fun d => negb (mem_str d (o_dims o))) (dkeys c) then Err ValueError
  else
    fold_res (fun out dl =>
      let '(dim, all_labels) := dl in
      let* news := map_res (fun o1 =>
        let labels := if mem_str dim (o_dims o1) then all_labels else [] in
        map_res (fun l =>
          mk_object greek (o_kind o) (o_name o1) (DSeq (map Some (o_dims o1)))
                    (Some (dset dim l (o_dim_vals o1))) None (Some (o_description o1)) true true 0)
          labels) out in
      Ok (List.concat news)) [o] c.

(** re.findall("<dim:(d1|d2|...)>", name) (base/utilities.py:45-51): leftmost
    matches, the first alternative that matches. [skip] counts characters of
    the current match. *)
Fixpoint find_tags_go (dims : list string) (s : string) (skip : nat) : list string :=
  match s with
  | EmptyString => []
  | String _ s' =>
      match skip with
      | S k => find_tags_go dims s' k
      | 0 => match find (fun d => String.prefix (marker d) s) dims with
             | Some d => d :: find_tags_go dims s' (slen (marker d) - 1)
             | None => find_tags_go dims s' 0
             end
      end
  end.
(** With no dims at all the pattern is "<dim:()>", whose group is "" (base/utilities.py:45-51). *)
Definition find_tags (dims : list string) (s : string) : list string :=
  find_tags_go (match dims with [] => [""] | _ => dims end) s 0.

(** base/utilities.py:48-61: the names made from one equation name. *)
Definition unpack_equation_name (c : coords) (name : string) : res (list string) :=
  match find_tags (dkeys c) name with
  | [] => Ok [name]
  | tags =>
      let* labels := map_res (fun d => dgetitem d c) tags in
      Ok (map (fun ls => pretty_print_dim_flags name tags (dict_of_list (combine tags ls)))
              (product labels))
  end.

(** base/utilities.py:25-63 unpack_equation_strings, on the equations' names *)
Definition unpack_equation_strings (names : list string) (c : coords) : res (list string) :=
  let* ls := map_res (unpack_equation_name c) names in
  Ok (List.concat ls).

(** The regex (.+?)> : at least one character, none a newline, up to the first
    ">" after it. Returns the group and the number of characters consumed
    (base/utilities.py:176-207). *)
Fixpoint lazy_group (s : string) : option string :=
  match s with
  | EmptyString => None
  | String a s' =>
      if Ascii.eqb a "010" then None
      else match s' with
           | String b _ => if Ascii.eqb b ">" then Some (String a "")
                           else match lazy_group s' with
                                | Some g => Some (String a g)
                                | None => None
                                end
           | EmptyString => None
           end
  end.

(** base/utilities.py:176-207 _replace_dim_marker_with_dim_name:
    re.sub("(<dim:(.+?)>)", group 2) *)
Fixpoint strip_markers_go (s : string) (skip : nat) : string :=
  match s with
  | EmptyString => EmptyString
  | String a s' =>
      match skip with
      | S k => strip_markers_go s' k
      | 0 => match (if String.prefix "<dim:" s then lazy_group (drop 5 s) else None) with
             | Some g => g ++ strip_markers_go s' (slen g + 5)
             | None => String a (strip_markers_go s' 0)
             end
      end
  end.
(** base/utilities.py:176-207 _replace_dim_marker_with_dim_name *)
Definition replace_dim_marker_with_dim_name (s : string) : string := strip_markers_go s 0.
