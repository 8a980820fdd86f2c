(** Model of /repo/cge_modeling/base/primitives.py *)
From Verif Require Import Py PyStr.
Local Open Scope string_scope.

(** A coordinate label: str or int (coords: dict[str, list[str | int]],
    cge_modeling/base/utilities.py:26). *)
Inductive label := LStr (s : string) | LInt (z : Z).

(** str(label) (base/primitives.py:28, 76) *)
Definition str_label (l : label) : string :=
  match l with LStr s => s | LInt z => str_of_Z z end.

(** label == label: Python compares str with str and int with int
    (labels as dict values, base/primitives.py:207). *)
Definition label_eqb (a b : label) : bool :=
  match a, b with
  | LStr s, LStr t => String.eqb s t
  | LInt x, LInt y => Z.eqb x y
  | _, _ => false
  end.

(** coords: dimension name -> list of labels, insertion ordered (base/utilities.py:26). *)
Definition coords := dict (list label).

(** The marker <dim:d> (base/primitives.py:27). *)
Definition marker (d : string) : string := "<dim:" ++ d ++ ">".

(** base/primitives.py:22-29 _pretty_print_dim_flags.
    Simplified: the regex built from the dim name is taken literally (dims
    without regex metacharacters, labels without backslashes). *)
Definition pretty_print_dim_flags (s : string) (dims : list string) (dim_vals : dict label) : string :=
  fold_left (fun s d => match dget d dim_vals with
                        | None => s
                        | Some v => str_replace (marker d) (str_label v) s
                        end) dims s.

(** base/primitives.py:32-43 _tokenize_latex_subscript *)
Definition tokenize_latex_subscript (s : string) : list string :=
  let s := if starts_with "_{" s then drop 2 s else s in
  let s := if ends_with "}" s then take (slen s - 1) s else s in
  let tokens := map strip (split_on "," s) in
  match tokens with [""] => [] | _ => tokens end.

(** Variable / Parameter subclasses (base/primitives.py:215-223). *)
Inductive kind := KVar | KPar.

(** base/primitives.py:46-58 ModelObject after __post_init__.
    [o_real]/[o_positive] stand for the assumptions dict (lines 61-62);
    sort_index (line 64) equals the name and is omitted. *)
Record mobj := MkObj {
  o_kind : kind;
  o_name : string;
  o_dims : list string;
  o_dim_vals : dict label;
  o_latex_name : string;
  o_full_latex : string;
  o_description : string;
  o_base_name : string;
  o_real : bool;
  o_positive : bool;
  o_extend : nat            (** extend_subscript: bool | int, False = 0 *)
}.

(** base/primitives.py:72-82 _make_latex_subscript *)
Definition make_latex_subscript (dims : list string) (dim_vals : dict label) : string :=
  let idx_strs := map (fun d => match dget d dim_vals with
                                | None => d
                                | Some v => d ++ "=\text{" ++ str_label v ++ "}"
                                end) dims in
  match idx_strs with
  | [] => ""
  | _ => "_{" ++ join ", " idx_strs ++ "}"
  end.

(** The dims argument as the user may pass it (base/primitives.py:84-108):
    None, a string, a tuple/list whose elements may or may not be strings
    ([None] stands for a non-string element), or something else. *)
Inductive dims_arg :=
| DNone | DStr (s : string) | DSeq (l : list (option string)) | DOther.

(** base/primitives.py:84-108 _initialize_index. An empty list is returned as
    is by the code (line 94); list/tuple are not distinguished here. *)
Definition initialize_index (a : dims_arg) : res (list string) :=
  match a with
  | DNone => Ok []
  | DSeq l => map_res (fun o => match o with Some s => Ok s | None => Err ValueError end) l
  | DStr s => Ok (map strip (split_on "," s))
  | DOther => Err ValueError
  end.

(** base/primitives.py:110-133 _initialize_dim_vals: [None] is an omitted
    argument; non-dict arguments (line 118) are outside the type. *)
Definition initialize_dim_vals (dims : list string) (a : option (dict label)) : res (dict label) :=
  match a with
  | None => Ok []
  | Some d => if forallb (fun k => mem_str k dims) (dkeys d) then Ok d else Err ValueError
  end.

(** Removal of braces: re.sub(r"[\{\}]", "", x) (base/primitives.py:147) *)
Fixpoint remove_braces (s : string) : string :=
  match s with
  | EmptyString => EmptyString
  | String a s' => if Ascii.eqb a "{" || Ascii.eqb a "}" then remove_braces s'
                   else String a (remove_braces s')
  end.

(** l[:-k] and l[-k:] for k > 0 (base/primitives.py:148) *)
Definition but_last {A} (k : nat) (l : list A) : list A := firstn (length l - k) l.
(** l[-k:], base/primitives.py:148 *)
Definition last_k {A} (k : nat) (l : list A) : list A := skipn (length l - k) l.

(** base/primitives.py:140-166 _initialize_full_latex_name *)
Definition initialize_full_latex_name (dims : list string) (dim_vals : dict label)
           (latex_name : string) (extend : nat) : string :=
  let idx_subscript := make_latex_subscript dims dim_vals in
  let idx_tokens := tokenize_latex_subscript idx_subscript in
  let '(base, sub) :=
    match extend with
    | 0 => (latex_name, idx_subscript)
    | _ =>
      let tokens := map (fun x => remove_braces (strip x)) (split_on "_" latex_name) in
      let base_tokens := but_last extend tokens in
      let sub_tokens := last_k extend tokens in
      let '(base_tokens, sub_tokens) :=
        match base_tokens with [] => (sub_tokens, base_tokens) | _ => (base_tokens, sub_tokens) end in
      let sub_tokens := (sub_tokens ++ idx_tokens)%list in
      (join "_" base_tokens,
       match sub_tokens with [] => "" | _ => "_{" ++ join ", " sub_tokens ++ "}" end)
    end in
  let base := if contains_char "_" base then "\text{" ++ base ++ "}" else base in
  base ++ sub.

(** str(bool) (base/primitives.py:172) *)
Definition str_bool (b : bool) : string := if b then "True" else "False".

(** base/primitives.py:168-172 _initialize_description *)
Definition initialize_description (description : option string) (dims : list string)
           (dim_vals : dict label) (full_latex : string) (positive real : bool) : string :=
  match description with
  | Some s => pretty_print_dim_flags s dims dim_vals
  | None => full_latex ++ ", Positive = " ++ str_bool positive ++ ", Real = " ++ str_bool real
  end.

(** base/primitives.py:46-70 the dataclass constructor with __post_init__.
    [greek] is the regex rewriting of greek letter names in
    _initialize_latex_name (lines 135-138), which is not modelled. *)
Definition mk_object (greek : string -> string) (k : kind) (name : string) (dims : dims_arg)
           (dim_vals : option (dict label)) (latex_name description : option string)
           (real positive : bool) (extend : nat) : res mobj :=
  let* dims := initialize_index dims in
  let* dv := initialize_dim_vals dims dim_vals in
  let latex := greek (match latex_name with Some s => s | None => name end) in
  let full := initialize_full_latex_name dims dv latex extend in
  let descr := initialize_description description dims dv full positive real in
  Ok (MkObj k name dims dv latex full descr name real positive extend).

(** base/primitives.py:203-209 ModelObject.update_dim_value. The object is
    modified in place in Python; the model returns the new object. *)
Definition update_dim_value (o : mobj) (dim : string) (value : label) : res mobj :=
  if mem_str dim (o_dims o) then
    let dv := dset dim value (o_dim_vals o) in
    let full := initialize_full_latex_name (o_dims o) dv (o_latex_name o) (o_extend o) in
    let descr := initialize_description (Some (o_description o)) (o_dims o) dv full
                                        (o_positive o) (o_real o) in
    Ok (MkObj (o_kind o) (o_name o) (o_dims o) dv (o_latex_name o) full descr
              (o_base_name o) (o_real o) (o_positive o) (o_extend o))
  else Err ValueError.
