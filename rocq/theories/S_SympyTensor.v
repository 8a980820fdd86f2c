(** Specification vocabulary for C85: declared models and their data. *)
From Coq Require Import Reals.
From Verif Require Import Py PyStr NdArray M_Primitives M_Utilities M_Expand M_SymExpr M_Calculus M_Simplify S_Layout S_Reduce S_Simplify S_NumbaModel.
Local Open Scope string_scope.
Local Open Scope list_scope.

(** The declarations: coords with distinct labels that are no numerals, arrays
    with distinct names, and scalars with distinct names; [uv] and [up] are the
    scalar variables and parameters *)
Definition declaration (order : list string -> list string) (c : dict (list string)) (vars params uv up : list mobj) : Prop :=
  plain_labels c /\ NoDup (dkeys c) /\ (forall i ls, dget i c = Some ls -> NoDup ls) /\
  unpack_objects order vars (lab_coords c) = Ok uv /\ unpack_objects order params (lab_coords c) = Ok up /\
  NoDup (map make_indexed_name (uv ++ up)) /\ NoDup (map o_name (vars ++ params)).

(** The keyword arguments [d] are the arrays of the declared objects, with the
    elements [v], the scalars [w], and the flat vectors [x] and [theta] *)
Definition arguments (c : dict (list string)) (vars params : list mobj) (d : dict (arr R)) (v : elements) (w : scalars) (x theta : list R) : Prop :=
  has_data c (vars ++ params) d /\ (forall k, In k (dkeys d) -> In k (map o_name (vars ++ params))) /\
  variable_dict_to_flat_array d vars params = Ok (x, theta) /\ data_of c (vars ++ params) d v w.

(** A scalar equation has an element of the object in it *)
Definition occurs_in (c : dict (list string)) (es : list sexpr) (o : mobj) : Prop :=
  exists e ls, In e es /\ element c (o_dims o) ls /\ In (join "_" (o_name o :: ls)) (atoms e).

(** Arrays of the shapes of the variables, for a direction *)
Definition direction (vars : list mobj) (d : dict (arr R)) (pts : list (arr R)) : Prop :=
  Forall2 (fun o p => arr_wf p /\ exists a, dget (o_name o) d = Some a /\ ashape p = ashape a) vars pts.
Definition point_names (vars : list mobj) : list string := map (fun o => (o_name o ++ "_point")%string) vars.
