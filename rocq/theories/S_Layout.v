(** Specification vocabulary for the flat-vector layout. Used by statements
    only; no definition of the model refers to it. *)
From Verif Require Import Py NdArray M_Primitives.

(** The shape an object must have, read off its dims. *)
Definition has_shape (c : coords) (o : mobj) (shape : list nat) : Prop :=
  Forall2 (fun d n => exists ls, dget d c = Some ls /\ length ls = n) (o_dims o) shape.

(** [a] is a proper array of the shape declared for [o]. *)
Definition fits {V} (c : coords) (o : mobj) (a : arr V) : Prop :=
  arr_wf a /\ has_shape c o (ashape a).

(** Number of scalar elements described by a list of shapes. *)
Definition total (shapes : list (list nat)) : nat := list_sum (map prodn shapes).

(** Number of elements before the [j]-th object, measured in the data. *)
Definition size_in {V} (d : dict (arr V)) (o : mobj) : nat :=
  match dget (o_name o) d with Some a => prodn (ashape a) | None => 0 end.
Definition start_of {V} (d : dict (arr V)) (objs : list mobj) (j : nat) : nat :=
  list_sum (map (size_in d) (firstn j objs)).

(** A bare object for examples: no labels, default texts. *)
Definition exobj (k : kind) (name : string) (dims : list string) : mobj :=
  MkObj k name dims [] name name name name true true 0.
