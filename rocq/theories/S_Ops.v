(** Specification vocabulary for C107: arrays that hold the values of objects. *)
From Coq Require Import Reals.
From Verif Require Import Py PyStr NdArray M_Primitives S_Layout S_Tensor S_ArrayModel.
Local Open Scope string_scope.
Local Open Scope list_scope.

Definition fits (c : coords) (o : mobj) (a : arr R) : Prop := ashape a = map (size c) (o_dims o).
(** One array per object, each of the shape of its object; [flat] are their
    elements, one array after the other *)
Definition array_data (c : coords) (objs : list mobj) (arrays : list (arr R)) (flat : list R) : Prop :=
  Forall2 (fun o a => arr_wf a /\ fits c o a) objs arrays /\ flat = List.concat (map adata arrays).
