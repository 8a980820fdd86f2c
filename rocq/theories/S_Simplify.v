(** Specification side of C73 and C74: what the scalar symbols of the unpacked
    model stand for. *)
From Coq Require Import Reals.
From Verif Require Import Py PyStr M_Primitives M_SymExpr S_Reduce.
Local Open Scope string_scope.
Local Open Scope list_scope.

(** [ls] names one element of an array with the dims [ds] *)
Definition element (c : dict (list string)) (ds ls : list string) : Prop :=
  Forall2 (fun d l => exists all, dget d c = Some all /\ In l all) ds ls.

(** The data have values only for the declared arrays and scalars *)
Definition belongs (c : dict (list string)) (objs : list mobj) (v : elements) (w : scalars) : Prop :=
  (forall b ls x, v b ls = Some x -> exists o, In o objs /\ o_name o = b /\ o_dims o <> [] /\ element c (o_dims o) ls) /\
  (forall s x, w s = Some x -> exists o, In o objs /\ o_name o = s /\ o_dims o = []).

(** The same data by scalar names: the element of X at labels a, b is called
    X_a_b, a scalar keeps its name *)
Definition scalar_view (c : dict (list string)) (objs : list mobj) (v : elements) (w : scalars) (sv : scalars) : Prop :=
  forall o ls, In o objs -> element c (o_dims o) ls ->
    sv (join "_" (o_name o :: ls)) = match o_dims o with [] => w (o_name o) | _ => v (o_name o) ls end.

(** Objects as declared: no labels fixed yet, dims not repeated and known *)
Definition declared (c : dict (list string)) (o : mobj) : Prop :=
  NoDup (o_dims o) /\ o_dim_vals o = [] /\ o_base_name o = o_name o /\ forall d, In d (o_dims o) -> In d (dkeys c).

(** The assignment of labels to the dims of an equation *)
Definition assign (ds ls : list string) : assignment := fun i => dget i (combine ds ls).

(** [ls] are the labels of the dims [ds] at the positions [idx] *)
Definition labels_of (c : dict (list string)) (ds : list string) (idx : list nat) (ls : list string) : Prop :=
  length ds = length idx /\
  Forall2 (fun p l => exists all, dget (fst p) c = Some all /\ nth_error all (snd p) = Some l) (combine ds idx) ls.
