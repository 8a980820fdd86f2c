(** Specification side of C81: the data behind the flat vectors. *)
From Coq Require Import Reals.
From Verif Require Import Py PyStr NdArray M_Primitives M_Expand M_SymExpr M_Simplify S_Layout S_Reduce S_Simplify.
Local Open Scope string_scope.
Local Open Scope list_scope.

(** [v] and [w] are the elements and scalars of the arrays in [d] *)
Definition data_of (c : dict (list string)) (objs : list mobj) (d : dict (arr R)) (v : elements) (w : scalars) : Prop :=
  (forall b ls r, v b ls = Some r <->
     exists o a idx, In o objs /\ o_name o = b /\ o_dims o <> [] /\ dget b d = Some a /\ labels_of c (o_dims o) idx ls /\ aget a idx = Ok r) /\
  (forall s r, w s = Some r <->
     exists o a, In o objs /\ o_name o = s /\ o_dims o = [] /\ dget s d = Some a /\ aget a [] = Ok r).

(** The data with the element [ls] of the array (or the scalar) [o] changed to [t] *)
Definition put_elem (o : mobj) (ls : list string) (t : R) (v : elements) : elements :=
  fun b l => match o_dims o with
             | [] => v b l
             | _ => if (String.eqb b (o_name o) && list_eqb String.eqb l ls)%bool then Some t else v b l
             end.
Definition put_scal (o : mobj) (t : R) (w : scalars) : scalars :=
  fun s => match o_dims o with
           | [] => if String.eqb s (o_name o) then Some t else w s
           | _ => w s
           end.
Definition number (x : option R) : R := match x with Some r => r | None => 0%R end.

(** The dims of a written equation: those it uses freely, in the order of the coords *)
Definition equation_dims (c : dict (list string)) (e : sexpr) (dims : list string) : Prop :=
  NoDup dims /\ (exists f, dims = filter f (dkeys c)) /\ forall d, In d dims <-> In d (dkeys c) /\ occurs_free d e.
(** and how many labels each has *)
Definition dims_shape (c : dict (list string)) (dims : list string) (shape : list nat) : Prop :=
  Forall2 (fun d n => exists all, dget d c = Some all /\ length all = n) dims shape.

(** Every object is declared and its array in the data has the shape of its dims *)
Definition has_data (c : dict (list string)) (objs : list mobj) (d : dict (arr R)) : Prop :=
  forall o, In o objs -> declared c o /\ exists a, dget (o_name o) d = Some a /\ fits (lab_coords c) o a.
(** A written equation as its two sides *)
Definition written (lr : sexpr * sexpr) : sexpr := SBin OSub (fst lr) (snd lr).
(** All quantities the equation uses have a value *)
Definition has_value (c : dict (list string)) (v : elements) (w : scalars) (lr : sexpr * sexpr) : Prop :=
  forall dims ls, equation_dims c (written lr) dims -> element c dims ls -> den c v w (assign dims ls) (written lr) <> None.
(** The residuals left side minus right side of a written equation, one for
    every combination of labels of its dims, in row-major order *)
Definition residuals (c : dict (list string)) (v : elements) (w : scalars) (lr : sexpr * sexpr) (block : list R) : Prop :=
  exists dims shape, equation_dims c (written lr) dims /\ dims_shape c dims shape /\ length block = prodn shape /\
    forall idx ls, labels_of c dims idx ls -> nth_error block (offset shape idx) = den c v w (assign dims ls) (written lr).
(** The numeraire, if there is one, is a scalar whose value is one *)
Definition unit_numeraire (w : scalars) (numeraire : option mobj) : Prop :=
  match numeraire with None => True | Some o => o_dims o = [] /\ w (o_base_name o) = Some 1%R end.
Definition not_numeraire (o : mobj) (numeraire : option mobj) : Prop :=
  match numeraire with None => True | Some q => o_base_name q <> o_name o end.
