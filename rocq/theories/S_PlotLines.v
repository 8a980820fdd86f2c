(** Specification vocabulary for the plots (C91). Used by statements only. *)
From Coq Require Import Reals.
From Verif Require Import Py NdArray M_Plotting M_PlotLines.
Local Open Scope list_scope.

(** A group in which every variable has one array of the same shape per step. *)
Definition group_ok (g : group) : Prop :=
  g_step g <> [] /\
  forall v a, dget v (g_variables g) = Some a -> arr_wf a /\ exists shape, ashape a = length (g_step g) :: shape.

(** The value of an element of a variable at a position of step. *)
Definition value_at (g : group) (v : string) (k : nat) (idx : list nat) (x : R) : Prop :=
  exists a, dget v (g_variables g) = Some a /\ aget a (k :: idx) = Ok x.

(** [idx] is the [j]-th element of a variable in row-major order. *)
Definition position (g : group) (v : string) (idx : list nat) (j : nat) : Prop :=
  exists a n shape, dget v (g_variables g) = Some a /\ ashape a = n :: shape /\ nth_error (ndindex shape) j = Some idx.

(** The number of elements. *)
Definition size (g : group) (v : string) (m : nat) : Prop :=
  exists a n shape, dget v (g_variables g) = Some a /\ ashape a = n :: shape /\ m = prodn shape.

(** One line per element, with one point per step. *)
Definition traces (g : group) (v : string) (lines : list (list (R * R))) : Prop :=
  size g v (length lines) /\
  forall idx j, position g v idx j ->
    exists line, nth_error lines j = Some line /\ length line = length (g_step g) /\
      forall k t, nth_error (g_step g) k = Some t -> exists x, nth_error line k = Some (t, x) /\ value_at g v k idx x.

(** The values at the step in position [k], in order. *)
Definition listed (g : group) (v : string) (k : nat) (values : list R) : Prop :=
  size g v (length values) /\
  forall idx j, position g v idx j -> exists x, nth_error values j = Some x /\ value_at g v k idx x.

(** One point per element, above [T], at the value at step [k]. *)
Definition marks (g : group) (v : string) (k : nat) (T : R) (points : list (R * R)) : Prop :=
  exists values, listed g v k values /\ points = map (pair T) values.

(** The greatest step. *)
Definition greatest (g : group) (T : R) : Prop := In T (g_step g) /\ forall t, In t (g_step g) -> (t <= T)%R.
