(** Specification vocabulary for the statistics (C89). Used by statements only. *)
From Verif Require Import Py NdArray.
From Coq Require Import Reals.

(** Sum of the squares of the elements. *)
Inductive squares : list R -> R -> Prop :=
| squares_nil : squares nil 0
| squares_cons x l s : squares l s -> squares (x :: l) (x * x + s).

(** [r] is the root of the mean of the squares of the elements. *)
Definition root_mean_square (l : list R) (r : R) : Prop :=
  (0 <= r)%R /\ squares l (INR (length l) * (r * r)).
(** [r] is the Euclidean length. *)
Definition euclidean (l : list R) (r : R) : Prop := (0 <= r)%R /\ squares l (r * r).
