(** Specification vocabulary for products without zeros (C95). *)
From Coq Require Import Reals.
From Verif Require Import Py NdArray.
Local Open Scope list_scope.

(** The product of a list of numbers *)
Fixpoint product_of (l : list R) : R := match l with [] => 1%R | v :: r => (v * product_of r)%R end.
(** [d] is the derivative of the product of [line] in its element number [i] *)
Definition product_derivative (line : list R) (i : nat) (d : R) : Prop :=
  i < length line /\
  derivable_pt_lim (fun t => product_of (firstn i line ++ t :: skipn (S i) line)) (nth i line 0%R) d.
