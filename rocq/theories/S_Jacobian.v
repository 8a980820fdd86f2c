(** Specification vocabulary for C75-C77: positions and sums over elements. *)
From Coq Require Import Reals.
From Verif Require Import Py PyStr NdArray S_Layout.
Local Open Scope list_scope.

(** The position of element [idx] of the [j]-th array when arrays of these
    shapes are laid out one after the other *)
Definition position (shapes : list (list nat)) (j : nat) (idx : list nat) : nat :=
  total (firstn j shapes) + offset (nth j shapes []) idx.

(** [idx] is an element of the [j]-th array *)
Definition is_element (shapes : list (list nat)) (j : nat) (idx : list nat) : Prop :=
  j < length shapes /\ in_range (nth j shapes []) idx.

Local Open Scope R_scope.

Fixpoint sum_of (l : list R) : R := match l with [] => 0 | x :: l' => x + sum_of l' end.

(** The value of an element, zero outside *)
Definition elem (a : arr R) (idx : list nat) : R := match aget a idx with Ok v => v | Err _ => 0 end.

(** The sum of f over all elements of all arrays *)
Fixpoint sum_elements (f : nat -> list nat -> R) (j : nat) (shapes : list (list nat)) : R :=
  match shapes with
  | [] => 0
  | s :: shapes' => sum_of (map (f j) (ndindex s)) + sum_elements f (S j) shapes'
  end.

(** The change of output [e] to first order when the arrays change by [dx] *)
Definition first_order (D : nat -> nat -> list nat -> R) (e : nat) (dx : list (arr R)) : R :=
  sum_elements (fun j idx => D e j idx * elem (nth j dx (mkArr [] [])) idx) 0 (map (@ashape R) dx).

(** [solve] solves the systems with matrix [m] of [n] rows *)
Definition solver_for (solve : list (list R) -> list R -> list R) (m : list (list R)) (n k : nat) : Prop :=
  forall b, length b = n -> length (solve m b) = k /\
            map (fun row => sum_of (map (fun p => fst p * snd p) (combine row (solve m b)))) m = b.
