(** Specification vocabulary for C115: paths of equilibria and distances
    between vectors. Used by statements only. *)
From Coq Require Import Reals.
From Verif Require Import Py S_Euler M_Euler.
Local Open Scope list_scope.
Local Open Scope R_scope.

(** Two vectors of one length that differ by at most [e] in every entry. *)
Definition within (e : R) (u v : list R) : Prop :=
  length u = length v /\ forall i, (i < length u)%nat -> Rabs (nth i u 0 - nth i v 0) <= e.

(** The straight line from [a] (at 0) to [b] (at 1) *)
Definition line (a b : list R) (t : R) : list R := map (fun p => fst p + t * (snd p - fst p)) (combine a b).

(** The functions A and B hold the derivatives of [F] at a point: in every
    direction the change of [F] is A h + B k up to a part that vanishes faster
    than the size [m] of the direction. *)
Definition differentiable (F : list R -> list R -> list R) (A B : list (list R)) (x th : list R) : Prop :=
  forall eps, 0 < eps -> exists del, 0 < del /\ forall x' th' m, 0 <= m <= del -> within m x' x -> within m th' th ->
    within (eps * m) (F x' th') (vadd (F x th) (vadd (mv A (vsub x' x)) (mv B (vsub th' th)))).

(** Different vectors have different images. *)
Definition nonsingular (M : list (list R)) (n : nat) : Prop :=
  forall u v, length u = n -> length v = n -> mv M u = mv M v -> u = v.

(** A path [X], with derivatives [X'], of solutions of F(x, theta) = 0 while
    the parameters move on the line from [th0] to [th1]. Around it, at distance
    at most [r], the linear systems of the method can be solved, and the slope
    of the method changes at most [L] times as fast as the variables. The
    derivatives of the path change at most [M] times as fast as the time. *)
Record equilibrium_path (F : list R -> list R -> list R) (A B : list R -> list R -> list (list R))
    (solve : list (list R) -> list R -> list R) (nv np : nat) (x0 th0 th1 : list R) (X X' : R -> list R) (r L M : R) : Prop := {
  ep_start : X 0 = x0;
  ep_length : forall t, 0 <= t <= 1 -> length (X t) = nv /\ length (X' t) = nv;
  ep_derivative : forall t i, 0 <= t <= 1 -> (i < nv)%nat -> derivable_pt_lim (fun s => nth i (X s) 0) t (nth i (X' t) 0);
  ep_solution : forall t, 0 <= t <= 1 -> F (X t) (line th0 th1 t) = zeros nv;
  ep_differentiable : forall t, 0 <= t <= 1 ->
    differentiable F (A (X t) (line th0 th1 t)) (B (X t) (line th0 th1 t)) (X t) (line th0 th1 t);
  ep_systems : forall t x, 0 <= t <= 1 -> within r x (X t) ->
    is_matrix nv nv (A x (line th0 th1 t)) /\ is_matrix nv np (B x (line th0 th1 t)) /\
    solves solve (A x (line th0 th1 t)) nv /\ nonsingular (A x (line th0 th1 t)) nv;
  ep_lipschitz : forall t x e, 0 <= t <= 1 -> 0 <= e <= r -> within e x (X t) ->
    within (L * e) (euler_inc A B solve x (line th0 th1 t) (vsub th1 th0))
                   (euler_inc A B solve (X t) (line th0 th1 t) (vsub th1 th0));
  ep_smooth : forall s t, 0 <= s <= 1 -> 0 <= t <= 1 -> within (M * Rabs (s - t)) (X' s) (X' t) }.
