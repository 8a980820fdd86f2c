(** Specification vocabulary for C116: the region around a starting point in
    which the Newton solver works. Used by statements only. *)
From Coq Require Import Reals.
From Verif Require Import Py NdArray M_Euler S_Euler S_Newton.
Local Open Scope list_scope.
Local Open Scope R_scope.

(** The sum of the absolute entries, and the distance it gives *)
Definition abs_sum (v : list R) : R := fold_right (fun a s => Rabs a + s) 0 v.
Definition dist1 (u v : list R) : R := abs_sum (vsub u v).

(** Arrays with the shapes of [x0] whose values are at distance at most [rho] *)
Definition around (x0 : list (arr R)) (rho : R) (x : list (arr R)) : Prop :=
  map (@ashape R) x = map (@ashape R) x0 /\ Forall (fun a => arr_wf a) x /\ dist1 (flat x) (flat x0) <= rho.

(** Around [x0] there are as many residuals as variables, the linear systems
    of the method are solved with solutions at most [beta] times as large as
    the residuals, and the Jacobian gives the change of the residuals up to
    [K] times the square of the distance. *)
Record newton_region (F : list (arr R) -> res (list R)) (J : list (arr R) -> res (list (list R)))
    (solve : list (list R) -> list R -> res (list R)) (parameters : option (list (arr R))) (x0 : list (arr R)) (rho beta K : R) : Prop := {
  nr_systems : forall x, around x0 rho x -> exists r j s,
    F (at_point parameters x) = Ok r /\ J (at_point parameters x) = Ok j /\ solve j r = Ok s /\
    length r = length (flat x0) /\ is_matrix (length (flat x0)) (length (flat x0)) j /\ length s = length (flat x0) /\
    mv j s = r /\ abs_sum s <= beta * abs_sum r;
  nr_taylor : forall x y r r' j, around x0 rho x -> around x0 rho y ->
    F (at_point parameters x) = Ok r -> F (at_point parameters y) = Ok r' -> J (at_point parameters x) = Ok j ->
    dist1 r' (vadd r (mv j (vsub (flat y) (flat x)))) <= K * dist1 (flat y) (flat x) ^ 2 }.
