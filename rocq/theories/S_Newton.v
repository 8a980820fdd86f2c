(** Specification vocabulary for the Newton solver (C43-C46). *)
From Coq Require Import Reals.
From Verif Require Import Py PyStr NdArray M_Euler M_Newton S_Euler.
Local Open Scope list_scope.

(** The inputs of the residual function at the variables [x] *)
Definition at_point (parameters : option (list (arr R))) (x : list (arr R)) : list (arr R) :=
  x ++ match parameters with None => [] | Some p => p end.

(** The residual norm at [x] is [v]: the sum of the absolute residuals *)
Definition residual_norm (F : list (arr R) -> res (list R)) (parameters : option (list (arr R))) (x : list (arr R))
           (v : R) : Prop :=
  exists r, F (at_point parameters x) = Ok r /\ v = fold_right (fun a s => Rabs a + s)%R 0%R r.

(** Consecutive states of a run, the initial one included *)
Definition consecutive (first : nstate) (hist : list nstate) (a b : nstate) : Prop :=
  exists t, nth_error (first :: hist) t = Some a /\ nth_error hist t = Some b.

(** All the values of some arrays, one after the other *)
Definition flat (x : list (arr R)) : list R := List.concat (map (@adata R) x).
