(** Specification vocabulary for C127: units of measurement. Used by statements
    only. *)
From Coq Require Import Reals.
From Verif Require Import Py PyStr NdArray M_Newton S_Euler S_Newton.
Local Open Scope list_scope.
Local Open Scope R_scope.

(** [y] is [x] in other units: entry [k] of all the values is multiplied by
    entry [k] of [d]. *)
Record in_units (d : list R) (x y : list (arr R)) : Prop := {
  iu_shapes : map (@ashape R) y = map (@ashape R) x;
  iu_wf : Forall (fun a => arr_wf a) y;
  iu_values : forall k, nth k (flat y) 0 = nth k d 0 * nth k (flat x) 0 }.

(** The residuals are multiplied by [c] and the variables are measured in units
    [d]. The parameters may differ too. *)
Definition rescaled_residuals (F F' : list (arr R) -> res (list R)) (parameters parameters' : option (list (arr R))) (shapes : list (list nat)) (d : list R) (c : R) : Prop :=
  forall x y r, map (@ashape R) x = shapes -> Forall (fun a => arr_wf a) x -> in_units d x y ->
    F (at_point parameters x) = Ok r -> exists r', F' (at_point parameters' y) = Ok r' /\ length r' = length r /\ forall i, nth i r' 0 = c * nth i r 0.

(** The derivatives of the rescaled residuals in the rescaled variables *)
Definition rescaled_derivatives (J J' : list (arr R) -> res (list (list R))) (parameters parameters' : option (list (arr R))) (shapes : list (list nat)) (d : list R) (c : R) (n : nat) : Prop :=
  forall x y M, map (@ashape R) x = shapes -> Forall (fun a => arr_wf a) x -> in_units d x y -> is_matrix n n M ->
    J (at_point parameters x) = Ok M -> exists M', J' (at_point parameters' y) = Ok M' /\ is_matrix n n M' /\
      forall i j, nth j (nth i M' []) 0 * nth j d 0 = c * nth j (nth i M []) 0.

(** The same state of the solver in other units *)
Definition same_state (d : list R) (s s' : nstate) : Prop :=
  in_units d (nx s) (nx s') /\ nconv s' = nconv s /\ nstep s' = nstep s /\ ncount s' = ncount s.

(** The vector [v] in other units *)
Definition rescaled (d v v' : list R) : Prop := length v' = length v /\ forall k, nth k v' 0 = nth k d 0 * nth k v 0.

(** A matrix of derivatives in variables measured in units [d], of equations
    multiplied by [c] *)
Definition rescaled_matrix (d : list R) (c : R) (rows columns : nat) (M M' : list (list R)) : Prop :=
  is_matrix rows columns M /\ is_matrix rows columns M' /\ forall i j, nth j (nth i M' []) 0 * nth j d 0 = c * nth j (nth i M []) 0.
