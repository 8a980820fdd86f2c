(** Specification vocabulary for C125: residual functions that never raise. Used
    by statements only. *)
From Coq Require Import Reals.
From Verif Require Import Py PyStr NdArray M_Euler S_Newton.
Local Open Scope list_scope.

(** [F] returns residuals at all values of the variables. *)
Definition always_returns (F : list (arr R) -> res (list R)) (parameters : option (list (arr R))) (shapes : list (list nat)) : Prop :=
  forall x, map (@ashape R) x = shapes -> Forall (fun a => arr_wf a) x -> exists r, F (at_point parameters x) = Ok r.
