(** Lemmas for C25: trajectories that are refused. *)
From Coq Require Import QArith.
From Verif Require Import Py PyStr NdArray M_Primitives M_Utilities M_SimResult.
Local Open Scope list_scope.
Close Scope Q_scope.

Section Group.
Context {V : Type} (arrays : list (arr V)) (i0 : nat).
Notation f := (fun io : nat * mobj => match nth_error arrays (i0 + fst io) with
                     | Some a => Ok (o_name (snd io), ("step"%string :: o_dims (snd io), a))
                     | None => Err IndexError
                     end).
Lemma group_short objs : forall k, (exists l, map_res f (combine (seq k (length objs)) objs) = Ok l /\ (objs = [] \/ i0 + (k + length objs) <= length arrays)) \/
  map_res f (combine (seq k (length objs)) objs) = Err IndexError.
Proof.
  induction objs as [|o objs IH]; intros k; [left; exists []; split; [reflexivity|now left]|]. cbn [length seq combine map_res fst snd].
  destruct (nth_error arrays (i0 + k)) as [a|] eqn:E; [|right; reflexivity]. cbn [bind]. destruct (IH (S k)) as [(l & El & H)|El]; rewrite El; cbn [bind]; [|right; reflexivity].
  left. eexists. split; [reflexivity|]. right. assert (i0 + k < length arrays) by (apply nth_error_Some; congruence). destruct H as [->|H]; cbn [length]; lia.
Qed.
End Group.

Lemma c25_euler_refused__p :
  forall (V : Type) (c : coords) (vars params : list mobj) (arrays : list (arr V)),
    (arrays = [] -> list_of_array_to_idata arrays c vars params = Err IndexError) /\
    (forall a rest, arrays = a :: rest -> ashape a = [] -> list_of_array_to_idata arrays c vars params = Err TypeError) /\
    (forall a rest, arrays = a :: rest -> ashape a <> [] -> length arrays < length (vars ++ params) -> list_of_array_to_idata arrays c vars params = Err IndexError).
Proof.
  intros V c vars params arrays. split; [intros ->; reflexivity|]. split.
  - intros a rest -> E. unfold list_of_array_to_idata. cbn [bind]. rewrite E. reflexivity.
  - intros a rest E N L. unfold list_of_array_to_idata. rewrite E at 1. cbn [bind]. destruct (ashape a) as [|n s]; [congruence|]. cbn [bind]. unfold list_group. rewrite app_length in L.
    destruct (group_short arrays 0 vars 0) as [(l & El & H)|El]; rewrite El; cbn [bind]; [|reflexivity].
    destruct (group_short arrays (length vars) params 0) as [(l' & El' & H')|El']; rewrite El'; cbn [bind]; [|reflexivity].
    exfalso. subst arrays. cbn [length] in *. destruct H as [->|H], H' as [->|H']; cbn [length] in *; lia.
Qed.
