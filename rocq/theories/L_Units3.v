(** Lemmas for C128: Runge-Kutta steps. *)
From Coq Require Import Reals Lra.
From Verif Require Import Py PyStr NdArray M_Euler S_Euler S_Converge S_Newton L_Euler L_Converge S_Trace L_Trace2 S_Units L_Units L_Units2.
Local Open Scope list_scope.
Local Open Scope R_scope.

Lemma times_vscale d k v : times d (vscale k v) = vscale k (times d v).
Proof.
  revert v. induction d as [|a d IH]; intros [|b v]; try reflexivity. unfold times, vmap2, vscale in *. cbn in *. f_equal; [ring|apply IH].
Qed.
Lemma times_div6 d v : times d (map (fun s => Rdiv s 6) v) = map (fun s => Rdiv s 6) (times d v).
Proof.
  revert v. induction d as [|a d IH]; intros [|b v]; try reflexivity. unfold times, vmap2 in *. cbn in *. f_equal; [unfold Rdiv; ring|apply IH].
Qed.

Lemma c128_rk4__p :
  forall (A A' B B' : list R -> list R -> list (list R)) (solve solve' : list (list R) -> list R -> list R) (nv np : nat) (d e : list R) (c : R)
         (x th s x' th' s' : list R),
  length d = nv -> length e = np -> Forall (fun u => u <> 0) d -> c <> 0 ->
  (forall x th x' th', length x = nv -> length th = np -> rescaled d x x' -> rescaled e th th' ->
     rescaled_matrix d c nv nv (A x th) (A' x' th') /\ rescaled_matrix e c nv np (B x th) (B' x' th')) ->
  right_solver solve nv -> right_solver solve' nv ->
  (forall x th, length x = nv -> length th = np -> nonsingular (A x th) nv) ->
  length x = nv -> length th = np -> length s = np -> rescaled d x x' -> rescaled e th th' -> rescaled e s s' ->
  rescaled d (rk4_inc (euler_inc A B solve) x th s) (rk4_inc (euler_inc A' B' solve') x' th' s').
Proof.
  intros A A' B B' solve solve' nv np d e c x th s x' th' s' Ld Le ND C0 H HS HS' NS L1 L2 L3 R1 R2 R3.
  apply rescaled_times in R1; [|congruence]. apply rescaled_times in R2; [|congruence]. apply rescaled_times in R3; [|congruence]. subst x' th' s'.
  assert (I : forall y t, length y = nv -> length t = np -> length (euler_inc A B solve y t s) = nv /\
    euler_inc A' B' solve' (times d y) (times e t) (times e s) = times d (euler_inc A B solve y t s)).
  { intros y t Ly Lt. apply inc_units with (np := np) (c := c); auto; intros; apply H; auto. }
  unfold rk4_inc. rewrite <- !times_vscale, <- !times_vadd by (rewrite ?vscale_length; congruence).
  destruct (I x th L1 L2) as (M1 & E1). rewrite E1. set (dx1 := euler_inc A B solve x th s) in *.
  set (t2 := vadd th (vscale (1 / 2) s)). assert (Lt2 : length t2 = np) by (unfold t2; rewrite vadd_length; rewrite ?vscale_length; congruence).
  rewrite <- times_vscale, <- times_vadd by (rewrite ?vscale_length; congruence).
  destruct (I (vadd x (vscale (1 / 2) dx1)) t2) as (M2 & E2); [rewrite vadd_length; rewrite ?vscale_length; congruence|auto|]. rewrite E2.
  set (dx2 := euler_inc A B solve (vadd x (vscale (1 / 2) dx1)) t2 s) in *. rewrite <- !times_vscale, <- !(@times_vadd d x) by (rewrite ?vscale_length; congruence).
  destruct (I (vadd x (vscale (1 / 2) dx2)) t2) as (M3 & E3); [rewrite vadd_length; rewrite ?vscale_length; congruence|auto|]. rewrite E3.
  set (dx3 := euler_inc A B solve (vadd x (vscale (1 / 2) dx2)) t2 s) in *. rewrite <- !(@times_vadd d x) by congruence.
  destruct (I (vadd x dx3) (vadd th s)) as (M4 & E4); [rewrite vadd_length; congruence|rewrite vadd_length; congruence|]. rewrite E4.
  set (dx4 := euler_inc A B solve (vadd x dx3) (vadd th s) s) in *. rewrite <- !times_vscale.
  assert (V2 : length (vscale 2 dx2) = nv) by (rewrite vscale_length; auto). assert (V3 : length (vscale 2 dx3) = nv) by (rewrite vscale_length; auto).
  assert (W2 : length (vadd dx1 (vscale 2 dx2)) = nv) by (rewrite vadd_length; congruence).
  assert (W3 : length (vadd (vadd dx1 (vscale 2 dx2)) (vscale 2 dx3)) = nv) by (rewrite vadd_length; congruence).
  rewrite <- !times_vadd, <- times_div6 by congruence. apply times_rescaled. rewrite map_length, vadd_length; congruence.
Qed.
