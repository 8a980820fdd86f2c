(** C61-C64: rebalancing a social accounting matrix. *)
From Coq Require Import Reals Lra.
From Verif Require Import Py PyStr NdArray M_Euler M_Newton M_Rebalance S_Rebalance L_Rebalance L_Rebalance2 L_Rebalance3.
Local Open Scope string_scope.
Local Open Scope list_scope.

(** Three accounts: A pays B 3, B pays A 2 and C 1, and either a negative cell
    (C, A) or not. *)
Definition rb_sam (a : R) : sam :=
  mkSam ["A"; "B"; "C"] ["A"; "B"; "C"]
        (fun r c => match r, c with "A", "B" => 3 | "B", "A" => 2 | "B", "C" => 1 | "C", "A" => a | _, _ => 0 end)%R.
Lemma rb_square a : square (rb_sam a).
Proof. split; [repeat constructor; simpl; intuition discriminate|reflexivity]. Qed.

(** ** C61 *)
Theorem c61_round_trip :
  forall (s : sam), square s -> grand_total s <> 0%R ->
  (forall r c, In r (sindex s) -> In c (sindex s) -> (scell s r c < 0)%R -> r <> c /\ scell s c r = 0%R) ->
  exists s1 s2, snd (fit_transform s) = Ok s1 /\
    inverse_transform (Some (fst (fit_transform s))) s1 = Ok s2 /\ same_sam s s2.
Proof. exact @c61_round_trip__p. Qed.
Print Assumptions c61_round_trip.
Example c61_round_trip_ex : exists s1 s2, snd (fit_transform (rb_sam (-1))) = Ok s1 /\
  inverse_transform (Some (fst (fit_transform (rb_sam (-1))))) s1 = Ok s2 /\ scell s2 "C" "A" = (-1)%R /\ scell s2 "A" "B" = 3%R.
Proof.
  destruct (c61_round_trip (rb_square (-1))) as (s1 & s2 & H1 & H2 & _ & _ & H).
  - unfold grand_total, row_total. cbn. lra.
  - intros r c [<-|[<-|[<-|[]]]] [<-|[<-|[<-|[]]]]; cbn; intros L; try lra. split; [discriminate|reflexivity].
  - exists s1, s2. split; [exact H1|]. split; [exact H2|]. split; rewrite H by (simpl; auto); reflexivity.
Qed.

(** A positive cell opposite a negative one is lost. *)
Theorem c61_transposed_refuted :
  exists s s1 s2, square s /\ grand_total s <> 0%R /\ snd (fit_transform s) = Ok s1 /\
    inverse_transform (Some (fst (fit_transform s))) s1 = Ok s2 /\ scell s "B" "A" = 5%R /\ scell s2 "B" "A" = 0%R.
Proof. exact @c61_transposed_refuted__p. Qed.
Print Assumptions c61_transposed_refuted.
(** A negative cell on the diagonal is lost. *)
Theorem c61_diagonal_refuted :
  exists s s1 s2, square s /\ grand_total s <> 0%R /\ snd (fit_transform s) = Ok s1 /\
    inverse_transform (Some (fst (fit_transform s))) s1 = Ok s2 /\ scell s "A" "A" = (-2)%R /\ scell s2 "A" "A" = 0%R.
Proof. exact @c61_diagonal_refuted__p. Qed.
Print Assumptions c61_diagonal_refuted.
(** An unfitted transformer raises. *)
Theorem c61_unfitted :
  forall s, transform None s = Err ValueError /\ inverse_transform None s = Err ValueError.
Proof. exact @c61_unfitted__p. Qed.
Print Assumptions c61_unfitted.
Example c61_unfitted_ex : transform None (rb_sam 0) = Err ValueError.
Proof. reflexivity. Qed.

(** ** C62 *)
Theorem c62_balanced :
  forall (how : string) (use_cvxpy : bool) (cvx scipy : sam -> res (list R * bool)) (s out : sam) (ok : bool),
  square s -> grand_total s <> 0%R ->
  (* no two opposite cells are both negative *)
  (forall r c, In r (sindex s) -> In c (sindex s) -> r <> c -> (scell s r c < 0)%R -> (0 <= scell s c r)%R) ->
  (* the optimizer's point satisfies the constraints it was given *)
  (forall n p, snd (fit_transform s) = Ok n ->
     (cvx n = Ok p -> cvx_constraints n (t_scale (fit s)) (fst p)) /\ (scipy n = Ok p -> scipy_constraints n (fst p))) ->
  balance_SAM how use_cvxpy cvx scipy s = Ok (out, ok) ->
  sindex out = sindex s /\ scolumns out = scolumns s /\ balanced out /\
  (forall r c, In r (sindex s) -> In c (sindex s) -> scell s r c = 0%R -> scell out r c = 0%R).
Proof. exact @c62_balanced__p. Qed.
Print Assumptions c62_balanced.
(** A SAM of one unbalanced pair of accounts; the feasible point 1/2, 1/2. *)
Definition pair_sam : sam :=
  mkSam ["A"; "B"] ["A"; "B"] (fun r c => match r, c with "A", "B" => 3 | "B", "A" => 1 | _, _ => 0 end)%R.
Example c62_balanced_ex : exists out,
  balance_SAM "cross-entropy" true (fun _ => Ok ([1 / 2; 1 / 2]%R, true)) (fun _ => Err ValueError) pair_sam = Ok (out, true) /\
  balanced out /\ scell out "A" "B" = 2%R /\ scell out "A" "A" = 0%R.
Proof.
  assert (En : t_negative (fit pair_sam) = []).
  { unfold fit. cbn. unfold rlt. repeat (destruct (Rlt_dec _ _); try lra). reflexivity. }
  assert (Es : t_scale (fit pair_sam) = 4%R) by (unfold fit; cbn; lra).
  assert (Nz : nonzero (values (mkSam (sindex pair_sam) (scolumns pair_sam) (fun r c => scell pair_sam r c / 4)%R)) = [(0, 1); (1, 0)]).
  { unfold nonzero. cbn. unfold rnz. repeat (destruct (Req_EM_T _ _); try lra). reflexivity. }
  assert (M : cvx_matrix (mkSam (sindex pair_sam) (scolumns pair_sam) (fun r c => scell pair_sam r c / 4)%R) [1 / 2; 1 / 2]%R =
     [[0; 1 / 2]; [1 / 2; 0]]%R).
  { unfold cvx_matrix, sparse_to_vector_and_matrix. rewrite Nz. cbn. unfold dot, vmap2, slice. cbn. repeat (f_equal; try lra). }
  assert (Eb : balance_SAM "cross-entropy" true (fun _ => Ok ([1 / 2; 1 / 2]%R, true)) (fun _ => Err ValueError) pair_sam =
    Ok (mkSam ["A"; "B"] ["A"; "B"] (fun r c => scell (frame [[0; 1 / 2]; [1 / 2; 0]]%R ["A"; "B"] ["A"; "B"]) r c * 4)%R, true)).
  { unfold balance_SAM, fit_transform. cbn [String.eqb Ascii.eqb Bool.eqb negb transform bind fst snd]. rewrite En, Es. cbn [fold_left].
    rewrite M. cbn [bind inverse_transform fst snd]. rewrite En, Es. reflexivity. }
  set (out := mkSam _ _ _) in Eb. exists out. split; [exact Eb|].
  assert (Sq : square pair_sam) by (split; [repeat constructor; simpl; intuition discriminate|reflexivity]).
  destruct (@c62_balanced "cross-entropy" true (fun _ => Ok ([1 / 2; 1 / 2]%R, true)) (fun _ => Err ValueError) pair_sam out true Sq)
    as (_ & _ & B & Z).
  - unfold grand_total, row_total. cbn. lra.
  - intros r c [<-|[<-|[]]] [<-|[<-|[]]]; cbn; lra.
  - intros n p Hn. unfold fit_transform in Hn. cbn [snd transform] in Hn. rewrite En, Es in Hn. apply ok_inj in Hn. subst n.
    split; [|discriminate]. intros E. apply ok_inj in E. subst p. cbn [fst]. unfold cvx_constraints. cbn [fold_left]. rewrite M.
    unfold sparse_to_vector_and_matrix. cbn [fst]. cbn [fold_left] in *. rewrite Nz. split; [reflexivity|]. split; [unfold sumR; cbn; lra|].
    split; [repeat constructor; lra|]. unfold col_sums, row_sums, sumR. cbn. repeat (f_equal; try lra).
  - exact Eb.
  - split; [exact B|]. split; [cbn; lra|]. apply Z; simpl; auto.
Qed.

(** With two opposite negative cells a feasible point gives an unbalanced SAM. *)
Theorem c62_two_way_refuted :
  exists (s : sam) (x : list R) (out : sam),
  square s /\ grand_total s = 6%R /\
  (forall n, snd (fit_transform s) = Ok n -> cvx_constraints n (t_scale (fit s)) x) /\
  balance_SAM "cross-entropy" true (fun _ => Ok (x, true)) (fun _ => Err ValueError) s = Ok (out, true) /\
  row_total out "A" = 2%R /\ col_total out "A" = 0%R.
Proof. exact @c62_two_way_refuted__p. Qed.
Print Assumptions c62_two_way_refuted.

(** ** C63 *)
Theorem c63_sparse :
  forall (r c : nat) (z : list (list R)), is_table r c z ->
  let x := fst (sparse_to_vector_and_matrix z c) in
  let a := snd (sparse_to_vector_and_matrix z c) in
  reshape2 (mv a x) r c = z /\
  (forall k, k < length x <-> exists i j, kth_cell (fun v => v <> 0%R) z c k i j) /\
  (forall k i j, kth_cell (fun v => v <> 0%R) z c k i j -> nth_error x k = Some (cell z i j)) /\
  (forall y, length y = length x ->
     is_table r c (reshape2 (mv a y) r c) /\
     (forall k i j v, kth_cell (fun v => v <> 0%R) z c k i j -> nth_error y k = Some v -> cell (reshape2 (mv a y) r c) i j = v) /\
     (forall i j, i < r -> j < c -> cell z i j = 0%R -> cell (reshape2 (mv a y) r c) i j = 0%R)).
Proof. exact @c63_sparse__p. Qed.
Print Assumptions c63_sparse.
Example c63_sparse_ex :
  let z := [[0; 3]; [-2; 0]; [1; 0]]%R in
  fst (sparse_to_vector_and_matrix z 2) = [3; -2; 1]%R /\
  cell (reshape2 (mv (snd (sparse_to_vector_and_matrix z 2)) [7; 8; 9]%R) 3 2) 1 0 = 8%R.
Proof.
  intros z.
  assert (Nz : nonzero z = [(0, 1); (1, 0); (2, 0)]).
  { unfold nonzero. cbn. unfold rnz. repeat (destruct (Req_EM_T _ _); try lra). reflexivity. }
  assert (Ex : fst (sparse_to_vector_and_matrix z 2) = [3; -2; 1]%R).
  { unfold sparse_to_vector_and_matrix. rewrite Nz. reflexivity. }
  split; [exact Ex|].
  destruct (@c63_sparse 3 2 z) as (_ & _ & _ & H); [split; [reflexivity|intros row [<-|[<-|[<-|[]]]]; reflexivity]|].
  destruct (H [7; 8; 9]%R) as (_ & K & _); [now rewrite Ex|]. apply (K 1 1 0); [|reflexivity].
  split; [simpl; lia|]. split; [lia|]. split; [cbn; lra|]. exists [(0, 1)]. split; [repeat constructor; simpl; tauto|].
  split; [reflexivity|]. intros (i & j). split.
  - intros [E|[]]. injection E as <- <-. cbn. repeat split; try lia. lra.
  - cbn [fst snd length z]. intros (Hi & Hj & Hl & Hc). left.
    assert (i = 0) by lia. subst i. assert (Hj' : j = 0 \/ j = 1) by lia. destruct Hj' as [->| ->]; [cbn in Hc; lra|reflexivity].
Qed.
Theorem c63_mask :
  forall (s : sam) (y : list R), length y = length (get_flat_nonzero_values s) ->
  exists z, f_X s y = Ok z /\ is_table (length (sindex s)) (length (scolumns s)) z /\
  (forall k, k < length y <-> exists i j, kth_cell (fun v => 0 < v)%R (values s) (length (scolumns s)) k i j) /\
  (forall k i j v, kth_cell (fun v => 0 < v)%R (values s) (length (scolumns s)) k i j -> nth_error y k = Some v -> cell z i j = v) /\
  (forall i j, i < length (sindex s) -> j < length (scolumns s) -> ~ (0 < cell (values s) i j)%R -> cell z i j = 0%R) /\
  (y = get_flat_nonzero_values s -> (forall i j, 0 <= cell (values s) i j)%R -> z = values s).
Proof. exact @c63_mask__p. Qed.
Print Assumptions c63_mask.
Example c63_mask_ex : f_X (rb_sam 0) [7; 8; 9]%R = Ok [[0; 7; 0]; [8; 0; 9]; [0; 0; 0]]%R.
Proof.
  unfold f_X. cbn. unfold rlt. repeat (destruct (Rlt_dec _ _); try lra). reflexivity.
Qed.
(** The mask selects positive cells, so a negative cell is not restored. *)
Theorem c63_mask_negative_refuted :
  exists s, square s /\ exists z, f_X s (get_flat_nonzero_values s) = Ok z /\ z <> values s.
Proof. exact @c63_mask_negative_refuted__p. Qed.
Print Assumptions c63_mask_negative_refuted.

(** ** C64 *)
Theorem c64_feasible :
  forall (s : sam), square s -> grand_total s <> 0%R -> balanced s ->
  (forall r c, In r (sindex s) -> In c (sindex s) -> (0 <= scell s r c)%R) ->
  exists n, snd (fit_transform s) = Ok n /\
    let x := fst (sparse_to_vector_and_matrix (values n) (length (sindex n))) in
    let y := get_flat_nonzero_values n in
    cvx_constraints n (t_scale (fit s)) x /\ scipy_constraints n y /\
    (exists out, balance_SAM "cross-entropy" true (fun _ => Ok (x, true)) (fun _ => Err ValueError) s = Ok (out, true) /\ same_sam s out) /\
    (exists out, balance_SAM "cross-entropy" false (fun _ => Err ValueError) (fun _ => Ok (y, true)) s = Ok (out, true) /\ same_sam s out).
Proof. exact @c64_feasible__p. Qed.
Print Assumptions c64_feasible.
Example c64_feasible_ex : exists n out, snd (fit_transform (rb_sam 1)) = Ok n /\
  scipy_constraints n (get_flat_nonzero_values n) /\
  balance_SAM "cross-entropy" false (fun _ => Err ValueError) (fun _ => Ok (get_flat_nonzero_values n, true)) (rb_sam 1) = Ok (out, true) /\
  scell out "A" "B" = 3%R.
Proof.
  destruct (@c64_feasible (rb_sam 1)) as (n & Hn & _ & Hs & _ & out & Ho & _ & _ & H).
  - apply rb_square.
  - unfold grand_total, row_total. cbn. lra.
  - intros a [<-|[<-|[<-|[]]]]; unfold row_total, col_total; cbn; lra.
  - intros r c [<-|[<-|[<-|[]]]] [<-|[<-|[<-|[]]]]; cbn; lra.
  - exists n, out. split; [exact Hn|]. split; [exact Hs|]. split; [exact Ho|]. rewrite H by (simpl; auto). reflexivity.
Qed.
(** A balanced SAM with a negative cell violates the sum constraint. *)
Theorem c64_negative_refuted :
  exists s n, square s /\ grand_total s = 5%R /\ balanced s /\ snd (fit_transform s) = Ok n /\
    sumR (fst (sparse_to_vector_and_matrix (values n) (length (sindex n)))) = (7 / 5)%R /\
    ~ cvx_constraints n (t_scale (fit s)) (fst (sparse_to_vector_and_matrix (values n) (length (sindex n)))).
Proof. exact @c64_negative_refuted__p. Qed.
Print Assumptions c64_negative_refuted.
