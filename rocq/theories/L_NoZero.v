(** Proofs for C95. *)
From Coq Require Import Reals Lra.
From Verif Require Import Py NdArray M_Tensor M_NoZero S_NoZero.
Local Open Scope list_scope.

Lemma fold_product l : fold_right Rmult 1%R l = product_of l.
Proof. induction l as [|v l IH]; cbn [fold_right product_of]; [reflexivity|now rewrite IH]. Qed.
Lemma product_app a b : product_of (a ++ b) = (product_of a * product_of b)%R.
Proof. induction a as [|v a IH]; cbn [app product_of]; [ring|rewrite IH; ring]. Qed.

Lemma others_derivative line i : i < length line ->
  product_derivative line i (product_of (firstn i line) * product_of (skipn (S i) line))%R.
Proof.
  intros H. split; [exact H|]. set (P := product_of (firstn i line)). set (Q := product_of (skipn (S i) line)).
  assert (D : derivable_pt_lim (fun t => (P * Q) * t)%R (nth i line 0%R) (P * Q)%R).
  { pose proof (derivable_pt_lim_scal id (P * Q)%R (nth i line 0%R) _ (derivable_pt_lim_id (nth i line 0%R))) as X.
    rewrite Rmult_1_r in X. exact X. }
  intros eps He. destruct (D eps He) as (delta & Hd). exists delta. intros h H0 H1.
  rewrite !product_app. cbn [product_of]. fold P Q.
  replace (P * ((nth i line 0 + h) * Q) - P * (nth i line 0 * Q))%R with (P * Q * (nth i line 0 + h) - P * Q * nth i line 0)%R by ring.
  exact (Hd h H0 H1).
Qed.

Lemma split_at line i v : nth_error line i = Some v -> product_of line = (v * (product_of (firstn i line) * product_of (skipn (S i) line)))%R.
Proof.
  revert i. induction line as [|u line IH]; intros [|i] H; try discriminate.
  - cbn in H. injection H as ->. cbn. ring.
  - cbn [nth_error] in H. cbn [product_of firstn]. rewrite (IH i H). cbn [skipn]. cbn [skipn product_of]. ring.
Qed.

(** ** The value *)
Lemma aget_line (n : nat) (data : list R) j v : nth_error data j = Some v -> j < n -> aget (mkArr [n] data) [j] = Ok v.
Proof.
  intros E H. unfold aget. cbn [ashape adata in_rangeb]. unfold in_rangeb. cbn [length Nat.eqb combine forallb fst snd andb].
  rewrite (proj2 (Nat.ltb_lt j n) H). cbn [andb offset prodn fold_right]. rewrite Nat.mul_1_r, Nat.add_0_r, E. reflexivity.
Qed.

Lemma map_res_line n (data : list R) : length data = n -> map_res (fun j => aget (mkArr [n] data) [j]) (seq 0 n) = Ok data.
Proof.
  intros L. assert (G : forall pre rest, data = pre ++ rest -> map_res (fun j => aget (mkArr [n] data) [j]) (seq (length pre) (length rest)) = Ok rest).
  { intros pre rest. revert pre. induction rest as [|v rest IH]; intros pre E; [reflexivity|]. cbn [length seq map_res].
    rewrite (@aget_line n data (length pre) v).
    - cbn [bind]. replace (S (length pre)) with (length (pre ++ [v])) by (rewrite app_length; cbn; lia).
      rewrite IH; [reflexivity|]. rewrite <- app_assoc. exact E.
    - rewrite E, nth_error_app2, Nat.sub_diag by lia. reflexivity.
    - rewrite <- L, E, app_length. cbn. lia. }
  pose proof (G [] data eq_refl) as X. rewrite L in X. exact X.
Qed.

Lemma reduce_line (a : arr R) n : arr_wf a -> ashape a = [n] -> reduce_axis Rmult 1%R 0 a = Ok (reduce_all Rmult 1%R a).
Proof.
  intros W S. destruct a as [sh data]. cbn [ashape] in S. subst sh. unfold arr_wf in W. cbn [adata ashape prodn fold_right] in W. rewrite Nat.mul_1_r in W.
  unfold reduce_axis. cbn [ashape nth_error firstn skipn app]. unfold build, ndindex. cbn [map product map_res bind firstn skipn app].
  rewrite (map_res_line _ W). cbn [bind]. reflexivity.
Qed.

Lemma c95_value__p :
  forall (op : prod_op) (x : arr R),
  arr_wf x -> (forall k, p_axis op = Some k -> k < length (ashape x)) ->
  prod_value (stabilized (length (ashape x)) op) x = prod_value op x.
Proof.
  intros [axis nz] x W Hk. unfold stabilized, prod_to_no_zero_prod. cbn [p_no_zeros p_axis] in *. destruct nz; [reflexivity|].
  unfold out_ndim. cbn [p_axis]. destruct axis as [k|]; [|reflexivity]. specialize (Hk k eq_refl).
  destruct (ashape x) as [|n [|n' s]] eqn:E; cbn [length] in *; [lia| |reflexivity].
  replace k with 0 by lia. cbn [Nat.sub Nat.eqb]. unfold prod_value. cbn [p_axis]. symmetry. now apply reduce_line with n.
Qed.

(** The replacement that is proposed has another shape when there is another
    axis: only its refusal keeps the value. *)
Lemma c95_axis_refuted__p :
  forall (k : nat) (x y : arr R) (op : prod_op),
  2 <= length (ashape x) -> prod_to_no_zero_prod (MkProd (Some k) false) = Some op -> prod_value (MkProd (Some k) false) x = Ok y ->
  exists z, prod_value op x = Ok z /\ length (ashape z) = 0 /\ length (ashape y) = length (ashape x) - 1 /\ z <> y /\
            stabilized (length (ashape x)) (MkProd (Some k) false) = MkProd (Some k) false.
Proof.
  intros k x y op H2 Ho Hy. injection Ho as <-. eexists. split; [reflexivity|].
  unfold prod_value, reduce_axis in Hy. cbn [p_axis] in Hy. destruct (nth_error (ashape x) k) as [n|] eqn:E; [|discriminate].
  unfold build in Hy. apply bind_ok in Hy as (data & _ & Hy). injection Hy as <-.
  assert (Lk : k < length (ashape x)) by (apply nth_error_Some; congruence).
  assert (Ly : length (firstn k (ashape x) ++ skipn (S k) (ashape x)) = length (ashape x) - 1).
  { rewrite app_length, firstn_length, skipn_length. lia. }
  split; [reflexivity|]. split; [exact Ly|]. split.
  - intros Eq. apply (f_equal (fun a => length (ashape a))) in Eq. change (0 = length (firstn k (ashape x) ++ skipn (S k) (ashape x))) in Eq. rewrite Ly in Eq. lia.
  - unfold stabilized, prod_to_no_zero_prod, out_ndim. cbn [p_no_zeros p_axis].
    destruct (Nat.eqb_spec 0 (length (ashape x) - 1)); [lia|reflexivity].
Qed.

(** ** The derivative *)
Lemma c95_derivative__p :
  forall (ndim : nat) (op : prod_op) (line : list R) (i : nat),
  i < length line -> ~ In 0%R line ->
  exists d, prod_derivative (stabilized ndim op) line i = Some d /\ product_derivative line i d.
Proof.
  intros ndim op line i Hi H0. destruct (nth_error line i) as [v|] eqn:E; [|apply nth_error_None in E; lia].
  exists (product_of (firstn i line) * product_of (skipn (S i) line))%R. split; [|now apply others_derivative].
  unfold prod_derivative. rewrite E. destruct (p_no_zeros (stabilized ndim op)); rewrite ?fold_product; [|reflexivity].
  destruct (Req_EM_T v 0) as [->|Hv]; [exfalso; apply H0; eapply nth_error_In; eauto|].
  f_equal. rewrite (split_at _ _ E). field. exact Hv.
Qed.

(** With a zero the derivative exists, pytensor's own rule finds it, and after
    the rewrite it is nan; a node along an axis of a larger array is not rewritten. *)
Lemma c95_zero_refuted__p :
  forall (ndim i : nat) (line : list R),
  nth_error line i = Some 0%R ->
  exists d, product_derivative line i d /\
            prod_derivative (MkProd None false) line i = Some d /\
            prod_derivative (stabilized ndim (MkProd None false)) line i = None /\
            (forall k, 2 <= ndim -> prod_derivative (stabilized ndim (MkProd (Some k) false)) line i = Some d).
Proof.
  intros ndim i line E. assert (Hi : i < length line) by (apply nth_error_Some; congruence).
  exists (product_of (firstn i line) * product_of (skipn (S i) line))%R. split; [now apply others_derivative|].
  unfold prod_derivative. rewrite E. cbn [p_no_zeros]. rewrite !fold_product. split; [reflexivity|]. split.
  - unfold stabilized, prod_to_no_zero_prod, out_ndim. cbn [p_no_zeros p_axis Nat.eqb]. destruct (Req_EM_T 0 0); [reflexivity|contradiction].
  - intros k Hk. unfold stabilized, prod_to_no_zero_prod, out_ndim. cbn [p_no_zeros p_axis].
    destruct (Nat.eqb_spec 0 (ndim - 1)); [lia|]. reflexivity.
Qed.
