(** Lemmas for C84: the Jacobian, the gradient and the Hessian. *)
From Coq Require Import Reals Lra Lia FunctionalExtensionality.
From Verif Require Import Py PyStr NdArray M_Primitives M_PyExpr M_Utilities M_Wrappers M_Euler M_Jacobian M_Tensor M_ArrayModel
  S_Layout S_Meaning S_Production S_Tensor S_ArrayModel L_Layout L_Utilities L_Euler L_Tensor L_Tensor2 L_Tensor4 L_Wrappers L_ArrayModel.
Local Open Scope string_scope.
Local Open Scope list_scope.

Lemma nth_map_seq {A} (f : nat -> A) m k d : k < m -> nth k (map f (seq 0 m)) d = f k.
Proof. intros K. rewrite nth_indep with (d' := f 0) by (rewrite map_length, seq_length; exact K). rewrite map_nth, seq_nth by exact K. reflexivity. Qed.

Section Fixed.
Variables (number_op : binop -> R -> R -> R) (partial : (list R -> R) -> list R -> nat -> R) (along : (list R -> R) -> list R -> list R -> R).
Variables (c : coords) (vars params : list mobj) (equations names : list string) (rs : readings) (theta : list R) (resid : list R -> list R).
Hypothesis M : array_model number_op c vars params equations names rs theta resid.
Hypothesis EP : exact_partial partial.
Let n := n_residuals c rs.
Let sys := f_sys_wrapped number_op c vars params equations names.
Let loss := f_loss_wrapped number_op c vars params equations names.
Notation defined x := (all_defined c (vars ++ params) rs (x ++ theta)).
Notation partials := (residual_partials c vars params rs theta resid).

Definition half_squares (x : list R) : R := (/ 2 * sum_to n (fun r => nth r (resid x) 0 * nth r (resid x) 0))%R.
Lemma loss_ok x : length x = elements_of c vars -> defined x -> loss x theta = Ok (half_squares x).
Proof.
  intros L D. destruct (@sys_ok number_op c vars params equations names rs theta resid M x L D) as (E & Ln). unfold loss, f_loss_wrapped. rewrite E. cbn [bind]. f_equal. unfold half_squares. f_equal.
  rewrite sum_to_list. unfold n. now rewrite Ln.
Qed.

Lemma jacobian_entry x k d r : length x = elements_of c vars -> k < length x -> partials x k d -> r < n ->
  partial (fun x' => nth r (vector (sys x' theta)) 0%R) x k = d r.
Proof.
  intros L K (N & D) Hr. apply EP; [exact K|]. eapply derivable_near; [|apply D; exact Hr]. revert N. apply near_impl. intros t Ht.
  unfold sys. rewrite (@sys_vector number_op c vars params equations names rs theta resid M); [reflexivity|now rewrite put_length|exact Ht].
Qed.
Lemma gradient_entry x k d : length x = elements_of c vars -> k < length x -> partials x k d ->
  partial (fun x' => number_value (loss x' theta)) x k = sum_to n (fun r => nth r (resid x) 0 * d r)%R.
Proof.
  intros L K (N & D). apply EP; [exact K|]. apply derivable_near with (f := fun t => half_squares (put k t x)).
  { revert N. apply near_impl. intros t Ht. rewrite loss_ok; [reflexivity|now rewrite put_length|exact Ht]. }
  replace (sum_to n (fun r => nth r (resid x) 0 * d r))%R with (/ 2 * sum_to n (fun r => d r * nth r (resid x) 0 + nth r (resid x) 0 * d r))%R.
  2: { rewrite sum_to_scale. apply sum_to_ext. intros; field. }
  unfold half_squares. apply (derivable_pt_lim_scal (fun t => sum_to n (fun r => nth r (resid (put k t x)) 0 * nth r (resid (put k t x)) 0))%R).
  apply (@derivable_sum n (fun r t => nth r (resid (put k t x)) 0 * nth r (resid (put k t x)) 0)%R). intros r Hr.
  pose proof (@derivable_pt_lim_mult _ _ _ _ _ (D r Hr) (D r Hr)) as X. cbn beta in X. rewrite put_same in X by exact K. exact X.
Qed.

(** a vector of the entries of the gradient *)
Definition gradient_like (g : list R -> list R -> res (list R)) : Prop :=
  forall x, length x = elements_of c vars -> defined x -> exists v, g x theta = Ok v /\ length v = length x /\
    forall k, k < length x -> nth k v 0%R = partial (fun x' => number_value (loss x' theta)) x k.
Lemma gradient_like_entry g x k d : gradient_like g -> length x = elements_of c vars -> k < length x -> partials x k d ->
  nth k (vector (g x theta)) 0%R = sum_to n (fun r => nth r (resid x) 0 * d r)%R.
Proof.
  intros G L K P. assert (D : defined x) by (rewrite <- (put_same x K); exact (near_here (proj1 P))).
  destruct (G x L D) as (v & -> & _ & H). cbn [vector]. rewrite H by exact K. now apply gradient_entry.
Qed.

Lemma derivable_products (u K : nat -> R -> R) (J H : nat -> R) r : (forall i, i < n -> derivable_pt_lim (u i) r (J i)) ->
  (forall i, i < n -> derivable_pt_lim (K i) r (H i)) ->
  derivable_pt_lim (fun t => sum_to n (fun i => u i t * K i t)%R) r (sum_to n (fun i => J i * K i r + u i r * H i)%R).
Proof.
  intros D1 D2. apply (@derivable_sum n (fun i t => u i t * K i t)%R). intros i Hi. exact (@derivable_pt_lim_mult _ _ _ _ _ (D1 i Hi) (D2 i Hi)).
Qed.

Lemma hessian_entry g x a b K J H : gradient_like g -> length x = elements_of c vars -> a < length x -> b < length x ->
  near (nth b x 0%R) (fun t => partials (put b t x) a (K t)) -> partials x b J ->
  (forall r, r < n -> derivable_pt_lim (fun t => K t r) (nth b x 0%R) (H r)) ->
  partial (fun x' => nth a (vector (g x' theta)) 0%R) x b = sum_to n (fun r => J r * K (nth b x 0) r + nth r (resid x) 0 * H r)%R.
Proof.
  intros G L Ha Hb N (_ & DJ) DK. apply EP; [exact Hb|].
  apply derivable_near with (f := fun t => sum_to n (fun r => nth r (resid (put b t x)) 0 * K t r)%R).
  { revert N. apply near_impl. intros t Ht. symmetry. apply gradient_like_entry; [exact G|now rewrite put_length|now rewrite put_length|exact Ht]. }
  pose proof (@derivable_products (fun r t => nth r (resid (put b t x)) 0%R) (fun r t => K t r) J H (nth b x 0%R) DJ DK) as X. cbn beta in X. rewrite put_same in X by exact Hb. exact X.
Qed.
Hypothesis EA : exact_along along.
Lemma hessp_entry g x p a K J H : gradient_like g -> length x = elements_of c vars -> length p = length x -> a < length x ->
  near 0%R (fun h => partials (move x p h) a (K h)) ->
  (forall r, r < n -> derivable_pt_lim (fun h => nth r (resid (move x p h)) 0%R) 0%R (J r)) ->
  (forall r, r < n -> derivable_pt_lim (fun h => K h r) 0%R (H r)) ->
  along (fun x' => nth a (vector (g x' theta)) 0%R) x p = sum_to n (fun r => J r * K 0 r + nth r (resid x) 0 * H r)%R.
Proof.
  intros G L Lp Ha N DJ DK. apply EA; [exact Lp|].
  apply derivable_near with (f := fun h => sum_to n (fun r => nth r (resid (move x p h)) 0 * K h r)%R).
  { revert N. apply near_impl. intros t Ht. symmetry. apply gradient_like_entry; [exact G|now rewrite move_length|now rewrite move_length|exact Ht]. }
  pose proof (@derivable_products (fun r h => nth r (resid (move x p h)) 0%R) (fun r h => K h r) J H 0%R DJ DK) as X. cbn beta in X. rewrite move_zero in X by exact Lp. exact X.
Qed.

Let grad_jax := f_grad_jax number_op partial c vars params equations names.
Lemma grad_jax_like : gradient_like grad_jax.
Proof.
  intros x L D. unfold grad_jax, f_grad_jax. fold loss. rewrite (@loss_ok x L D). cbn [bind]. eexists. split; [reflexivity|]. rewrite map_length, seq_length. split; [reflexivity|].
  intros k K. now apply nth_map_seq.
Qed.
End Fixed.
Section Stated.
Variables (number_op : binop -> R -> R -> R) (partial : (list R -> R) -> list R -> nat -> R) (along : (list R -> R) -> list R -> list R -> R).
Variables (c : coords) (vars params : list mobj) (equations names : list string) (rs : readings) (theta : list R) (resid : list R -> list R).
Hypothesis M : array_model number_op c vars params equations names rs theta resid.
Lemma scipy_flat {W} (f : list R -> list R -> res W) x : length x = elements_of c vars ->
  wrap_pytensor_func_for_scipy (wrap_scipy_func_for_pytensor f vars params) vars params c x theta = f x theta.
Proof.
  intros L. pose proof M as (_ & Nv & Np & (ND & _) & _ & _ & Lt & _).
  apply c33_flat_round_trip__p with (sv := shapes_of c vars) (sp := shapes_of c params); auto; [apply (declared_vars M)|apply (declared_params M)|now rewrite <- total_elements|now rewrite <- total_elements].
Qed.
Lemma scipy_flat_p {W} (f : list R -> list R -> list R -> res W) x p : length x = elements_of c vars -> length p = length x ->
  (forall o v, In o (vars ++ params) -> In v vars -> o_name o <> (o_name v ++ "_point")%string) ->
  wrap_pytensor_func_for_scipy_p (wrap_scipy_func_for_pytensor_hessp f vars params) vars params c x p theta = f x p theta.
Proof.
  intros L Lp Pn. pose proof M as (_ & Nv & Np & (ND & _) & _ & _ & Lt & _).
  apply c34_flat_round_trip__p with (sv := shapes_of c vars) (sp := shapes_of c params); auto; [apply (declared_vars M)|apply (declared_params M)|now rewrite <- total_elements|now rewrite Lp, <- total_elements|now rewrite <- total_elements].
Qed.
End Stated.

Lemma c84_jacobian__p :
  forall number_op partial along c vars params equations names rs theta res x,
    array_model number_op c vars params equations names rs theta res -> exact_partial partial ->
    length x = elements_of c vars -> all_defined c (vars ++ params) rs (x ++ theta) ->
    let f := compile_jax_cge_functions number_op partial along c vars params equations names in
    exists rows, wrap_pytensor_func_for_scipy (jf_jac f) vars params c x theta = Ok rows /\
      length rows = n_residuals c rs /\ Forall (fun row => length row = length x) rows /\
      forall k d, k < length x -> residual_partials c vars params rs theta res x k d ->
      forall r, r < n_residuals c rs -> nth k (nth r rows []) 0%R = d r.
Proof.
  intros number_op partial along c vars params equations names rs theta res x M EP L D f. cbn [f jf_jac compile_jax_cge_functions]. rewrite (scipy_flat M) by exact L.
  destruct (@sys_ok number_op c vars params equations names rs theta res M x L D) as (E & Ln). unfold jacobian. rewrite E. cbn [bind]. eexists. split; [reflexivity|].
  rewrite map_length, seq_length. split; [exact Ln|]. split.
  - apply Forall_forall. intros row Hr. apply in_map_iff in Hr as (r & <- & _). now rewrite map_length, seq_length.
  - intros k d K P r Hr. rewrite nth_map_seq by now rewrite Ln. rewrite nth_map_seq by exact K. now apply jacobian_entry with (1 := M) (2 := EP).
Qed.

Lemma c84_gradient__p :
  forall number_op partial along c vars params equations names rs theta res x,
    array_model number_op c vars params equations names rs theta res -> exact_partial partial ->
    length x = elements_of c vars -> all_defined c (vars ++ params) rs (x ++ theta) ->
    let f := compile_jax_cge_functions number_op partial along c vars params equations names in
    wrap_pytensor_func_for_scipy (jf_resid f) vars params c x theta =
      Ok (/ 2 * sum_to (n_residuals c rs) (fun r => nth r (res x) 0 * nth r (res x) 0))%R /\
    exists grad, wrap_pytensor_func_for_scipy (jf_grad f) vars params c x theta = Ok grad /\ length grad = length x /\
      forall k d, k < length x -> residual_partials c vars params rs theta res x k d ->
        nth k grad 0%R = sum_to (n_residuals c rs) (fun r => nth r (res x) 0 * d r)%R.
Proof.
  intros number_op partial along c vars params equations names rs theta res x M EP L D f. cbn [f jf_resid jf_grad compile_jax_cge_functions]. rewrite !(scipy_flat M) by exact L.
  split; [apply (@loss_ok _ _ _ _ _ _ _ _ _ M x L D)|]. destruct (@grad_jax_like number_op partial c vars params equations names rs theta res M x L D) as (g & E & Lg & H). exists g. split; [exact E|]. split; [exact Lg|].
  intros k d K P. rewrite H by exact K. now apply gradient_entry with (1 := M) (2 := EP).
Qed.

Lemma c84_hessian__p :
  forall number_op partial along c vars params equations names rs theta res x,
    array_model number_op c vars params equations names rs theta res -> exact_partial partial ->
    length x = elements_of c vars -> all_defined c (vars ++ params) rs (x ++ theta) ->
    let f := compile_jax_cge_functions number_op partial along c vars params equations names in
    exists hess, wrap_pytensor_func_for_scipy (jf_hess f) vars params c x theta = Ok hess /\
      length hess = length x /\ Forall (fun row => length row = length x) hess /\
      forall a b K J H, a < length x -> b < length x ->
        near (nth b x 0%R) (fun t => residual_partials c vars params rs theta res (put b t x) a (K t)) ->
        residual_partials c vars params rs theta res x b J ->
        (forall r, r < n_residuals c rs -> derivable_pt_lim (fun t => K t r) (nth b x 0%R) (H r)) ->
        nth b (nth a hess []) 0%R = sum_to (n_residuals c rs) (fun r => J r * K (nth b x 0) r + nth r (res x) 0 * H r)%R.
Proof.
  intros number_op partial along c vars params equations names rs theta res x M EP L D f. cbn [f jf_hess compile_jax_cge_functions]. rewrite (scipy_flat M) by exact L.
  destruct (@grad_jax_like number_op partial c vars params equations names rs theta res M x L D) as (g & E & Lg & _). unfold f_hess_jax, jacobian. rewrite E. cbn [bind]. eexists. split; [reflexivity|].
  rewrite map_length, seq_length. split; [exact Lg|]. split.
  - apply Forall_forall. intros row Hr. apply in_map_iff in Hr as (r & <- & _). now rewrite map_length, seq_length.
  - intros a b K J H Ha Hb N PJ DK. rewrite nth_map_seq by now rewrite Lg. rewrite nth_map_seq by exact Hb.
    apply hessian_entry with (1 := M) (2 := EP); auto. exact (grad_jax_like partial M).
Qed.

Lemma c84_hessp__p :
  forall number_op partial along c vars params equations names rs theta res x p,
    array_model number_op c vars params equations names rs theta res -> exact_partial partial -> exact_along along ->
    length x = elements_of c vars -> all_defined c (vars ++ params) rs (x ++ theta) -> length p = length x ->
    (forall o v, In o (vars ++ params) -> In v vars -> o_name o <> (o_name v ++ "_point")%string) ->
    let f := compile_jax_cge_functions number_op partial along c vars params equations names in
    exists hp, wrap_pytensor_func_for_scipy_p (jf_hessp f) vars params c x p theta = Ok hp /\ length hp = length x /\
      forall a K J H, a < length x ->
        near 0%R (fun h => residual_partials c vars params rs theta res (move x p h) a (K h)) ->
        (forall r, r < n_residuals c rs -> derivable_pt_lim (fun h => nth r (res (move x p h)) 0%R) 0%R (J r)) ->
        (forall r, r < n_residuals c rs -> derivable_pt_lim (fun h => K h r) 0%R (H r)) ->
        nth a hp 0%R = sum_to (n_residuals c rs) (fun r => J r * K 0 r + nth r (res x) 0 * H r)%R.
Proof.
  intros number_op partial along c vars params equations names rs theta res x p M EP EA L D Lp Pn f. cbn [f jf_hessp compile_jax_cge_functions]. rewrite (scipy_flat_p M) by assumption.
  destruct (@grad_jax_like number_op partial c vars params equations names rs theta res M x L D) as (g & E & Lg & _). unfold f_hessp_jax. rewrite E. cbn [bind]. rewrite Lp, Nat.eqb_refl. eexists. split; [reflexivity|].
  rewrite map_length, seq_length. split; [exact Lg|].
  intros a K J H Ha N DJ DK. rewrite nth_map_seq by now rewrite Lg.
  apply hessp_entry with (1 := M) (2 := EP) (3 := EA); auto. exact (grad_jax_like partial M).
Qed.
