(** Lemmas for C84: the compiled array functions and their derivatives. *)
From Coq Require Import Reals Lra Lia FunctionalExtensionality.
From Verif Require Import Py PyStr NdArray M_Primitives M_PyExpr M_Utilities M_Wrappers M_Euler M_Jacobian M_Tensor M_ArrayModel
  S_Layout S_Meaning S_Production S_Tensor S_ArrayModel L_Layout L_Utilities L_Euler L_Tensor L_Tensor2 L_Tensor4 L_Wrappers.
Local Open Scope string_scope.
Local Open Scope list_scope.

Lemma nth_error_firstn_lt {A} n : forall (l : list A) k, k < n -> nth_error (firstn n l) k = nth_error l k.
Proof. induction n as [|n IH]; intros [|a l] [|k] H; cbn; try lia; try reflexivity. apply IH. lia. Qed.
Definition shape_of (c : coords) (o : mobj) : list nat := map (size c) (o_dims o).
Definition shapes_of (c : coords) (objs : list mobj) : list (list nat) := map (shape_of c) objs.

Lemma total_cons c o objs : total (shapes_of c (o :: objs)) = n_elements c o + total (shapes_of c objs).
Proof. reflexivity. Qed.
Lemma total_elements c objs : elements_of c objs = total (shapes_of c objs).
Proof. unfold elements_of, total, shapes_of. now rewrite map_map. Qed.

(** ** The values behind a flat vector *)
Lemma in_rangeb_forallb (c : coords) (ix : indices) dims :
  in_rangeb (map (size c) dims) (map ix dims) = forallb (fun d => Nat.ltb (ix d) (size c d)) dims.
Proof.
  unfold in_rangeb. rewrite !map_length, Nat.eqb_refl. cbn [andb]. induction dims as [|d dims IH]; [reflexivity|]. cbn [map combine forallb fst snd]. now rewrite IH.
Qed.
Lemma array_values_flat c objs : forall flat, length flat = total (shapes_of c objs) ->
  array_values objs (combine (map o_name objs) (chop (shapes_of c objs) flat)) = flat_values c objs flat.
Proof.
  induction objs as [|o objs IH]; intros flat L; extensionality w; extensionality ix; [reflexivity|].
  unfold array_values. cbn [find map shapes_of chop combine dget flat_values]. rewrite (String.eqb_sym w (o_name o)). destruct (String.eqb_spec (o_name o) w) as [E|E].
  - unfold aget. cbn [ashape adata]. unfold shape_of. rewrite in_rangeb_forallb. destruct (forallb _ (o_dims o)) eqn:Fb; [|reflexivity].
    rewrite nth_error_firstn_lt.
    + destruct (nth_error flat _) eqn:N; [reflexivity|]. reflexivity.
    + apply offset_lt. apply in_rangeb_spec. now rewrite in_rangeb_forallb.
  - specialize (IH (skipn (n_elements c o) flat)). rewrite <- IH; [reflexivity|]. rewrite skipn_length. rewrite total_cons in L. lia.
Qed.
Lemma has_shape_declared c o : (forall d, In d (o_dims o) -> In d (dkeys c)) -> has_shape c o (shape_of c o).
Proof.
  unfold has_shape, shape_of. induction (o_dims o) as [|d ds IH]; intros H; cbn [map]; constructor; [|apply IH; intros; apply H; now right].
  destruct (proj1 (@dget_Some_key _ d c) (H d (or_introl eq_refl))) as (ls & E). exists ls. split; [exact E|]. unfold size. now rewrite E.
Qed.
Lemma shapes_declared c objs : (forall o d, In o objs -> In d (o_dims o) -> In d (dkeys c)) ->
  Forall2 (has_shape c) objs (shapes_of c objs) /\ map_res (object_shape c) objs = Ok (shapes_of c objs).
Proof.
  induction objs as [|o objs IH]; intros H; [split; [constructor|reflexivity]|].
  assert (Ho : has_shape c o (shape_of c o)) by (apply has_shape_declared; intros; apply (H o); [now left|assumption]).
  destruct IH as (I1 & I2); [intros o' d I; apply H; now right|]. split; [constructor; assumption|].
  cbn [map_res]. destruct (object_shape_ok Ho) as (-> & _). cbn [bind]. unfold shapes_of in I2. now rewrite I2.
Qed.
Lemma given_flat c objs flat : well_declared c objs -> length flat = total (shapes_of c objs) ->
  given c objs (combine (map o_name objs) (chop (shapes_of c objs) flat)).
Proof.
  intros (N & D) L. split; [exact N|]. intros o Ho. apply In_nth_error in Ho as (j & Hj). pose proof (nth_error_In _ _ Hj) as Ho.
  assert (Cj : exists a, nth_error (chop (shapes_of c objs) flat) j = Some a /\ arr_wf a /\ ashape a = shape_of c o).
  { clear N D. revert flat j L Hj. induction objs as [|o' objs IH]; intros flat [|j] L Hj; try discriminate; rewrite total_cons in L; cbn in Hj; cbn [shapes_of map chop nth_error].
    - injection Hj as ->. eexists. split; [reflexivity|]. split; [|reflexivity]. unfold arr_wf. cbn [adata ashape]. rewrite firstn_length. unfold n_elements in L. unfold shape_of. lia.
    - apply IH; [now apply nth_error_In in Hj| |exact Hj]. change (prodn (shape_of c o')) with (n_elements c o'). rewrite skipn_length. fold (shapes_of c objs). lia. }
  destruct Cj as (a & Ca & Wa & Sa). exists a. split; [apply dget_combine_nth with j; [exact N|rewrite nth_error_map, Hj; reflexivity|exact Ca]|].
  split; [exact Wa|]. rewrite Sa. apply has_shape_declared. intros d Hd. now apply (D o).
Qed.

(** ** The residuals *)
Lemma block_unique c dims F b b' : NoDup dims -> block_of c dims F b -> block_of c dims F b' -> b = b'.
Proof.
  intros N (L & B) (L' & B'). apply nth_error_ext_; [congruence|]. intros k K. rewrite L in K.
    rewrite <- ndindex_length in K. apply nth_error_Some in K. destruct (nth_error (ndindex (map (size c) dims)) k) as [idx|] eqn:E; [|congruence].
    destruct (@offset_nth_ndindex (map (size c) dims) idx k E) as (R & O).
    assert (Li : length idx = length dims) by (apply Forall2_length in R; now rewrite map_length in R).
    pose proof (@assign_map dims idx N Li) as A.
    assert (W : forall d, In d dims -> assign dims idx d < size c d).
    { intros d Hd. rewrite <- A in R. clear - R Hd. revert R. generalize (assign dims idx). intros f R. induction dims as [|e dims IH]; [destruct Hd|].
      inversion R; subst. destruct Hd as [->|Hd]; auto. }
    specialize (B _ W). specialize (B' _ W). rewrite A, O in B, B'. congruence.
Qed.
Lemma residuals_unique c objs equations rs flat v v' : equations_say c objs equations rs ->
  residuals_at c objs rs flat v -> residuals_at c objs rs flat v' -> v = v'.
Proof.
  intros H (bs & -> & F) (bs' & -> & F'). f_equal. revert equations bs bs' H F F'. induction rs as [|r rs IH]; intros eqs bs bs' H F F'; inversion H as [|s ? ss ? Hs Hss]; subst; inversion F as [|? b ? bs1 Hb Hbs]; inversion F' as [|? b' ? bs1' Hb' Hbs']; subst; [reflexivity|].
  f_equal; [|eapply IH; eassumption]. destruct (Hs (flat_values c objs flat)) as (lhs & rhs & el & er & _ & _ & _ & _ & _ & N & _). eapply block_unique; eassumption.
Qed.
Lemma residuals_length c objs rs flat v : residuals_at c objs rs flat v -> length v = n_residuals c rs.
Proof.
  intros (bs & -> & F). unfold n_residuals. induction F as [|r b rs bs (L & _) F IH]; [reflexivity|]. cbn [List.concat map list_sum fold_right]. now rewrite app_length, L, IH.
Qed.

Section Fixed.
Variables (number_op : binop -> R -> R -> R) (partial : (list R -> R) -> list R -> nat -> R) (along : (list R -> R) -> list R -> list R -> R).
Variables (c : coords) (vars params : list mobj) (equations names : list string) (rs : readings) (theta : list R) (resid : list R -> list R).
Hypothesis M : array_model number_op c vars params equations names rs theta resid.
Let n := n_residuals c rs.
Let sv := shapes_of c vars.
Let sys := f_sys_wrapped number_op c vars params equations names.

Lemma declared_vars : Forall2 (has_shape c) vars sv /\ map_res (object_shape c) vars = Ok sv.
Proof. destruct M as (_ & _ & _ & (_ & D) & _). apply shapes_declared. intros o d I. apply D, in_app_iff. now left. Qed.
Lemma declared_params : Forall2 (has_shape c) params (shapes_of c params) /\ map_res (object_shape c) params = Ok (shapes_of c params).
Proof. destruct M as (_ & _ & _ & (_ & D) & _). apply shapes_declared. intros o d I. apply D, in_app_iff. now right. Qed.

Lemma sys_ok x : length x = elements_of c vars -> all_defined c (vars ++ params) rs (x ++ theta) -> sys x theta = Ok (resid x) /\ length (resid x) = n.
Proof.
  intros Lx D. pose proof M as (Ar & _ & _ & WD & ES & LN & Lt & RF). specialize (RF x Lx D). split; [|now apply residuals_length with (1 := RF)].
  unfold sys, f_sys_wrapped. rewrite (proj2 declared_vars), (proj2 declared_params). cbn [bind]. rewrite total_elements in Lx, Lt. rewrite !ragged_chop0 by assumption. cbn [bind].
  unfold f_system. rewrite <- chop_app' by assumption. assert (SA : sv ++ shapes_of c params = shapes_of c (vars ++ params)) by (unfold sv, shapes_of; now rewrite map_app). rewrite SA.
  assert (LA : length (x ++ theta) = total (shapes_of c (vars ++ params))) by (rewrite <- SA; unfold total in *; rewrite app_length, map_app, list_sum_app; fold sv in Lx; lia).
  destruct (@c82_system__p number_op c (vars ++ params) (combine (map o_name (vars ++ params)) (chop (shapes_of c (vars ++ params)) (x ++ theta))) equations names
              (map (fun r => (fst r, snd r (flat_values c (vars ++ params) (x ++ theta)))) rs) Ar (given_flat _ WD LA)) as (blocks & -> & F).
  - rewrite array_values_flat by exact LA. clear - ES D. revert D. unfold all_defined. generalize (flat_values c (vars ++ params) (x ++ theta)). intros rho D. induction ES as [|s r ss rs H ES IH]; [constructor|].
    inversion D; subst. constructor; [split; [apply H|assumption]|]. now apply IH.
  - rewrite LN. unfold n_residuals. now rewrite map_map.
  - f_equal. apply residuals_unique with (1 := ES) (3 := RF). exists blocks. split; [reflexivity|]. clear - F. remember (map _ rs) as rs' eqn:E. revert rs E. induction F as [|r' b rs' bs H F IH]; intros [|r rs] E; try discriminate; constructor; injection E as -> E; [exact H|now apply IH].
Qed.
Lemma sys_vector x : length x = elements_of c vars -> all_defined c (vars ++ params) rs (x ++ theta) -> vector (sys x theta) = resid x.
Proof. intros L D. now rewrite (proj1 (@sys_ok x L D)). Qed.
End Fixed.

(** ** Derivatives *)
Lemma near_here r P : near r P -> P r.
Proof. intros (d & Hd & H). apply H. rewrite Rminus_diag_eq, Rabs_R0; [exact Hd|reflexivity]. Qed.
Lemma derivable_near f g r l : near r (fun t => f t = g t) -> derivable_pt_lim f r l -> derivable_pt_lim g r l.
Proof.
  intros N D. pose proof (near_here N) as E0. destruct N as (d & Hd & N). intros eps He. destruct (D eps He) as (d' & H').
  assert (P : (0 < Rmin d d')%R) by (apply Rmin_pos; [exact Hd|apply cond_pos]). exists (mkposreal _ P). intros h Hh Lh. cbn in Lh.
  rewrite <- E0, <- (N (r + h)%R); [apply H'; [exact Hh|eapply Rlt_le_trans; [exact Lh|apply Rmin_r]]|].
  replace (r + h - r)%R with h by ring. eapply Rlt_le_trans; [exact Lh|apply Rmin_l].
Qed.
Lemma near_and r P Q : near r P -> near r Q -> near r (fun t => P t /\ Q t).
Proof.
  intros (d & Hd & H) (d' & Hd' & H'). exists (Rmin d d'). split; [now apply Rmin_pos|]. intros t Ht. split; [apply H|apply H']; (eapply Rlt_le_trans; [exact Ht|]); [apply Rmin_l|apply Rmin_r].
Qed.
Lemma near_impl r (P Q : R -> Prop) : (forall t, P t -> Q t) -> near r P -> near r Q.
Proof. intros I (d & Hd & H). exists d. split; [exact Hd|]. intros t Ht. now apply I, H. Qed.
Lemma put_length k t x : k < length x -> length (put k t x) = length x.
Proof. intros H. unfold put. rewrite app_length. cbn [length]. rewrite firstn_length, skipn_length. lia. Qed.
Lemma put_same k x : k < length x -> put k (nth k x 0%R) x = x.
Proof. revert k. induction x as [|a x IH]; intros [|k] H; cbn in H; try lia; [reflexivity|]. unfold put in *. cbn [firstn skipn nth app]. f_equal. apply IH. lia. Qed.
Lemma nth_put k t x : k < length x -> nth k (put k t x) 0%R = t.
Proof. intros H. unfold put. rewrite app_nth2; rewrite firstn_length; [|lia]. replace (k - Nat.min k (length x)) with 0 by lia. reflexivity. Qed.
Lemma move_length x p h : length p = length x -> length (move x p h) = length x.
Proof. intros H. unfold move. rewrite map_length, combine_length. lia. Qed.
Lemma move_zero x p : length p = length x -> move x p 0%R = x.
Proof. revert p. induction x as [|a x IH]; intros [|b p] H; try discriminate; [reflexivity|]. unfold move in *. cbn [combine map fst snd]. f_equal; [ring|]. apply IH. now injection H. Qed.
Lemma sum_to_ext n f g : (forall r, r < n -> f r = g r) -> sum_to n f = sum_to n g.
Proof. induction n as [|n IH]; intros H; [reflexivity|]. cbn. rewrite IH, H; [reflexivity|lia|]. intros r Hr. apply H. lia. Qed.
Lemma sum_to_list f l : fold_right Rplus 0%R (map f l) = sum_to (length l) (fun r => f (nth r l 0%R)).
Proof.
  induction l as [|a l IH] using rev_ind; [reflexivity|]. rewrite app_length, Nat.add_comm. cbn [plus length sum_to].
  rewrite map_app, fold_right_app. cbn [map fold_right]. rewrite app_nth2, Nat.sub_diag by lia. cbn [nth].
  rewrite (sum_to_ext _ (fun r => f (nth r l 0%R))) by (intros r Hr; now rewrite app_nth1). rewrite <- IH. clear. induction (map f l) as [|b m IH]; cbn; [ring|]. rewrite IH. ring.
Qed.
Lemma derivable_sum n (u : nat -> R -> R) (d : nat -> R) r : (forall i, i < n -> derivable_pt_lim (u i) r (d i)) ->
  derivable_pt_lim (fun t => sum_to n (fun i => u i t)) r (sum_to n d).
Proof.
  induction n as [|n IH]; intros H; [apply derivable_pt_lim_const|]. cbn [sum_to].
  apply (derivable_pt_lim_plus (fun t => sum_to n (fun i => u i t)) (u n)); [apply IH; intros; apply H; lia|apply H; lia].
Qed.
Lemma sum_to_scale n a f : (a * sum_to n f)%R = sum_to n (fun i => a * f i)%R.
Proof. induction n as [|n IH]; cbn; [ring|]. rewrite <- IH. ring. Qed.
