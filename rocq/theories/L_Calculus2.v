(** C49 and C50. *)
From Coq Require Import Reals Lra.
From Verif Require Import Py PyStr M_SymExpr M_Calculus S_Calculus L_Calculus L_Reduce.
Local Open Scope string_scope.
Local Open Scope list_scope.

Lemma nth_error_map {A B} (f : A -> B) l i : nth_error (map f l) i = option_map f (nth_error l i).
Proof. revert i. induction l as [|a l IH]; intros [|i]; cbn; auto. Qed.

Lemma nth_map_ok {A B} (f : A -> B) l k d d' : k < length l -> nth k (map f l) d' = f (nth k l d).
Proof. revert k. induction l as [|a l IH]; intros [|k] H; cbn in *; auto; try lia. apply IH. lia. Qed.

Lemma jacobian_list eqs wrt J : make_sympy_jacobian (SysList eqs) wrt = Ok J -> J = map (fun e => map (fun x => diff x e) wrt) eqs.
Proof. unfold make_sympy_jacobian. destruct eqs; cbn [as_vector bind]; [discriminate|]. destruct wrt; [discriminate|]. intros H. now injection H as <-. Qed.

Lemma c50_jacobian__p :
  forall eqs wrt, eqs <> [] -> wrt <> [] ->
  exists J, make_sympy_jacobian (SysList eqs) wrt = Ok J /\ length J = length eqs /\
    forall i j e x, nth_error eqs i = Some e -> nth_error wrt j = Some x ->
      exists row d, nth_error J i = Some row /\ length row = length wrt /\ nth_error row j = Some d /\
        forall v p, smooth v p e -> partial_derivative v p x e (val v p d).
Proof.
  intros eqs wrt E W. exists (map (fun e => map (fun x => diff x e) wrt) eqs). split; [|split].
  - destruct eqs; [tauto|]. destruct wrt; [tauto|]. reflexivity.
  - apply map_length.
  - intros i j e x Ei Xj. exists (map (fun x => diff x e) wrt), (diff x e). rewrite !nth_error_map, Ei, Xj, map_length. repeat split; auto.
    intros v p Sm. now apply deriv_val.
Qed.

(** * Sums *)
Lemma val_sum v p l : val v p (py_sum l) = rsum (map (val v p) l).
Proof.
  unfold py_sum. assert (G : forall l a, val v p (fold_left (SBin OAdd) l a) = (val v p a + rsum (map (val v p) l))%R).
  { clear l. induction l as [|e l IH]; intros a; cbn; [lra|]. rewrite IH. cbn. lra. }
  rewrite G. cbn. lra.
Qed.
Lemma diff_sum v p x l : val v p (diff x (py_sum l)) = rsum (map (fun e => val v p (diff x e)) l).
Proof.
  unfold py_sum. assert (G : forall l a, val v p (diff x (fold_left (SBin OAdd) l a)) = (val v p (diff x a) + rsum (map (fun e => val v p (diff x e)) l))%R).
  { clear l. induction l as [|e l IH]; intros a; cbn [fold_left map rsum]; [lra|]. rewrite IH. cbn. lra. }
  rewrite G. cbn. lra.
Qed.
Lemma smooth_sum v p l : Forall (smooth v p) l -> smooth v p (py_sum l).
Proof.
  unfold py_sum. assert (G : forall l a, smooth v p a -> Forall (smooth v p) l -> smooth v p (fold_left (SBin OAdd) l a)).
  { clear l. induction l as [|e l IH]; intros a A F; cbn; auto. inversion F; subst. apply IH; auto. now split. }
  intros F. now apply G.
Qed.

Lemma sq_powerRZ x : powerRZ x 2 = (x * x)%R.
Proof. unfold powerRZ. change (Pos.to_nat 2) with 2. simpl. ring. Qed.
Lemma smooth_loss v p eqs : Forall (smooth v p) eqs -> smooth v p (squared_loss eqs).
Proof.
  intros F. unfold squared_loss. cbn [smooth]. split; [repeat split; cbn; lra|]. apply smooth_sum. apply Forall_map.
  eapply Forall_impl; [|exact F]. intros e E. cbn. repeat split; auto; try lia.
Qed.
Lemma val_loss v p eqs : val v p (squared_loss eqs) = (/ 2 * rsum (map (fun e => val v p e * val v p e) eqs))%R.
Proof.
  unfold squared_loss. cbn [val]. rewrite val_sum, map_map. f_equal; [lra|]. f_equal. apply map_ext. intros e. cbn [val is_num]. apply sq_powerRZ.
Qed.
Lemma diff_loss v p x eqs : val v p (diff x (squared_loss eqs)) = rsum (map (fun e => val v p (diff x e) * val v p e)%R eqs).
Proof.
  unfold squared_loss. cbn [diff val]. rewrite diff_sum, map_map.
  transitivity (/ 2 * rsum (map (fun e => val v p (diff x (SBin OPow e (SNum 2)))) eqs))%R; [field|].
  induction eqs as [|e eqs IH]; cbn [map rsum]; [lra|]. rewrite Rmult_plus_distr_l, IH. change (diff x (SBin OPow e (SNum 2))) with (SBin OMul (SBin OMul (SNum 2) (SBin OPow e (SNum 1))) (diff x e)). cbn [val is_num]. rewrite powerRZ_1. field.
Qed.

(** The loss is half the sum of squared residuals, its gradient J^T F, and the
    gradient's entries are the partial derivatives of the loss *)
Lemma c50_gradient__p :
  forall eqs wrt,
    let loss := squared_loss eqs in
    let grad := make_sympy_gradient loss wrt in
    length grad = length wrt /\
    (forall v p, val v p loss = (/ 2 * rsum (map (fun e => val v p e * val v p e) eqs))%R) /\
    forall j x, nth_error wrt j = Some x ->
      exists g, nth_error grad j = Some g /\
        forall v p, Forall (smooth v p) eqs ->
          partial_derivative v p x loss (val v p g) /\
          forall J, make_sympy_jacobian (SysList eqs) wrt = Ok J ->
            val v p g = rsum (map (fun rf => val v p (nth j (fst rf) (SNum 0)) * val v p (snd rf)) (combine J eqs))%R.
Proof.
  intros eqs wrt loss grad. split; [apply map_length|]. split; [intros; apply val_loss|]. intros j x X. exists (diff x loss). split.
  - unfold grad, make_sympy_gradient. now rewrite nth_error_map, X.
  - intros v p F. split; [apply deriv_val; now apply smooth_loss|]. intros J HJ. apply jacobian_list in HJ. subst J. unfold loss. rewrite diff_loss. f_equal.
    clear - X. induction eqs as [|e eqs IH]; cbn [map combine]; auto. rewrite IH. cbn [fst snd]. f_equal. f_equal.
    assert (Y : nth_error (map (fun y => diff y e) wrt) j = Some (diff x e)) by now rewrite nth_error_map, X.
    now rewrite (nth_error_nth _ _ (SNum 0) Y).
Qed.

(** * The Hessian *)
Lemma c50_hessian__p :
  forall eqs wrt, wrt <> [] ->
    let grad := make_sympy_gradient (squared_loss eqs) wrt in
    exists H, make_sympy_jacobian (SysMatrix (map (fun g => [g]) grad)) wrt = Ok H /\ length H = length wrt /\
      (forall j k g x, nth_error grad j = Some g -> nth_error wrt k = Some x ->
        exists row h, nth_error H j = Some row /\ length row = length wrt /\ nth_error row k = Some h /\
          forall v p, Forall (smooth v p) eqs -> partial_derivative v p x g (val v p h)) /\
      (forall v p, Forall (smooth v p) eqs -> forall j k, j < length wrt -> k < length wrt ->
         val v p (nth k (nth j H []) (SNum 0)) = val v p (nth j (nth k H []) (SNum 0))).
Proof.
  intros eqs wrt W grad. set (H := map (fun e => map (fun x => diff x e) wrt) grad).
  assert (L : length grad = length wrt) by apply map_length.
  assert (HG : forall j k, j < length wrt -> k < length wrt -> nth k (nth j H []) (SNum 0) = diff (nth k wrt "") (diff (nth j wrt "") (squared_loss eqs))).
  { intros j k J K. unfold H, grad, make_sympy_gradient. rewrite map_map.
    rewrite nth_indep with (d' := (fun y => map (fun x => diff x (diff y (squared_loss eqs))) wrt) "") by now rewrite map_length.
    rewrite map_nth with (f := fun y => map (fun x => diff x (diff y (squared_loss eqs))) wrt).
    rewrite nth_indep with (d' := (fun x => diff x (diff (nth j wrt "") (squared_loss eqs))) "") by now rewrite map_length.
    now rewrite map_nth with (f := fun x => diff x (diff (nth j wrt "") (squared_loss eqs))). }
  exists H. split; [|split; [|split]].
  - unfold make_sympy_jacobian. assert (E : as_vector (SysMatrix (map (fun g => [g]) grad)) = Ok grad).
    { destruct grad as [|g [|g2 gs]]; [destruct wrt; [tauto|discriminate]|reflexivity|]. cbn. do 3 f_equal. clear. induction gs; cbn; congruence. }
    rewrite E. cbn [bind]. destruct wrt; [tauto|]. reflexivity.
  - unfold H. now rewrite map_length.
  - intros j k g x G X. exists (map (fun x => diff x g) wrt), (diff x g). unfold H. rewrite !nth_error_map, G, X, map_length. repeat split; auto.
    intros v p F. apply deriv_val. unfold grad, make_sympy_gradient in G. rewrite nth_error_map in G. destruct (nth_error wrt j) as [y|]; [|discriminate].
    assert (EG : diff y (squared_loss eqs) = g) by (cbn [option_map] in G; congruence). rewrite <- EG. apply smooth_diff. now apply smooth_loss.
  - intros v p F j k J K. rewrite !HG by auto. apply diff_comm. now apply smooth_loss.
Qed.

Lemma c50_hessp__p :
  forall eqs wrt, wrt <> [] ->
    let grad := make_sympy_gradient (squared_loss eqs) wrt in
    forall H, make_sympy_jacobian (SysMatrix (map (fun g => [g]) grad)) wrt = Ok H ->
    forall j, j < length wrt ->
      exists h, nth_error (make_sympy_hessp grad wrt) j = Some h /\
        forall v p, Forall (smooth v p) eqs ->
          val v p h = rsum (map (fun i => val v p (nth i (nth j H []) (SNum 0)) * p "hess_point" [IPos i])%R (seq 0 (length wrt))).
Proof.
  intros eqs wrt W grad H HJ j J.
  destruct (@c50_hessian__p eqs wrt W) as (H' & E' & _ & _ & Sym). fold grad in E'. assert (H' = H) by congruence. subst H'.
  assert (HH : H = map (fun e => map (fun x => diff x e) wrt) grad).
  { assert (G := jacobian_list grad wrt). unfold make_sympy_jacobian in *.
    assert (E : as_vector (SysMatrix (map (fun g => [g]) grad)) = as_vector (SysList grad)).
    { destruct grad as [|g [|g2 gs]]; [reflexivity|reflexivity|]. cbn. do 3 f_equal. clear. induction gs; cbn; congruence. }
    apply G. rewrite <- E. exact HJ. }
  set (x := nth j wrt "").
  exists (diff x (py_sum (map (fun i => SBin OMul (nth i grad (SNum 0)) (hess_point i)) (seq 0 (length wrt))))). split.
  - unfold make_sympy_hessp, make_sympy_gradient. rewrite nth_error_map. rewrite (nth_error_nth' wrt "" J). reflexivity.
  - intros v p F. rewrite diff_sum, map_map. f_equal. apply map_ext_in. intros i I. apply in_seq in I.
    cbn [diff val]. rewrite (Sym v p F j i J) by lia. cbn [hess_point diff val].
    replace (nth j (nth i H []) (SNum 0)) with (diff x (nth i grad (SNum 0))); [ring|].
    rewrite HH. rewrite (@nth_map_ok _ _ (fun e => map (fun x => diff x e) wrt) grad i (SNum 0)) by (unfold grad, make_sympy_gradient; rewrite map_length; lia).
    now rewrite (@nth_map_ok _ _ (fun x => diff x (nth i grad (SNum 0))) wrt j "") by lia.
Qed.


(** * C49 *)
Lemma in_enumerate {A} (l : list A) i a : In (i, a) (enumerate l) <-> nth_error l i = Some a.
Proof.
  unfold enumerate. enough (G : forall o, In (i, a) (combine (seq o (length l)) l) <-> o <= i /\ nth_error l (i - o) = Some a).
  { rewrite G. rewrite Nat.sub_0_r. split; [tauto|]. intros; split; auto; lia. }
  induction l as [|b ls IH]; intros o; cbn.
  - split; [easy|]. intros (_ & H). now destruct (i - o).
  - rewrite IH. split.
    + intros [E|(H & E)]; [injection E as <- <-; rewrite Nat.sub_diag; auto|]. split; [lia|]. replace (i - o) with (S (i - S o)) by lia. exact E.
    + intros (H & E). destruct (Nat.eq_dec i o); [left; subst; rewrite Nat.sub_diag in E; cbn in E; congruence|].
      right. split; [lia|]. replace (i - o) with (S (i - S o)) in E by lia. exact E.
Qed.

Lemma dok_get_in d i j e : NoDup (map fst d) -> In ((i, j), e) d -> dok_get d i j = e.
Proof.
  induction d as [|((a & b) & f) d IH]; cbn; [easy|]. intros N [E|H].
  - injection E as -> -> ->. now rewrite !Nat.eqb_refl.
  - inversion N; subst. destruct (Nat.eqb_spec a i); cbn; [|now apply IH]. destruct (Nat.eqb_spec b j); cbn; [|now apply IH].
    subst. exfalso. apply H2. apply in_map_iff. exists ((i, j), e). auto.
Qed.
Lemma dok_get_out d i j : (forall e, ~ In ((i, j), e) d) -> dok_get d i j = SNum 0.
Proof.
  induction d as [|((a & b) & f) d IH]; cbn; auto. intros N.
  assert (I : dok_get d i j = SNum 0) by (apply IH; intros e H; apply (N e); auto).
  destruct (Nat.eqb_spec a i); cbn; [|exact I]. destruct (Nat.eqb_spec b j); [|exact I]. subst. exfalso. apply (N f). auto.
Qed.

Lemma in_dok eqs vars i j d : In ((i, j), d) (snd (jacobian_as_dok_data eqs vars)) <->
  exists e x, nth_error eqs i = Some e /\ nth_error vars j = Some x /\ In x (atoms e) /\ d = diff x e.
Proof.
  unfold jacobian_as_dok_data. cbn [snd]. rewrite in_flat_map. split.
  - intros ((i' & e) & H1 & H2). apply in_flat_map in H2 as ((j' & x) & H2 & H3). cbn [fst snd] in H3.
    destruct (mem_str x (atoms e)) eqn:M; [|easy]. destruct H3 as [E|[]]. apply in_enumerate in H1, H2. apply mem_str_In in M.
    assert (E1 : i' = i) by congruence. assert (E2 : j' = j) by congruence. assert (E3 : diff x e = d) by congruence. subst. eauto 6.
  - intros (e & x & H1 & H2 & H3 & ->). exists (i, e). split; [now apply in_enumerate|]. apply in_flat_map. exists (j, x). split; [now apply in_enumerate|].
    cbn [fst snd]. apply mem_str_In in H3. rewrite H3. now left.
Qed.

Lemma NoDup_flat {A B} (f : A -> list B) l : (forall a, In a l -> NoDup (f a)) -> (forall a b x, In x (f a) -> In x (f b) -> a = b) -> NoDup l -> NoDup (flat_map f l).
Proof.
  intros F D N. induction N as [|a l Na N IH]; cbn; [constructor|]. apply NoDup_app; auto.
  - apply F. now left.
  - apply IH. intros. apply F. now right.
  - intros x Hx Hy. apply in_flat_map in Hy as (b & Hb & Hy). apply Na. now rewrite (D a b x Hx Hy).
Qed.
Lemma enumerate_NoDup {A} (l : list A) : NoDup (enumerate l).
Proof.
  unfold enumerate. generalize 0 as o. induction l as [|a l IH]; intros o; cbn; constructor; auto.
  intros H. apply in_combine_l in H. apply in_seq in H. lia.
Qed.

Lemma dok_NoDup eqs vars : NoDup (map fst (snd (jacobian_as_dok_data eqs vars))).
Proof.
  unfold jacobian_as_dok_data. cbn [snd]. rewrite flat_map_concat_map, concat_map, map_map, <- flat_map_concat_map.
  assert (K : forall (ie : nat * sexpr) (m : list (nat * string)) (k : nat * nat), In k (map fst (flat_map (fun jx : nat * string => if mem_str (snd jx) (atoms (snd ie)) then [((fst ie, fst jx), diff (snd jx) (snd ie))] else []) m)) ->
     fst k = fst ie /\ exists x, In x m /\ snd k = fst x).
  { intros ie m k H. apply in_map_iff in H as (q & <- & H). apply in_flat_map in H as (x & Hx & H). destruct (mem_str _ _); [|easy]. destruct H as [<-|[]]. cbn. eauto. }
  assert (IE : forall (A : Type) (l : list A) a b, In a (enumerate l) -> In b (enumerate l) -> fst a = fst b -> a = b).
  { intros A l (i & a) (j & b) H1 H2 E. cbn in E. subst. apply in_enumerate in H1, H2. congruence. }
  assert (G : forall l, (forall a b, In a l -> In b l -> fst a = fst b -> a = b) -> NoDup l ->
     NoDup (flat_map (fun ie : nat * sexpr => map fst (flat_map (fun jx : nat * string => if mem_str (snd jx) (atoms (snd ie)) then [((fst ie, fst jx), diff (snd jx) (snd ie))] else []) (enumerate vars))) l)).
  { intros l U N. induction N as [|ie l Ni N IH]; cbn; [constructor|]. apply NoDup_app.
    - assert (V : forall m, (forall a b, In a m -> In b m -> fst a = fst b -> a = b) -> NoDup m -> NoDup (map fst (flat_map (fun jx : nat * string => if mem_str (snd jx) (atoms (snd ie)) then [((fst ie, fst jx), diff (snd jx) (snd ie))] else []) m))).
      { intros m Um Nm. induction Nm as [|jx m Nj Nm IHm]; cbn; [constructor|]. rewrite map_app. apply NoDup_app.
        - destruct (mem_str _ _); cbn; repeat constructor; auto.
        - apply IHm. intros a b Ha Hb. apply Um; now right.
        - intros k H1 H2. apply K in H2 as (_ & x & Hx & E). destruct (mem_str _ _); [|easy]. destruct H1 as [<-|[]]. cbn in E.
          apply Nj. replace jx with x; auto. symmetry. apply Um; auto; [now left|now right]. }
      apply V; [apply IE|apply enumerate_NoDup].
    - apply IH. intros a b Ha Hb. apply U; now right.
    - intros k H1 H2. apply K in H1 as (H1 & _). apply in_flat_map in H2 as (ie' & Hie & H2). apply K in H2 as (H2 & _).
      apply Ni. replace ie with ie'; auto. apply U; [now right|now left|congruence]. }
  apply G; [apply IE|apply enumerate_NoDup].
Qed.

Lemma c49_same_matrix__p :
  forall eqs wrt, eqs <> [] -> wrt <> [] ->
  exists J dok, make_sympy_jacobian (SysList eqs) wrt = Ok J /\
    sparse_jacobian (SysList eqs) wrt = Ok ((length eqs, length wrt), dok) /\
    sparse_jacobian (SysMatrix (map (fun e => [e]) eqs)) wrt = Ok ((length eqs, length wrt), dok) /\
    NoDup (map fst dok) /\
    (forall i j d, In ((i, j), d) dok -> i < length eqs /\ j < length wrt) /\
    forall i j, i < length eqs -> j < length wrt -> forall v p,
      val v p (dok_get dok i j) = val v p (nth j (nth i J []) (SNum 0)).
Proof.
  intros eqs wrt E W. exists (map (fun e => map (fun x => diff x e) wrt) eqs), (snd (jacobian_as_dok_data eqs wrt)).
  split; [destruct eqs; [tauto|]; destruct wrt; [tauto|]; reflexivity|].
  split; [reflexivity|]. split.
  { unfold sparse_jacobian. assert (C : ncols (map (fun e => [e]) eqs) = 1) by (destruct eqs; [tauto|reflexivity]). rewrite C. cbn.
    replace (List.concat (map (fun e => [e]) eqs)) with eqs; [reflexivity|]. clear. induction eqs; cbn; congruence. }
  split; [apply dok_NoDup|]. split.
  { intros i j d H. apply in_dok in H as (e & x & H1 & H2 & _). split; apply nth_error_Some; congruence. }
  intros i j I J v p.
  rewrite (@nth_map_ok _ _ (fun e => map (fun x => diff x e) wrt) eqs i (SNum 0)) by auto. rewrite (@nth_map_ok _ _ (fun x => diff x (nth i eqs (SNum 0))) wrt j "") by auto.
  set (e := nth i eqs (SNum 0)). set (x := nth j wrt "").
  assert (He : nth_error eqs i = Some e) by now apply nth_error_nth'. assert (Hx : nth_error wrt j = Some x) by now apply nth_error_nth'.
  destruct (in_dec String.string_dec x (atoms e)) as [A|A].
  - f_equal. apply dok_get_in; [apply dok_NoDup|]. apply in_dok. eauto 6.
  - rewrite diff_absent by auto. rewrite dok_get_out; [reflexivity|]. intros d H. apply in_dok in H as (e' & x' & H1 & H2 & H3 & _).
    assert (e' = e) by congruence. assert (x' = x) by congruence. now subst.
Qed.

(** A row matrix, and an empty list of variables *)
Lemma c49_shapes_refuted__p :
  (exists eqs wrt J, make_sympy_jacobian (SysMatrix [eqs]) wrt = Ok J /\ sparse_jacobian (SysMatrix [eqs]) wrt = Err ValueError) /\
  (exists eqs, make_sympy_jacobian (SysList eqs) [] = Err TypeError /\ exists r, sparse_jacobian (SysList eqs) [] = Ok r).
Proof.
  split.
  - exists [SSym "x"; SSym "y"], ["x"]. eexists. split; reflexivity.
  - exists [SSym "x"]. split; [reflexivity|]. eexists. reflexivity.
Qed.
