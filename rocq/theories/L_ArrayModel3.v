(** Lemmas for C84: the functions of the pytensor backend. *)
From Coq Require Import Reals Lra Lia FunctionalExtensionality ClassicalEpsilon.
From Verif Require Import Py PyStr NdArray M_Primitives M_PyExpr M_Utilities M_Wrappers M_Euler M_Jacobian M_Tensor M_ArrayModel
  S_Layout S_PyExpr S_Meaning S_Production S_Jacobian S_Tensor S_ArrayModel L_Layout L_Utilities L_Euler L_Jacobian L_Jacobian2 L_PyExpr L_Production6 L_Tensor3 L_Wrappers L_ArrayModel L_ArrayModel2.
Local Open Scope string_scope.
Local Open Scope list_scope.

Lemma flat_entries partial (f : list R -> list R -> res (list R)) shapes x theta n : shapes <> [] -> 0 < n ->
  exists a, make_jacobian (array_partial partial f shapes x theta) n shapes = Ok a /\ ashape a = [n; total shapes] /\
    forall e k, e < n -> k < total shapes -> aget a [e; k] = Ok (partial (fun x' => nth e (vector (f x' theta)) 0%R) x k).
Proof.
  intros Hs Hn. destruct (@c75_jacobian__p R (array_partial partial f shapes x theta) n shapes Hs Hn) as (a & E & _ & Sh & H & B). exists a. split; [exact E|]. split; [exact Sh|].
  intros e k He Hk. destruct (B k Hk) as ((j & idx) & (I & P) & _). cbn [fst snd] in *. destruct (H e j idx He I) as (_ & G). rewrite P in G. rewrite G. unfold array_partial.
  change (coordinate shapes j idx) with (S_Jacobian.position shapes j idx). now rewrite P.
Qed.
Lemma flat_gradient (G : nat -> R) shapes : shapes <> [] ->
  exists g, make_gradient (fun j idx => G (coordinate shapes j idx)) shapes (total shapes) = Ok (mkArr [total shapes] g) /\ length g = total shapes /\
    forall k, k < total shapes -> nth k g 0%R = G k.
Proof.
  intros Hs. destruct (@c75_gradient__p R (fun j idx => G (coordinate shapes j idx)) shapes Hs) as (g & E & L & H). exists g. split; [exact E|]. split; [exact L|].
  destruct (@c75_jacobian__p R (fun _ _ _ => 0%R) 1 shapes Hs Nat.lt_0_1) as (_ & _ & _ & _ & _ & B).
  intros k Hk. destruct (B k Hk) as ((j & idx) & (I & P) & _). cbn [fst snd] in *. specialize (H j idx I). rewrite P in H. apply nth_error_nth with (d := 0%R) in H. rewrite H.
  change (coordinate shapes j idx) with (S_Jacobian.position shapes j idx). now rewrite P.
Qed.
Lemma sum_seq (f : nat -> R) n : fold_right Rplus 0%R (map f (seq 0 n)) = sum_to n f.
Proof.
  induction n as [|n IH]; [reflexivity|]. rewrite seq_S, map_app, fold_right_app. cbn [map fold_right plus sum_to]. rewrite <- IH. clear.
  induction (map f (seq 0 n)) as [|b m IH]; cbn; [ring|]. rewrite IH. ring.
Qed.
Lemma dot_sum_to (f : nat -> R) p : dot (map f (seq 0 (length p))) p = sum_to (length p) (fun m => f m * nth m p 0)%R.
Proof.
  rewrite <- sum_seq. unfold dot, vmap2. f_equal. revert f. induction p as [|b p IH]; intros f; [reflexivity|]. cbn [length seq map combine fst snd nth]. f_equal.
  rewrite <- seq_shift, !map_map. apply IH with (f := fun m => f (S m)).
Qed.
Lemma flat_hessp partial (f : list R -> list R -> res (list R)) shapes x theta p : shapes <> [] -> length p = total shapes ->
  exists h, make_jvp (array_partial partial f shapes x theta) (total shapes) shapes None (chop shapes p) = Ok h /\ length h = total shapes /\
    forall k, k < total shapes -> nth k h 0%R = sum_to (total shapes) (fun m => partial (fun x' => nth m (vector (f x' theta)) 0) x k * nth m p 0)%R.
Proof.
  intros Hs Lp. unfold make_jvp. rewrite concat_arrays_chop by assumption. cbn [bind]. rewrite Lp, Nat.eqb_refl. cbn [negb].
  destruct (@flat_gradient (fun k => dot (map (fun m => partial (fun x' => nth m (vector (f x' theta)) 0%R) x k) (seq 0 (length p))) p) shapes Hs) as (g & E & L & H).
  assert (EJ : List.concat (map (fun js => jvp_chunk (array_partial partial f shapes x theta) p (fst js) (snd js)) (numbered shapes)) = g).
  { unfold make_gradient, specify_shape in E. destruct shapes as [|s shapes]; [congruence|]. destruct (list_eq_dec _ _ _); [|discriminate]. injection E as _ E. rewrite <- E. reflexivity. }
  rewrite EJ, L, Nat.eqb_refl. cbn [negb]. exists g. split; [destruct shapes; [congruence|reflexivity]|]. split; [exact L|].
  intros k K. rewrite H by exact K. rewrite dot_sum_to, Lp. reflexivity.
Qed.

Section Fixed.
Variables (number_op : binop -> R -> R -> R) (partial : (list R -> R) -> list R -> nat -> R).
Variables (c : coords) (vars params : list mobj) (equations names : list string) (rs : readings) (theta : list R) (resid : list R -> list R).
Hypothesis M : array_model number_op c vars params equations names rs theta resid.
Let sv := shapes_of c vars.
Lemma sv_ne : sv <> [].
Proof. destruct M as (_ & N & _). unfold sv, shapes_of. destruct vars; [congruence|discriminate]. Qed.
Lemma pytensor_gradient_ok x : length x = elements_of c vars -> all_defined c (vars ++ params) rs (x ++ theta) ->
  exists g, pytensor_gradient number_op partial c vars params equations names x theta = Ok (mkArr [length x] g) /\ length g = length x /\
    forall k, k < length x -> nth k g 0%R = partial (fun x' => number_value (f_loss_wrapped number_op c vars params equations names x' theta)) x k.
Proof.
  intros L D. unfold pytensor_gradient. rewrite (proj2 (declared_vars M)). cbn [bind]. rewrite (@loss_ok _ _ _ _ _ _ _ _ _ M x L D). cbn [bind].
  rewrite L, total_elements. apply (@flat_gradient (fun k => partial (fun x' => number_value (f_loss_wrapped number_op c vars params equations names x' theta)) x k) sv sv_ne).
Qed.
Lemma gradient_vector_like :
  gradient_like number_op partial c vars params equations names rs theta (gradient_vector number_op partial c vars params equations names).
Proof.
  intros x L D. destruct (@pytensor_gradient_ok x L D) as (g & E & Lg & H). exists g. unfold gradient_vector. rewrite E. cbn [bind adata]. split; [reflexivity|]. split; assumption.
Qed.
Lemma pytensor_jacobian_ok f y x : length x = elements_of c vars -> f x theta = Ok y -> 0 < length y ->
  exists a, pytensor_jacobian partial c vars f x theta = Ok a /\ ashape a = [length y; length x] /\
    forall r k, r < length y -> k < length x -> aget a [r; k] = Ok (partial (fun x' => nth r (vector (f x' theta)) 0%R) x k).
Proof.
  intros L E Hy. unfold pytensor_jacobian. rewrite (proj2 (declared_vars M)). cbn [bind]. rewrite E. cbn [bind]. rewrite L, total_elements. now apply flat_entries; [exact sv_ne|].
Qed.
End Fixed.

Lemma c84_pytensor_jacobian__p :
  forall number_op partial c vars params equations names rs theta res x,
    array_model number_op c vars params equations names rs theta res -> exact_partial partial ->
    length x = elements_of c vars -> all_defined c (vars ++ params) rs (x ++ theta) -> 0 < n_residuals c rs ->
    let f := compile_pytensor_cge_functions number_op partial c vars params equations names in
    exists jac, wrap_pytensor_func_for_scipy (pf_jac f) vars params c x theta = Ok jac /\ ashape jac = [n_residuals c rs; length x] /\
      forall k d, k < length x -> residual_partials c vars params rs theta res x k d ->
      forall r, r < n_residuals c rs -> aget jac [r; k] = Ok (d r).
Proof.
  intros number_op partial c vars params equations names rs theta res x M EP L D Hn f. cbn [f pf_jac compile_pytensor_cge_functions]. rewrite (scipy_flat M) by exact L.
  destruct (@sys_ok number_op c vars params equations names rs theta res M x L D) as (E & Ln). rewrite <- Ln in *.
  destruct (@pytensor_jacobian_ok number_op partial c vars params equations names rs theta res M _ _ x L E Hn) as (a & Ea & Sa & H). exists a. split; [exact Ea|]. split; [exact Sa|].
  intros k d K P r Hr. rewrite H by assumption. f_equal. apply jacobian_entry with (1 := M) (2 := EP); auto. now rewrite <- Ln.
Qed.

Lemma c84_pytensor_gradient__p :
  forall number_op partial c vars params equations names rs theta res x,
    array_model number_op c vars params equations names rs theta res -> exact_partial partial ->
    length x = elements_of c vars -> all_defined c (vars ++ params) rs (x ++ theta) ->
    let f := compile_pytensor_cge_functions number_op partial c vars params equations names in
    wrap_pytensor_func_for_scipy (pf_resid f) vars params c x theta =
      Ok (/ 2 * sum_to (n_residuals c rs) (fun r => nth r (res x) 0 * nth r (res x) 0))%R /\
    exists grad, wrap_pytensor_func_for_scipy (pf_grad f) vars params c x theta = Ok (mkArr [length x] grad) /\ length grad = length x /\
      forall k d, k < length x -> residual_partials c vars params rs theta res x k d ->
        nth k grad 0%R = sum_to (n_residuals c rs) (fun r => nth r (res x) 0 * d r)%R.
Proof.
  intros number_op partial c vars params equations names rs theta res x M EP L D f. cbn [f pf_resid pf_grad compile_pytensor_cge_functions]. rewrite !(scipy_flat M) by exact L.
  split; [apply (@loss_ok _ _ _ _ _ _ _ _ _ M x L D)|]. destruct (@pytensor_gradient_ok number_op partial c vars params equations names rs theta res M x L D) as (g & E & Lg & H). exists g. split; [exact E|]. split; [exact Lg|].
  intros k d K P. rewrite H by exact K. now apply gradient_entry with (1 := M) (2 := EP).
Qed.

Lemma c84_pytensor_hessian__p :
  forall number_op partial c vars params equations names rs theta res x,
    array_model number_op c vars params equations names rs theta res -> exact_partial partial ->
    length x = elements_of c vars -> all_defined c (vars ++ params) rs (x ++ theta) -> 0 < length x ->
    let f := compile_pytensor_cge_functions number_op partial c vars params equations names in
    exists hess, wrap_pytensor_func_for_scipy (pf_hess f) vars params c x theta = Ok hess /\ ashape hess = [length x; length x] /\
      (forall a b K J H, a < length x -> b < length x ->
        near (nth b x 0%R) (fun t => residual_partials c vars params rs theta res (put b t x) a (K t)) ->
        residual_partials c vars params rs theta res x b J ->
        (forall r, r < n_residuals c rs -> derivable_pt_lim (fun t => K t r) (nth b x 0%R) (H r)) ->
        aget hess [a; b] = Ok (sum_to (n_residuals c rs) (fun r => J r * K (nth b x 0) r + nth r (res x) 0 * H r)%R)) /\
      (forall p, length p = length x -> (forall o v, In o (vars ++ params) -> In v vars -> o_name o <> (o_name v ++ "_point")%string) ->
        exists hp, wrap_pytensor_func_for_scipy_p (pf_hessp f) vars params c x p theta = Ok hp /\ length hp = length x /\
          forall b, b < length x -> nth b hp 0%R = sum_to (length x) (fun a => elem hess [a; b] * nth a p 0)%R).
Proof.
  intros number_op partial c vars params equations names rs theta res x M EP L D Hn f. cbn [f pf_hess pf_hessp compile_pytensor_cge_functions]. rewrite (scipy_flat M) by exact L.
  pose proof (@gradient_vector_like number_op partial c vars params equations names rs theta res M) as GL. destruct (GL x L D) as (g & E & Lg & _). rewrite <- Lg in Hn.
  destruct (@pytensor_jacobian_ok number_op partial c vars params equations names rs theta res M _ _ x L E Hn) as (a & Ea & Sa & H). exists a. split; [exact Ea|]. split; [now rewrite Sa, Lg|]. split.
  - intros i b K J H2 Ha Hb N PJ DK. rewrite H by (rewrite ?Lg; assumption). f_equal. now apply hessian_entry with (1 := M) (2 := EP).
  - intros p Lp Pn. rewrite (scipy_flat_p M) by assumption. unfold pytensor_hessp. rewrite (proj2 (declared_vars M)). cbn [bind].
    assert (Lp' : length p = total (shapes_of c vars)) by (rewrite <- total_elements; congruence). rewrite ragged_chop0 by exact Lp'. cbn [bind]. rewrite E. cbn [bind]. rewrite Lg, L, total_elements.
    destruct (@flat_hessp partial (gradient_vector number_op partial c vars params equations names) (shapes_of c vars) x theta p (sv_ne M) Lp') as (h & Eh & Lh & Hh). exists h. split; [exact Eh|]. split; [exact Lh|].
    intros b Hb. rewrite Hh by exact Hb. apply sum_to_ext. intros m Hm. f_equal. unfold elem. rewrite H; [reflexivity|rewrite Lg, L, total_elements; exact Hm|rewrite L, total_elements; exact Hb].
Qed.

(** ** Equations in the notation that all backends share *)
Lemma c84_shared__p :
  forall c objs equations dims, NoDup (map o_name objs) -> Forall2 (shared_notation objs) equations dims ->
    equations_say c objs equations (combine dims (map (fun s rho ix => meaning rho ix (normalize_eq s)) equations)).
Proof.
  intros c objs equations dims N H. unfold equations_say. induction H as [|s ds ss dss H Hs IH]; [constructor|]. cbn [map combine]. constructor; [|exact IH]. cbn [fst snd]. intros rho.
  destruct (@shared_reads c objs rho s ds N H) as (F & E & EF). replace (fun ix => meaning rho ix (normalize_eq s)) with F; [exact E|]. extensionality ix. apply EF.
Qed.

(** ** Exact differentiation exists *)
Lemma exact_exist : exists partial along, exact_partial partial /\ exact_along along.
Proof.
  exists (fun f x k => epsilon (inhabits 0%R) (derivable_pt_lim (fun t => f (put k t x)) (nth k x 0%R))).
  exists (fun f x p => epsilon (inhabits 0%R) (derivable_pt_lim (fun h => f (move x p h)) 0%R)). split.
  - intros f x k l _ D. eapply uniqueness_limite; [|exact D]. apply epsilon_spec. now exists l.
  - intros f x p l _ D. eapply uniqueness_limite; [|exact D]. apply epsilon_spec. now exists l.
Qed.

(** ** An example: X[i] * w = A[i] *)
Definition am_c : coords := [("i", [LStr "a"; LStr "b"])].
Definition am_vars := [exobj KVar "X" ["i"]; exobj KVar "w" []].
Definition am_params := [exobj KPar "A" ["i"]].
Definition am_eq := "X * w = A".
Definition am_rs : readings := [(["i"], fun rho ix => meaning rho ix (normalize_eq am_eq))].
Definition am_res (x : list R) : list R := match x with [a; b; w] => [a * w - 4; b * w - 5]%R | _ => [] end.
Lemma am_meaning a b w u v ix : ix "i" < 2 ->
  meaning (flat_values am_c (am_vars ++ am_params) [a; b; w; u; v]) ix (normalize_eq am_eq) = nth_error [a * w - u; b * w - v]%R (ix "i").
Proof.
  intros H. unfold meaning. replace (parse (normalize_eq am_eq)) with (Some (EBin Sub (EBin Mul (EWord "X") (EWord "w")) (EWord "A"))) by reflexivity.
  cbn -[IZR]. destruct (ix "i") as [|[|]]; [| |lia]; reflexivity.
Qed.
Lemma am_model number_op names : real_arithmetic number_op -> length names = 2 ->
  array_model number_op am_c am_vars am_params [am_eq] names am_rs [4; 5]%R am_res.
Proof.
  intros Ar L. split; [exact Ar|]. split; [discriminate|]. split; [discriminate|]. split.
  { split; [repeat constructor; cbn; intuition discriminate|]. intros o d [<-|[<-|[<-|[]]]]; cbn; tauto. }
  split.
  { apply (@c84_shared__p am_c (am_vars ++ am_params) [am_eq] [["i"]]); [repeat constructor; cbn; intuition discriminate|]. constructor; [|constructor].
    exists "X * w ", " A", (EBin Mul (EWord "X") (EWord "w")), (EWord "A").
    split; [reflexivity|]. split; [apply only_axis_none; reflexivity|]. split; [reflexivity|]. split; [apply parse_sound; reflexivity|]. split; [apply parse_sound; reflexivity|].
    split; [repeat constructor|]. split; [repeat constructor|]. split; [repeat (constructor; [cbn; intuition discriminate|]); constructor|]. split.
    - intros w M _.
      assert (W : In w ["X"; "w"; "A"]).
      { inversion M as [|? ? ? M1|? ? ? M1|]; subst; inversion M1 as [|? ? ? M2|? ? ? M2|]; subst; cbn; auto; inversion M2; subst; auto. }
      destruct W as [<-|[<-|[<-|[]]]]; (split; [cbn; intuition discriminate|]);
        [exists (exobj KVar "X" ["i"])|exists (exobj KVar "w" [])|exists (exobj KPar "A" ["i"])]; (split; [cbn; auto 10|]); (split; [reflexivity|]);
        [exists []|exists ["i"]|exists []]; reflexivity.
    - right. exists (exobj KVar "X" ["i"]). split; [cbn; auto 10|]. split; [apply mn_left, mn_left, mn_word|]. split; reflexivity. }
  split; [exact L|]. split; [reflexivity|]. intros x Lx D. destruct x as [|a [|b [|w [|]]]]; try discriminate. cbn [am_res app].
  exists [[a * w - 4; b * w - 5]%R]. split; [reflexivity|]. constructor; [|constructor]. split; [reflexivity|]. intros ix W. cbn [fst snd] in *. rewrite am_meaning by (apply (W "i"); now left).
  cbn [map size dget am_c String.eqb Ascii.eqb Bool.eqb length offset]. f_equal. cbn. lia.
Qed.
Lemma am_defined a b w : all_defined am_c (am_vars ++ am_params) am_rs ([a; b; w] ++ [4; 5])%R.
Proof.
  constructor; [|constructor]. intros ix W. cbn [fst snd app am_rs] in *. rewrite am_meaning by (apply (W "i"); now left). pose proof (W "i" ltac:(now left)) as H. cbn in H.
  destruct (ix "i") as [|[|]]; [discriminate|discriminate|lia].
Qed.
(** the derivatives of the two residuals in the k-th element *)
Definition am_d (a b w : R) (k r : nat) : R := nth k (nth r [[w; 0; a]; [0; w; b]] [])%R 0%R.
Lemma near_true r (P : R -> Prop) : (forall t, P t) -> near r P.
Proof. intros H. exists 1%R. split; [lra|]. auto. Qed.
Lemma derivable_line f r l : (forall t, f t = f r + l * (t - r))%R -> derivable_pt_lim f r l.
Proof.
  intros H eps He. exists (mkposreal 1%R Rlt_0_1). intros h Hh _. rewrite (H (r + h)%R). replace ((f r + l * (r + h - r) - f r) / h - l)%R with 0%R by (field; exact Hh). now rewrite Rabs_R0.
Qed.
Lemma am_partials a b w k : k < 3 -> residual_partials am_c am_vars am_params am_rs [4; 5]%R am_res [a; b; w] k (am_d a b w k).
Proof.
  intros K. split.
  - apply near_true. intros t. destruct k as [|[|[|]]]; [| | |lia]; apply am_defined.
  - intros r Hr. change (n_residuals am_c am_rs) with 2 in Hr. apply derivable_line. intros t.
    destruct k as [|[|[|]]]; [| | |lia]; (destruct r as [|[|]]; [| |lia]); cbn -[IZR]; ring.
Qed.
