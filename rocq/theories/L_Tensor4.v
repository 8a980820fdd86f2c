(** Lemmas for C82 (solutions) and for C57 with the pytensor backend. *)
From Coq Require Import Ascii Reals Lra Lia ZArith.
From Verif Require Import Py PyStr NdArray M_Primitives M_PyExpr M_Equations M_Production M_Tensor S_PyExpr S_Meaning S_Production S_Layout S_Tensor
  L_PyExpr L_Meaning L_Production2 L_Production3 L_Production4 L_Production6 L_Tensor L_Tensor2 L_Tensor3.
Local Open Scope string_scope.
Local Open Scope list_scope.

Fixpoint assign (dims : list string) (idx : list nat) : indices := fun d =>
  match dims, idx with
  | e :: dims', k :: idx' => if String.eqb e d then k else assign dims' idx' d
  | _, _ => 0
  end.
Lemma assign_map dims : forall idx, NoDup dims -> length idx = length dims -> map (assign dims idx) dims = idx.
Proof.
  induction dims as [|e dims IH]; intros [|k idx] N L; try discriminate; [reflexivity|]. inversion N as [|? ? Ne Nd]; subst. cbn [map assign].
  rewrite String.eqb_refl. f_equal. transitivity (map (assign dims idx) dims); [|apply IH; [exact Nd|cbn in L; lia]]. apply map_ext_in. intros d Id. destruct (String.eqb_spec e d); [subst; contradiction|reflexivity].
Qed.
Lemma block_zero c dims F block : NoDup dims -> block_of c dims F block ->
  (all_zero block <-> forall ix, (forall d, In d dims -> ix d < size c d) -> F ix = Some 0%R).
Proof.
  intros N (L & B). split.
  - intros Z ix W. rewrite <- (B ix W). destruct (nth_error block _) eqn:E; [now rewrite (Z _ (nth_error_In _ _ E))|].
    exfalso. apply nth_error_None in E. assert (offset (map (size c) dims) (map ix dims) < prodn (map (size c) dims)); [|lia]. apply offset_lt.
    clear - W. induction dims as [|d dims IH]; constructor; [apply W; now left|]. apply IH. intros e He. apply W. now right.
  - intros Z r Ir. apply In_nth_error in Ir. destruct Ir as (k & Ek). assert (K : k < prodn (map (size c) dims)) by (rewrite <- L; apply nth_error_Some; congruence).
    rewrite <- ndindex_length in K. apply nth_error_Some in K. destruct (nth_error (ndindex (map (size c) dims)) k) as [idx|] eqn:E; [|congruence].
    destruct (@offset_nth_ndindex (map (size c) dims) idx k E) as (R & O).
    assert (Li : length idx = length dims) by (apply Forall2_length in R; now rewrite map_length in R).
    pose proof (@assign_map dims idx N Li) as A.
    assert (W : forall d, In d dims -> assign dims idx d < size c d).
    { intros d Hd. rewrite <- A in R. clear - R Hd. revert R. generalize (assign dims idx). intros f R. induction dims as [|e dims IH]; [destruct Hd|].
      inversion R; subst. destruct Hd as [->|Hd]; auto. }
    specialize (B (assign dims idx) W). rewrite A, O, Ek, (Z _ W) in B. now injection B.
Qed.

Definition zero_on (c : coords) (dims : list string) (F : indices -> option R) : Prop := forall ix, (forall d, In d dims -> ix d < size c d) -> F ix = Some 0%R.
Lemma all_zero_concat ls : all_zero (List.concat ls) <-> Forall all_zero ls.
Proof.
  split; intros H.
  - apply Forall_forall. intros l Hl r Hr. apply H. apply in_concat. now exists l.
  - intros r Hr. apply in_concat in Hr. destruct Hr as (l & Hl & Hr). rewrite Forall_forall in H. exact (H l Hl r Hr).
Qed.
Lemma system_solutions number_op c objs data equations names readings : real_arithmetic number_op -> given c objs data ->
  Forall2 (fun s r => equation_reads c objs (array_values objs data) s (fst r) (snd r) /\ defined_on c (fst r) (snd r)) equations readings ->
  length names = list_sum (map (fun r => prodn (map (size c) (fst r))) readings) ->
  exists residuals, pytensor_system number_op c objs equations names data = Ok residuals /\
    (all_zero residuals <-> Forall (fun r => zero_on c (fst r) (snd r)) readings).
Proof.
  intros Ar G H L. destruct (@c82_system__p number_op c objs data equations names readings Ar G H L) as (blocks & E & B).
  exists (List.concat blocks). split; [exact E|]. rewrite all_zero_concat. clear E L.
  assert (N : Forall (fun r => NoDup (fst r)) readings).
  { clear B. induction H as [|s r ss rs ((lhs & rhs & el & er & _ & _ & _ & _ & _ & N & _) & _) H IH]; constructor; assumption. }
  clear H. revert N. induction B as [|r b rs bs Hb B IH]; intros N; [split; constructor|]. inversion N as [|? ? Nr Nrs]; subst.
  pose proof (@block_zero c (fst r) (snd r) b Nr Hb) as Z. specialize (IH Nrs). split; intros X; inversion X as [|? ? X1 X2]; subst; (constructor; [exact (proj1 Z X1) || exact (proj2 Z X1)|now apply IH]).
Qed.

Lemma c82_solutions__p :
  forall number_op c objs data equations names dims, real_arithmetic number_op -> given c objs data ->
    let rho := array_values objs data in
    Forall2 (fun s ds => shared_notation objs s ds /\ defined_on c ds (fun ix => meaning rho ix (normalize_eq s))) equations dims ->
    length names = list_sum (map (fun ds => prodn (map (size c) ds)) dims) ->
    exists residuals, pytensor_system number_op c objs equations names data = Ok residuals /\
      (all_zero residuals <-> Forall2 (fun s ds => forall ix, (forall d, In d ds -> ix d < size c d) -> holds rho ix s) equations dims).
Proof.
  intros number_op c objs data equations names dims Ar G rho H L.
  assert (X : exists readings, Forall2 (fun s r => equation_reads c objs rho s (fst r) (snd r) /\ defined_on c (fst r) (snd r)) equations readings /\
            map fst readings = dims /\ (Forall (fun r => zero_on c (fst r) (snd r)) readings <-> Forall2 (fun s ds => forall ix, (forall d, In d ds -> ix d < size c d) -> holds rho ix s) equations dims)).
  { clear L. induction H as [|s ds eqs dss (Hs & Ds) H (rs & R1 & R2 & R3)]; [exists []; repeat split; constructor|].
    destruct (@shared_reads c objs rho s ds (proj1 G) Hs) as (F & EF & MF). exists ((ds, F) :: rs). split; [|split; [cbn; congruence|]].
    - constructor; [|exact R1]. split; [exact EF|]. intros ix W. cbn. rewrite MF. now apply Ds.
    - split; intros X; [inversion X as [|? ? X1 X2]|inversion X as [|? ? ? ? X1 X2]]; subst.
      + constructor; [|now apply R3]. intros ix W. unfold holds. rewrite <- MF. now apply X1.
      + constructor; [|now apply R3]. intros ix W. cbn. rewrite MF. now apply X1. }
  destruct X as (readings & R1 & R2 & R3). destruct (@system_solutions number_op c objs data equations names readings Ar G R1) as (residuals & E & Z).
  { rewrite L, <- R2, map_map. reflexivity. }
  exists residuals. split; [exact E|]. now rewrite Z, R3.
Qed.

(** ** C57: two dimensions with the pytensor backend *)
Definition column (e : pexpr) : pexpr := EIndex e (ECons EColon (ECons (EWord "None") ENil)).
Definition row (e : pexpr) : pexpr := EIndex e (ECons (EWord "None") ENil).
Definition sum_axis0 (e : pexpr) : pexpr := ECall (EAttr (ECall (EAttr e "sum") (ECons (EKw "axis" (EWord "0")) ENil)) "ravel") ENil.
Lemma g_word w : G LExpr [Word w] (EWord w).
Proof. apply G_term, G_factor, G_power, G_prim, G_word. Qed.
Lemma g_column s e : is_unit s e -> is_unit (s ++ "[:, None]")%string (column e).
Proof.
  unfold is_unit. intros H. rewrite tok_head by reflexivity. change (tokenize "[:, None]") with (LB :: ([Colon] ++ Comma :: [Word "None"]) ++ [RB]).
  apply G_index; [exact H|]. apply G_cons; [apply G_colon|]. apply G_one, G_item, g_word.
Qed.
Lemma g_row s e : is_unit s e -> is_unit (s ++ "[None]")%string (row e).
Proof.
  unfold is_unit. intros H. rewrite tok_head by reflexivity. change (tokenize "[None]") with (LB :: [Word "None"] ++ [RB]).
  apply G_index; [exact H|]. apply G_one, G_item, g_word.
Qed.
Lemma g_sum s e : is_expr s e -> is_unit ("(" ++ s ++ ").sum(axis=0).ravel()")%string (sum_axis0 e).
Proof.
  unfold is_expr, is_unit. intros H. rewrite tok_last, tok_head by reflexivity.
  change (tokenize "(") with [LP]. change (tokenize ").sum(axis=0).ravel()") with ([RP] ++ [Dot; Word "sum"] ++ (LP :: (Word "axis" :: Equal :: [Word "0"]) ++ [RP]) ++ [Dot; Word "ravel"] ++ LP :: [] ++ [RP]).
  cbn [app]. replace (LP :: tokenize s ++ [RP; Dot; Word "sum"; LP; Word "axis"; Equal; Word "0"; RP; Dot; Word "ravel"; LP; RP])
    with (((((LP :: tokenize s ++ [RP]) ++ [Dot; Word "sum"]) ++ LP :: (Word "axis" :: Equal :: [Word "0"]) ++ [RP]) ++ [Dot; Word "ravel"]) ++ LP :: [] ++ [RP]) by (cbn; now rewrite <- !app_assoc).
  apply G_call; [|apply G_nil]. apply G_attr. apply G_call; [apply G_attr, G_paren; exact H|]. apply G_one, G_kw, g_word.
Qed.
Lemma g_times s e t f : is_unit s e -> is_unit t f -> is_expr (s ++ " * " ++ t)%string (EBin Mul e f).
Proof.
  unfold is_unit, is_expr. intros H1 H2. rewrite tok_head, tok_last by reflexivity. change (tokenize " * ") with [Star]. cbn [app].
  apply G_term, G_mul; [apply G_factor, G_power, G_prim, H1|apply G_power, G_prim, H2].
Qed.
Lemma g_over s e t f : is_unit s e -> is_expr t f -> is_expr (s ++ " / (" ++ t ++ ")")%string (EBin Div e f).
Proof.
  unfold is_unit, is_expr. intros H1 H2. rewrite tok_head, tok_last, tok_head by reflexivity. change (tokenize " / (") with [Slash; LP]. change (tokenize ")") with [RP].
  apply G_term, G_div; [apply G_factor, G_power, G_prim, H1|apply G_power, G_prim, G_paren, H2].
Qed.
Lemma g_unit s e : is_unit s e -> is_expr s e.
Proof. intros H. apply G_term, G_factor, G_power, G_prim, H. Qed.
Lemma g_spaced s e : is_expr s e -> is_expr (s ++ " ")%string e /\ is_expr (" " ++ s)%string e.
Proof.
  unfold is_expr. intros H. rewrite tok_head, tok_last by reflexivity. change (tokenize " ") with (@nil token). rewrite app_nil_r. now split.
Qed.
Lemma eq_reads c objs rho lhs rhs el er dims F : no_eq lhs -> is_expr lhs el -> is_expr rhs er -> NoDup dims ->
  reads c objs rho (EBin Sub el er) (map Some dims) F -> equation_reads c objs rho (lhs ++ " = " ++ rhs) dims F.
Proof.
  intros N Hl Hr Nd H. exists (lhs ++ " ")%string, (" " ++ rhs)%string, el, er. split; [now rewrite sapp_assoc|].
  split; [apply only_axis_none, no_eq_find, no_eq_app; [exact N|reflexivity]|]. split; [apply ends_with_space|].
  split; [exact (proj1 (@g_spaced lhs el Hl))|]. split; [exact (proj2 (@g_spaced rhs er Hr))|]. auto.
Qed.
Lemma over_sum c d F g ix : (forall k, k < size c d -> F (upd ix d k) = Some (g k)) -> over c Rplus 0%R d F ix = Some (sum_n g (size c d)).
Proof.
  intros H. unfold over, sum_n, total_of. assert (L : forall k, In k (seq 0 (size c d)) -> F (upd ix d k) = Some (g k)) by (intros k K; apply in_seq in K; apply H; lia).
  revert L. generalize (seq 0 (size c d)). intros l. induction l as [|k l IH]; intros L; [reflexivity|]. cbn [map fold_right].
  rewrite IH by (intros j J; apply L; now right). rewrite L by now left. reflexivity.
Qed.
Ltac align := unfold joined, padded; cbn; repeat (constructor; [unfold meet; auto|]); constructor.

Lemma c57_pytensor__p :
  forall number_op C objs data names coords (c d : string) (expand_price_dim transpose_output : bool) (factor price output output_price share : string)
         (x q a : nat -> nat -> R) (y p : nat -> R),
  let rho := array_values objs data in let m := size C c in let n := size C d in
  real_arithmetic number_op -> given C objs data -> c <> d ->
  array2 C objs rho factor c d x -> array2 C objs rho share c d a -> array1 C objs rho output d y -> array1 C objs rho output_price d p ->
  (if expand_price_dim then array1 C objs rho price c (fun i => q i 0%nat) /\ (forall i j, q i j = q i 0%nat) else array2 C objs rho price c d q) ->
  no_eq factor -> no_eq output -> (forall j, j < n -> y j <> 0%R /\ p j <> 0%R) -> length names = n + m * n ->
  exists eqs residuals, leontief (One factor) (One price) output output_price (One share) (Many [c; d]) coords (Some c) expand_price_dim transpose_output "pytensor" = Ok eqs /\
    pytensor_system number_op C objs eqs names data = Ok residuals /\
    (all_zero residuals <->
     (forall j, j < n -> p j = sum_n (fun i => q i j * a i j)%R m /\ forall i, i < m -> x i j = (a i j * y j)%R)).
Proof.
  intros number_op C objs data names coords c d ep tr factor price output output_price share x q a y p rho m n Ar Gv Ncd
    (ex & Fx & Gx & Rx & Vx) (ea & Fa & Ga & Ra & Va) (ey & Fy & Gy & Ry & Vy) (epr & Fp & Gp & Rp & Vp) Q Nf No NZ L.
  set (sl := if ep then "[:, None]"%string else ""%string).
  set (e1 := (output ++ " = " ++ ("(" ++ ((price ++ sl) ++ " * " ++ factor) ++ ").sum(axis=0).ravel()") ++ " / (" ++ output_price ++ ")")%string).
  set (e2 := (factor ++ " = " ++ share ++ " * " ++ (output ++ "[None]"))%string).
  assert (PQ : exists eq A Fq, is_unit (price ++ sl) eq /\ reads C objs rho eq A Fq /\ joined A [Some c; Some d] [Some c; Some d] /\
            forall ix, ix c < m -> ix d < n -> Fq ix = Some (q (ix c) (ix d))).
  { unfold sl. destruct ep.
    - destruct Q as ((eq & Fq & Gq & Rq & Vq) & Qc). exists (column eq), [Some c; None], Fq. split; [now apply g_column|]. split; [|split; [align|]].
      + apply (@reads_insert C objs rho eq _ [Some c]); [exact Rq|]. repeat constructor.
      + intros ix Hc Hd. rewrite Qc. now apply Vq.
    - destruct Q as (eq & Fq & Gq & Rq & Vq). exists eq, [Some c; Some d], Fq. rewrite sapp_nil_r. split; [exact Gq|]. split; [exact Rq|]. split; [align|exact Vq]. }
  destruct PQ as (eq & A & Fq & Gq & Rq & Jq & Vq).
  assert (E : leontief (One factor) (One price) output output_price (One share) (Many [c; d]) coords (Some c) ep tr "pytensor" = Ok [e1; e2]).
  { unfold leontief, check_lengths. cbn [at_least_list length Nat.eqb andb bind single]. unfold leontief_2d. cbn [bind index_of option_map]. rewrite String.eqb_refl.
    cbn [bind]. change (String.eqb "pytensor" "numba") with false. change (String.eqb "pytensor" "pytensor") with true. cbv iota. change (str_of_nat 0) with "0"%string.
    unfold e1, e2, sl. destruct ep; (apply f_equal; apply f_equal2; [sassoc|reflexivity]). }
  set (F1 := fun ix => lift2 (apply_op Sub) (Fy ix) (lift2 (apply_op Div) (over C Rplus 0%R c (fun ix => lift2 (apply_op Mul) (Fq ix) (Fx ix)) ix) (Fp ix))).
  set (F2 := fun ix => lift2 (apply_op Sub) (Fx ix) (lift2 (apply_op Mul) (Fa ix) (Fy ix))).
  assert (R1 : equation_reads C objs rho e1 [d] F1).
  { apply (@eq_reads C objs rho output _ ey (EBin Div (sum_axis0 (EBin Mul eq ex)) epr)); [exact No|now apply g_unit| |repeat constructor; intros []|].
    - apply g_over; [apply g_sum, g_times; assumption|now apply g_unit].
    - apply (@reads_op C objs rho Sub _ _ [Some d] [Some d]); [exact Ry| |align]. apply (@reads_op C objs rho Div _ _ [Some d] [Some d]); [|exact Rp|align].
      apply reads_ravel. apply (@reads_axis C objs rho (EBin Mul eq ex) "sum" Rplus 0%R "0" [] c [Some d]); [|cbn; intuition congruence|reflexivity|left; auto].
      cbn [app]. exact (reads_op Mul Rq Rx Jq). }
  assert (R2 : equation_reads C objs rho e2 [c; d] F2).
  { apply (@eq_reads C objs rho factor _ ex (EBin Mul ea (row ey))); [exact Nf|now apply g_unit| |repeat constructor; cbn; intuition congruence|].
    - apply g_times; [exact Ga|now apply g_row].
    - apply (@reads_op C objs rho Sub _ _ [Some c; Some d] [Some c; Some d]); [exact Rx| |align]. apply (@reads_op C objs rho Mul _ _ [Some c; Some d] [None; Some d]); [exact Ra| |align].
      apply (@reads_insert C objs rho ey _ [Some d]); [exact Ry|repeat constructor]. }
  assert (V1 : forall ix, ix d < n -> F1 ix = Some (y (ix d) - sum_n (fun i => q i (ix d) * x i (ix d)) m / p (ix d))%R).
  { intros ix Hd. unfold F1. rewrite Vy, Vp by exact Hd. rewrite (@over_sum C c _ (fun i => q i (ix d) * x i (ix d))%R).
    - cbn [lift2 apply_op]. destruct (Req_EM_T (p (ix d)) 0) as [Z|_]; [exfalso; exact (proj2 (NZ _ Hd) Z)|reflexivity].
    - intros k K. assert (X : upd ix c k d = ix d) by (apply upd_other; congruence). rewrite Vq, Vx; rewrite ?upd_same, ?X; auto. }
  assert (V2 : forall ix, ix c < m -> ix d < n -> F2 ix = Some (x (ix c) (ix d) - a (ix c) (ix d) * y (ix d))%R).
  { intros ix Hc Hd. unfold F2. rewrite Vx, Va, Vy by assumption. reflexivity. }
  destruct (@system_solutions number_op C objs data [e1; e2] names [([d], F1); ([c; d], F2)] Ar Gv) as (residuals & ES & Z).
  - constructor; [split; [exact R1|]|constructor; [split; [exact R2|]|constructor]]; cbn [fst snd].
    + intros ix W. rewrite V1 by (apply W; now left). discriminate.
    + intros ix W. rewrite V2 by (apply W; cbn; auto). discriminate.
  - cbn. unfold m, n in L. lia.
  - exists [e1; e2], residuals. split; [exact E|]. split; [exact ES|]. rewrite Z. clear Z ES. split.
    + intros H. inversion H as [|? ? H1 H']; subst. inversion H' as [|? ? H2 _]; subst. cbn [fst snd] in H1, H2.
      assert (X : forall i j, i < m -> j < n -> x i j = (a i j * y j)%R).
      { intros i j Hi Hj. specialize (H2 (at2 (fun _ => 0) c d i j)). unfold at2 in H2. rewrite V2 in H2.
        - assert (U : upd (upd (fun _ => 0) c i) d j c = i) by (rewrite upd_other, upd_same; congruence). rewrite upd_same, U in H2. 
          assert (H3 : (x i j - a i j * y j)%R = 0%R); [|lra]. cut (Some (x i j - a i j * y j)%R = Some 0%R); [now injection 1|]. apply H2.
          intros e [<-|[<-|[]]]; [rewrite U|rewrite upd_same]; assumption.
        - rewrite upd_other, upd_same; congruence.
        - now rewrite upd_same. }
      intros j Hj. split; [|intros i Hi; now apply X]. destruct (NZ j Hj) as (Ny & Np). specialize (H1 (upd (fun _ => 0) d j)). rewrite V1 in H1 by now rewrite upd_same.
      rewrite upd_same in H1. assert (H3 : (y j - sum_n (fun i => q i j * x i j) m / p j)%R = 0%R).
      { cut (Some (y j - sum_n (fun i => q i j * x i j) m / p j)%R = Some 0%R); [now injection 1|]. apply H1. intros e [<-|[]]. now rewrite upd_same. }
      rewrite (@sum_n_ext (fun i => q i j * x i j)%R (fun i => y j * (q i j * a i j))%R m) in H3 by (intros i Hi; rewrite X by assumption; ring).
      rewrite sum_n_scale in H3. apply (Rmult_eq_reg_l (y j)); [|exact Ny]. set (T := sum_n (fun i => q i j * a i j)%R m) in *.
      replace (y j * p j)%R with ((y j - y j * T / p j) * p j + y j * T)%R by (field; exact Np). rewrite H3. ring.
    + intros H. constructor; [|constructor; [|constructor]]; cbn [fst snd].
      * intros ix W. assert (Hd : ix d < n) by (apply W; now left). rewrite V1 by exact Hd. f_equal. destruct (H _ Hd) as (Hp & Hx). destruct (NZ _ Hd) as (Ny & Np).
        rewrite (@sum_n_ext _ (fun i => y (ix d) * (q i (ix d) * a i (ix d)))%R m) by (intros i Hi; rewrite Hx by exact Hi; ring). rewrite sum_n_scale, <- Hp. field. exact Np.
      * intros ix W. assert (Hc : ix c < m) by (apply W; cbn; auto). assert (Hd : ix d < n) by (apply W; cbn; auto). rewrite V2 by assumption. f_equal. destruct (H _ Hd) as (_ & Hx).
        rewrite (Hx _ Hc). lra.
Qed.
