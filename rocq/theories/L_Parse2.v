(** C109: the residuals of equation texts in the three backends. *)
From Coq Require Import Ascii Reals Lra Lia ZArith.
From Verif Require Import Py PyStr NdArray M_Primitives M_Utilities M_PyExpr M_Expand M_Graph M_SymExpr M_Calculus M_Simplify M_Lambdify M_NumbaModel M_SympyTensor M_Equations M_Tensor M_Parse.
From Verif Require Import S_PyExpr S_Meaning S_Production S_Layout S_Tensor S_Calculus S_Reduce S_Simplify S_Lambdify S_NumbaModel S_SympyTensor S_Parse.
From Verif Require Import L_PyExpr L_Production6 L_ArrayModel L_Simplify L_Simplify2 L_Lambdify L_NumbaModel L_SympyTensor2 L_Solved L_Tensor3 L_Parse.
Local Open Scope string_scope.
Local Open Scope list_scope.

Lemma size_lab c x all : dget x c = Some all -> size (lab_coords c) x = length all.
Proof. intros E. unfold size. rewrite dget_lab, E. cbn. apply map_length. Qed.
Lemma shape_sizes c dims shape : dims_shape c dims shape -> map (size (lab_coords c)) dims = shape.
Proof. induction 1 as [|x n dims shape (all & E & L) D IH]; [reflexivity|]. cbn [map]. now rewrite (@size_lab c x all E), L, IH. Qed.
Lemma dims_have_shape c dims : (forall x, In x dims -> In x (dkeys c)) -> exists shape, dims_shape c dims shape.
Proof.
  induction dims as [|x dims IH]; intros H; [exists []; constructor|]. destruct IH as (shape & D); [intros y I; apply H; now right|].
  destruct (proj1 (dget_Some_key x c) (H x (or_introl eq_refl))) as (all & E). exists (length all :: shape). constructor; [eauto|exact D].
Qed.
(** Positions as a function of the dim *)
Definition at_pos (dims : list string) (idx : list nat) : indices := fun x => match dget x (combine dims idx) with Some k => k | None => 0 end.
Lemma at_pos_map dims : forall idx, NoDup dims -> length dims = length idx -> map (at_pos dims idx) dims = idx.
Proof.
  induction dims as [|x dims IH]; intros [|k idx] N L; try discriminate; [reflexivity|]. inversion N as [|? ? Nx Nd]; subst. cbn [map]. f_equal.
  - unfold at_pos. cbn. now rewrite String.eqb_refl.
  - rewrite <- (IH idx Nd) at 2 by (now injection L). apply map_ext_in. intros y Iy. unfold at_pos. cbn [combine dget fst snd]. destruct (String.eqb_spec y x) as [->|Ny]; [easy|reflexivity].
Qed.
Lemma labels_assign c dims ix ls : NoDup dims -> labels_of c dims (map ix dims) ls -> forall x, In x dims -> assign dims ls x = label_at c x (ix x).
Proof.
  intros N (_ & F). revert ls N F. induction dims as [|y dims IH]; intros ls N F x I; [easy|]. cbn in F. inversion F as [|? l ? ls' (all & A & B) F']; subst. inversion N as [|? ? Ny Nd]; subst.
  unfold assign. cbn [combine dget fst snd]. destruct (String.eqb_spec x y) as [->|Nx].
  - cbn in A, B. unfold label_at. now rewrite A, B.
  - destruct I as [I|I]; [congruence|]. exact (IH ls' Nd F' x I).
Qed.
Lemma in_range_sizes c dims (ix : indices) shape : dims_shape c dims shape -> (forall x, In x dims -> ix x < size (lab_coords c) x) -> in_range shape (map ix dims).
Proof.
  intros D. induction D as [|x n dims shape (all & E & L) D IH]; intros H; [constructor|]. cbn [map]. constructor; [|apply IH; intros y I; apply H; now right].
  rewrite <- L, <- (@size_lab c x all E). apply H. now left.
Qed.
Lemma in_range_pos c dims (ix : indices) shape : dims_shape c dims shape -> in_range shape (map ix dims) -> forall x, In x dims -> ix x < size (lab_coords c) x.
Proof.
  intros D. induction D as [|y n dims shape (all & E & L) D IH]; intros R x I; [easy|]. cbn [map] in R. inversion R; subst. destruct I as [->|I]; [now rewrite (@size_lab c x all E)|now apply IH].
Qed.

(** Dims that run are dims of the model *)
Lemma runs_known c objs sums e x : (forall o, In o objs -> declared c o) -> index_notation c objs sums e -> runs_over objs x e -> In x (dkeys c).
Proof.
  intros DE H. revert x. induction H as [sums wd n N|sums o I N K|sums op a b Ha IHa Hb IHb|sums a Ha IHa|sums a i j Ha IHa Ii Ij L|body i lo hi m n labels Ha IHa NS L Lo Hi Le Lt]; intros x R.
  - inversion R as [o I' N' D' E| | | | | |]; subst. congruence.
  - inversion R as [o' I' N' D' E| | | | | |]; subst. now apply (DE o' I').
  - apply ro_op in R as [R|R]; auto.
  - exact (IHa x (proj1 (@ro_minus objs x a) R)).
  - apply ro_change in R as [(R & _)|(-> & R)]; auto.
  - apply ro_total in R as (R & _). auto.
Qed.

Section Texts.
Variables (other : pexpr -> res sexpr) (c : dict (list string)) (vars params : list mobj) (d : dict (arr R)) (v : elements) (w : scalars) (x theta : list R).
Let objs := vars ++ params.
Let rho := array_values objs d.
Hypothesis (NK : NoDup (dkeys c)) (ND : NoDup (map o_name objs)) (HD : has_data c objs d) (DA : data_of c objs d v w).

Lemma declared_all o : In o objs -> declared c o. Proof. intros I. apply (HD o I). Qed.
Lemma arrays_all o : In o objs -> exists a, dget (o_name o) d = Some a /\ fits (lab_coords c) o a. Proof. intros I. apply (HD o I). Qed.

Lemma text_sides s el er : indexed_equation c objs s el er -> exists lr, sympy_sides other c vars params s = Ok lr /\
  flat_reductions c (axes_of c objs) (written lr) /\ (forall y, occurs_free y (written lr) <-> runs_over objs y (EBin Sub el er)) /\ read_as c vars params d v w (EBin Sub el er) (written lr).
Proof. apply (@sides_of other c vars params d v w ND declared_all arrays_all DA). Qed.

Lemma equation_known s el er y : indexed_equation c objs s el er -> runs_over objs y (EBin Sub el er) -> In y (dkeys c).
Proof. intros (lhs & rhs & _ & _ & _ & Nl & Nr). apply (@runs_known c objs true). - exact declared_all. - now constructor. Qed.

(** The value at the labels of a position *)
Lemma text_value s el er lr dims ix ls r : indexed_equation c objs s el er ->
  (forall y, occurs_free y (written lr) <-> runs_over objs y (EBin Sub el er)) -> read_as c vars params d v w (EBin Sub el er) (written lr) ->
  dims_of_text c objs (EBin Sub el er) dims -> labels_of c dims (map ix dims) ls -> eval rho ix (EBin Sub el er) = Some r ->
  den c v w (assign dims ls) (written lr) = Some r.
Proof.
  intros IE O V (N & _ & ID) L E. apply (V ix); [|exact E]. intros y Hy. apply (@labels_assign c dims ix ls N L). apply ID. apply O in Hy. split; [eapply equation_known; eauto|exact Hy].
Qed.
Lemma dims_equation el er lr dims : (forall y, occurs_free y (written lr) <-> runs_over objs y (EBin Sub el er)) ->
  (equation_dims c (written lr) dims <-> dims_of_text c objs (EBin Sub el er) dims).
Proof.
  intros O. unfold equation_dims, dims_of_text. split; intros (N & F & I); (split; [exact N|split; [exact F|]]); intros y; rewrite I, O; reflexivity.
Qed.
Lemma dims_in el er dims : dims_of_text c objs (EBin Sub el er) dims -> forall y, In y dims -> In y (dkeys c).
Proof. intros (_ & _ & I) y Iy. now apply I. Qed.

Definition is_defined (el er : pexpr) : Prop := forall dims, dims_of_text c objs (EBin Sub el er) dims -> defined_on (lab_coords c) dims (fun ix => eval rho ix (EBin Sub el er)).

Lemma text_has_value s el er lr : indexed_equation c objs s el er ->
  (forall y, occurs_free y (written lr) <-> runs_over objs y (EBin Sub el er)) -> read_as c vars params d v w (EBin Sub el er) (written lr) ->
  is_defined el er -> has_value c v w lr.
Proof.
  intros IE O V DF dims ls ED EL. apply (@dims_equation el er lr _ O) in ED. destruct (@element_labels c dims ls EL) as (idx & L).
  assert (N : NoDup dims) by apply ED. destruct (@dims_have_shape c dims (@dims_in el er dims ED)) as (shape & DS).
  assert (M : map (at_pos dims idx) dims = idx) by (apply at_pos_map; [exact N|apply L]).
  assert (IR : in_range shape (map (at_pos dims idx) dims)) by (rewrite M; eapply labels_range; eauto).
  specialize (DF dims ED (at_pos dims idx) (@in_range_pos c dims (at_pos dims idx) shape DS IR)). cbv beta in DF.
  destruct (eval rho (at_pos dims idx) (EBin Sub el er)) as [r|] eqn:E; [|easy]. rewrite (@text_value s el er lr dims (at_pos dims idx) ls r IE O V ED); [discriminate|now rewrite M|exact E].
Qed.

Definition text_block (el er : pexpr) (block : list R) : Prop := exists dims, dims_of_text c objs (EBin Sub el er) dims /\
  block_of (lab_coords c) dims (fun ix => eval rho ix (EBin Sub el er)) block.

Lemma text_residuals s el er lr block : indexed_equation c objs s el er ->
  (forall y, occurs_free y (written lr) <-> runs_over objs y (EBin Sub el er)) -> read_as c vars params d v w (EBin Sub el er) (written lr) ->
  is_defined el er -> residuals c v w lr block -> text_block el er block.
Proof.
  intros IE O V DF (dims & shape & ED & DS & LB & RB). apply (@dims_equation el er lr _ O) in ED. exists dims. split; [exact ED|]. unfold block_of. rewrite (@shape_sizes c dims shape DS). split; [exact LB|].
  intros ix W. pose proof (@in_range_sizes c dims ix shape DS W) as IR. destruct (@labels_exist c dims shape _ DS IR) as (ls & L). rewrite (RB _ _ L).
  specialize (DF dims ED ix W). cbv beta in DF. destruct (eval rho ix (EBin Sub el er)) as [r|] eqn:E; [|easy]. eapply text_value; eauto.
Qed.

Lemma texts_sides texts sides : Forall2 (fun s lr => indexed_equation c objs s (fst lr) (snd lr)) texts sides ->
  (forall lr, In lr sides -> is_defined (fst lr) (snd lr)) ->
  exists equations, sympy_equations other c vars params texts = Ok equations /\
    (forall lr, In lr equations -> flat_reductions c (axes_of c objs) (written lr) /\ has_value c v w lr) /\
    forall blocks, Forall2 (residuals c v w) equations blocks -> Forall2 (fun lr => text_block (fst lr) (snd lr)) sides blocks.
Proof.
  induction 1 as [|s (el, er) texts sides IE F IH]; intros DF.
  - exists []. split; [reflexivity|]. split; [easy|]. intros blocks H. inversion H. constructor.
  - destruct IH as (eqs & E & P & B); [intros lr I; apply DF; now right|]. cbn [fst snd] in IE. destruct (@text_sides s el er IE) as (lr & El & Fl & O & V).
    pose proof (DF (el, er) (or_introl eq_refl)) as D0. cbn [fst snd] in D0. exists (lr :: eqs). unfold sympy_equations in *. cbn [map_res]. rewrite El, E. split; [reflexivity|]. split.
    + intros q [<-|I]; [|now apply P]. split; [exact Fl|]. exact (@text_has_value s el er lr IE O V D0).
    + intros blocks H. inversion H as [|? b ? bs Hb Hbs]; subst. constructor; [|now apply B]. exact (@text_residuals s el er lr b IE O V D0 Hb).
Qed.
End Texts.

Lemma c109_numba__p :
  forall other sub_into set_order dict_order evaluates cse order, walks_set set_order -> walks_set dict_order -> eliminates cse ->
  forall c vars params texts sides d v w uv up x theta,
    declaration order c vars params uv up -> arguments c vars params d v w x theta -> vars <> [] -> texts <> [] ->
    (forall n, In n (map make_indexed_name (uv ++ up)) -> M_Lambdify.is_name n = true /\ ~ In n reserved) ->
    let objs := vars ++ params in
    let value lr ix := eval (array_values objs d) ix (EBin Sub (fst lr) (snd lr)) in
    let dims_are lr dims := dims_of_text c objs (EBin Sub (fst lr) (snd lr)) dims in
    Forall2 (fun s lr => indexed_equation c objs s (fst lr) (snd lr)) texts sides ->
    (forall lr dims, In lr sides -> dims_are lr dims -> defined_on (lab_coords c) dims (value lr)) ->
    exists equations, sympy_equations other c vars params texts = Ok equations /\
      ((forall lr, In lr equations -> evaluates (fst lr) (snd lr) = false) ->
       exists f blocks, compile_numba_cge_functions sub_into set_order dict_order evaluates cse order c None vars params equations = Ok f /\
         Forall2 (fun lr block => exists dims, dims_are lr dims /\ block_of (lab_coords c) dims (value lr) block) sides blocks /\
         nf_system f x theta = Ok (OVec (List.concat blocks)) /\
         nf_resid f x theta = Ok (OScalar (/ 2 * rsum (map (fun r => r * r) (List.concat blocks)))%R)).
Proof.
  intros other si so do_ ev cse order WS WD EC c vars params texts sides d v w uv up x theta (PL & NK & _ & EV & EP & NN & ND) (HD & _ & FL & DA) VN TN NM objs value dims_are F DF.
  destruct (@texts_sides other c vars params d v w ND HD DA texts sides F) as (eqs & E & P & B); [intros lr I dims; apply DF; exact I|].
  exists eqs. split; [exact E|]. intros EV0.
  destruct (@c81_system__p si so do_ ev cse order WS WD EC c (axes_of c objs) None vars params eqs d v w uv up x theta PL NK HD EV EP NN NM FL DA Logic.I VN) as (f & CF & blocks & RB & S1 & S2).
  - intros ->. destruct texts as [|s ts]; [easy|]. unfold sympy_equations in E. cbn in E. destruct (sympy_sides other c vars params s); [|discriminate]. cbn in E. destruct (map_res _ ts); discriminate.
  - intros lr I. destruct (P lr I) as (P1 & P2). split; [exact P1|]. split; [exact P2|]. apply (@c73_accepted__p si so do_ ev WS WD c (axes_of c objs) (uv ++ up) (fst lr) (snd lr) PL NK P1). now apply EV0.
  - exists f, blocks. split; [exact CF|]. split; [exact (B blocks RB)|]. auto.
Qed.

Lemma c109_sympytensor__p :
  forall other sub_into set_order dict_order evaluates order, walks_set set_order -> walks_set dict_order ->
  forall c vars params texts sides d v w uv up x theta,
    declaration order c vars params uv up -> arguments c vars params d v w x theta -> vars <> [] -> texts <> [] ->
    ~ In "hess_point"%string (map make_indexed_name (uv ++ up)) ->
    let objs := vars ++ params in
    let value lr ix := eval (array_values objs d) ix (EBin Sub (fst lr) (snd lr)) in
    let dims_are lr dims := dims_of_text c objs (EBin Sub (fst lr) (snd lr)) dims in
    Forall2 (fun s lr => indexed_equation c objs s (fst lr) (snd lr)) texts sides ->
    (forall lr dims, In lr sides -> dims_are lr dims -> defined_on (lab_coords c) dims (value lr)) ->
    exists equations, sympy_equations other c vars params texts = Ok equations /\
      ((forall lr, In lr equations -> evaluates (fst lr) (snd lr) = false) ->
       (forall o, In o objs -> exists lr es, In lr equations /\
          equation_symbols sub_into set_order dict_order evaluates c None (uv ++ up) (fst lr) (snd lr) = Ok es /\ occurs_in c es o) ->
       exists f blocks, compile_sympytensor_cge_functions sub_into set_order dict_order evaluates order c None vars params equations = Ok f /\
         Forall2 (fun lr block => exists dims, dims_are lr dims /\ block_of (lab_coords c) dims (value lr) block) sides blocks /\
         sf_system f d = Ok (List.concat blocks) /\
         sf_resid f d = Ok (/ 2 * rsum (map (fun r => r * r) (List.concat blocks)))%R).
Proof.
  intros other si so do_ ev order WS WD c vars params texts sides d v w uv up x theta DC AR VN TN NH objs value dims_are F DF.
  pose proof DC as (PL & NK & _ & EV & EP & NN & ND). pose proof AR as (HD & _ & FL & DA).
  destruct (@texts_sides other c vars params d v w ND HD DA texts sides F) as (eqs & E & P & B); [intros lr I dims; apply DF; exact I|].
  exists eqs. split; [exact E|]. intros EV0 OC.
  destruct (@c85_system__p si so do_ ev order WS WD c (axes_of c objs) vars params eqs uv up d v w x theta DC AR VN) as (f & CF & (blocks & RB & S1 & S2) & _); [| |exact OC|exact NH|].
  - intros ->. destruct texts as [|s ts]; [easy|]. unfold sympy_equations in E. cbn in E. destruct (sympy_sides other c vars params s); [|discriminate]. cbn in E. destruct (map_res _ ts); discriminate.
  - intros lr I. destruct (P lr I) as (P1 & P2). split; [exact P1|]. split; [exact P2|]. apply (@c73_accepted__p si so do_ ev WS WD c (axes_of c objs) (uv ++ up) (fst lr) (snd lr) PL NK P1). now apply EV0.
  - exists f, blocks. split; [exact CF|]. split; [exact (B blocks RB)|]. auto.
Qed.
