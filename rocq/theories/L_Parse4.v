(** C109: one equation at a time, and solutions. *)
From Coq Require Import Ascii Reals Lra Lia ZArith.
From Verif Require Import Py PyStr NdArray M_Primitives M_Utilities M_PyExpr M_Expand M_Graph M_SymExpr M_Calculus M_Simplify M_Lambdify M_NumbaModel M_SympyTensor M_Equations M_Tensor M_Parse.
From Verif Require Import S_PyExpr S_Meaning S_Production S_Layout S_Tensor S_Calculus S_Reduce S_Simplify S_Lambdify S_NumbaModel S_SympyTensor S_Parse.
From Verif Require Import L_Markers L_Reduce5 L_PyExpr L_Production6 L_ArrayModel L_Simplify L_Simplify2 L_Lambdify L_NumbaModel L_SympyTensor2 L_Solved L_Tensor3 L_Parse L_Parse2 L_Parse3.
Local Open Scope string_scope.
Local Open Scope list_scope.

Lemma c109_sides__p :
  forall other c vars params d v w, NoDup (map o_name (vars ++ params)) -> has_data c (vars ++ params) d -> data_of c (vars ++ params) d v w ->
  forall s el er, indexed_equation c (vars ++ params) s el er ->
    exists lr, sympy_sides other c vars params s = Ok lr /\
      (forall dims, equation_dims c (written lr) dims <-> dims_of_text c (vars ++ params) (EBin Sub el er) dims) /\
      forall dims ix ls r, dims_of_text c (vars ++ params) (EBin Sub el er) dims -> labels_of c dims (map ix dims) ls ->
        eval (array_values (vars ++ params) d) ix (EBin Sub el er) = Some r -> den c v w (assign dims ls) (written lr) = Some r.
Proof.
  intros other c vars params d v w ND HD DA s el er IE. destruct (@text_sides other c vars params d v w ND HD DA s el er IE) as (lr & E & _ & O & V).
  exists lr. split; [exact E|]. split; [intros dims; now apply dims_equation|]. intros dims ix ls r DT L EV. eapply text_value; eauto.
Qed.

(** A block vanishes when the equation holds at every position *)
Lemma block_zero c dims F block : NoDup dims -> block_of c dims F block -> (forall r, In r block -> r = 0%R) <-> (forall ix, (forall y, In y dims -> ix y < size c y) -> F ix = Some 0%R).
Proof.
  intros N (L & B). split.
  - intros Z ix W. rewrite <- B by exact W. destruct (nth_error block (offset (map (size c) dims) (map ix dims))) as [r|] eqn:E.
    + f_equal. apply Z. eapply nth_error_In; eauto.
    + exfalso. apply nth_error_None in E. rewrite L in E. assert (R : in_range (map (size c) dims) (map ix dims)).
      { clear - W. induction dims as [|x dims IH]; [constructor|]. cbn [map]. constructor; [apply W; now left|apply IH; intros y I; apply W; now right]. }
      apply offset_lt in R. lia.
  - intros Z r I. apply In_nth_error in I as (k & E). assert (K : k < prodn (map (size c) dims)) by (rewrite <- L; apply nth_error_Some; congruence).
    rewrite <- ndindex_length in K. destruct (nth_error (ndindex (map (size c) dims)) k) as [idx|] eqn:Ei; [|apply nth_error_None in Ei; lia].
    apply offset_nth_ndindex in Ei as (R & O). assert (Li : length dims = length idx) by (pose proof (L_Markers.in_range_len R) as Q; rewrite map_length in Q; now symmetry).
    assert (M : map (at_pos dims idx) dims = idx) by now apply at_pos_map.
    assert (W : forall y, In y dims -> at_pos dims idx y < size c y).
    { rewrite <- M in R. clear - R. revert R. generalize (at_pos dims idx). intros f R. induction dims as [|x dims IH]; [easy|]. cbn [map] in R. inversion R; subst. intros y [<-|I]; auto. }
    specialize (B _ W). rewrite (Z _ W), M, O, E in B. now injection B.
Qed.

Lemma c109_solved__p :
  forall other sub_into set_order dict_order evaluates cse order, walks_set set_order -> walks_set dict_order -> eliminates cse ->
  forall c vars params texts sides d v w uv up x theta,
    declaration order c vars params uv up -> arguments c vars params d v w x theta -> vars <> [] -> texts <> [] ->
    (forall n, In n (map make_indexed_name (uv ++ up)) -> M_Lambdify.is_name n = true /\ ~ In n reserved) ->
    let objs := vars ++ params in
    let value lr ix := eval (array_values objs d) ix (EBin Sub (fst lr) (snd lr)) in
    let dims_are lr dims := dims_of_text c objs (EBin Sub (fst lr) (snd lr)) dims in
    Forall2 (fun s lr => indexed_equation c objs s (fst lr) (snd lr)) texts sides ->
    (forall lr dims, In lr sides -> dims_are lr dims -> defined_on (lab_coords c) dims (value lr)) ->
    exists equations, sympy_equations other c vars params texts = Ok equations /\
      ((forall lr, In lr equations -> evaluates (fst lr) (snd lr) = false) ->
       exists f r, compile_numba_cge_functions sub_into set_order dict_order evaluates cse order c None vars params equations = Ok f /\
         nf_system f x theta = Ok (OVec r) /\
         ((forall y, In y r -> y = 0%R) <->
          (forall lr dims ix, In lr sides -> dims_are lr dims -> (forall y, In y dims -> ix y < size (lab_coords c) y) -> value lr ix = Some 0%R))).
Proof.
  intros other si so do_ ev cse order WS WD EC c vars params texts sides d v w uv up x theta DC AR VN TN NM objs value dims_are FS DF.
  destruct (@c109_numba__p other si so do_ ev cse order WS WD EC c vars params texts sides d v w uv up x theta DC AR VN TN NM FS DF) as (eqs & E & H).
  exists eqs. split; [exact E|]. intros EV0. destruct (H EV0) as (f & blocks & CF & FB & NS & _). exists f, (List.concat blocks). split; [exact CF|]. split; [exact NS|].
  pose proof DC as (_ & NK & _). clear - FB NK. split.
  - intros Z lr dims ix I D W. induction FB as [|lr0 b sides blocks (ds & D0 & BL) FB IH]; [easy|]. destruct I as [->|I].
    + rewrite (@dims_unique c objs _ dims ds NK D D0) in W. refine (proj1 (@block_zero (lab_coords c) ds _ b (proj1 D0) BL) _ ix W). intros r Ir. apply Z. cbn. apply in_app_iff. now left.
    + apply IH; [intros y Iy; apply Z; cbn; apply in_app_iff; now right|exact I].
  - intros Z. induction FB as [|lr0 b sides blocks (ds & D0 & BL) FB IH]; [easy|]. intros y Iy. cbn in Iy. apply in_app_iff in Iy as [Iy|Iy].
    + refine (proj2 (@block_zero (lab_coords c) ds _ b (proj1 D0) BL) _ y Iy). intros ix W. exact (Z lr0 ds ix (or_introl eq_refl) D0 W).
    + apply IH; [|exact Iy]. intros lr dims ix I. apply Z. now right.
Qed.
