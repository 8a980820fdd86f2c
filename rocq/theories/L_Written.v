(** C110: solutions of the compiled system are solutions of the texts. *)
From Coq Require Import Ascii Reals Lra Lia ZArith.
From Verif Require Import Py PyStr NdArray M_Primitives M_Utilities M_PyExpr M_Expand M_Graph M_SymExpr M_Calculus M_Simplify M_Lambdify M_NumbaModel M_SympyTensor M_Equations M_Tensor M_Parse.
From Verif Require Import S_PyExpr S_Meaning S_Production S_Layout S_Tensor S_Calculus S_Reduce S_Simplify S_Lambdify S_NumbaModel S_SympyTensor S_Parse S_Written.
From Verif Require Import L_Markers L_Reduce5 L_PyExpr L_Production6 L_ArrayModel L_Simplify L_Simplify2 L_Lambdify L_NumbaModel L_SympyTensor2 L_Solved L_Tensor3 L_Parse L_Parse2 L_Parse3 L_Parse4.
Local Open Scope string_scope.
Local Open Scope list_scope.

Lemma lift_map_ext (f g : nat -> option R) l : (forall k, f k = g k) -> map f l = map g l.
Proof. intros H. apply map_ext. exact H. Qed.

(** The value of an expression depends on the indices that run in it only *)
Lemma eval_same c objs d sums e : NoDup (map o_name objs) -> index_notation c objs sums e -> forall ix ix',
  (forall x, runs_over objs x e -> ix x = ix' x) -> eval (array_values objs d) ix e = eval (array_values objs d) ix' e.
Proof.
  intros ND. induction 1 as [sums w n E|sums o I N K|sums op a b Ha IHa Hb IHb|sums a Ha IHa|sums a i j Ha IHa Ii Ij E|body i lo hi m n labels Hb IHb NS D Lo Hi L1 L2]; intros ix ix' S.
  - cbn. now rewrite E.
  - cbn. rewrite N. unfold array_values. rewrite (@find_name objs o ND I). destruct (dget (o_name o) d) as [arr|]; [|reflexivity].
    replace (map ix' (o_dims o)) with (map ix (o_dims o)); [reflexivity|]. apply map_ext_in. intros x Ix. apply S. now apply ro_word.
  - cbn. rewrite (IHa ix ix'), (IHb ix ix'); [reflexivity| |]; intros x R; apply S; [now apply ro_right|now apply ro_left].
  - cbn. rewrite (IHa ix ix'); [reflexivity|]. intros x R; apply S. now apply ro_neg.
  - cbn. apply IHa. intros x R. unfold upd. destruct (String.eqb_spec i x) as [<-|Q].
    + apply S. now apply ro_put.
    + apply S. apply ro_kept; [exact R|congruence].
  - unfold sum_over. cbn. rewrite Lo, Hi. f_equal. apply lift_map_ext. intros k. apply IHb. intros x R. unfold upd. destruct (String.eqb_spec i x) as [<-|Q]; [reflexivity|].
    apply S. apply ro_sum; [exact R|congruence].
Qed.

Lemma keyword_notation c objs sums e : index_notation c objs sums e -> keyword_free e = true.
Proof. intros H. rewrite <- (app_nil_r objs) in H. eapply notation_keyword; exact H. Qed.

Lemma equation_meaning c objs s el er : indexed_equation c objs s el er -> (forall a b, s <> (a ++ "axis=" ++ b)%string) -> forall rho ix, meaning rho ix (normalize_eq s) = eval rho ix (EBin Sub el er).
Proof.
  intros (lhs & rhs & -> & Hl & Hr & Nl & Nr) NA rho ix. unfold meaning.
  destruct (@c54_difference__p lhs rhs el er Hl Hr) as (E & _).
  - intros a b Q. exfalso. exact (@no_equal_sign lhs el Hl (keyword_notation Nl) a b Q).
  - destruct (ends_with "axis" lhs) eqn:X; [|reflexivity]. apply ends_with_spec in X as (t & ->). exfalso. apply (NA t rhs). now rewrite sapp_assoc.
  - now rewrite E.
Qed.
Lemma equations_sides c objs texts : Forall (equation_in c objs) texts -> exists sides, Forall2 (fun s lr => indexed_equation c objs s (fst lr) (snd lr) /\ forall rho ix, meaning rho ix (normalize_eq s) = eval rho ix (EBin Sub (fst lr) (snd lr))) texts sides.
Proof.
  induction 1 as [|s texts ((el & er & IE) & NA) F (sides & IH)]; [exists []; constructor|]. exists ((el, er) :: sides). constructor; [|exact IH]. split; [exact IE|]. now apply equation_meaning with (c := c) (objs := objs).
Qed.

Definition no_empty_dim (c : dict (list string)) : Prop := forall x labels, dget x c = Some labels -> labels <> [].
(** Positions of some dims, completed *)
Definition completed (dims : list string) (ix : indices) : indices := fun x => if existsb (String.eqb x) dims then ix x else 0.
Lemma completed_in dims ix x : In x dims -> completed dims ix x = ix x.
Proof. intros I. unfold completed. replace (existsb (String.eqb x) dims) with true; [reflexivity|]. symmetry. apply existsb_exists. exists x. split; [exact I|apply String.eqb_refl]. Qed.
Lemma completed_everywhere c dims ix : no_empty_dim c -> (forall x, In x dims -> ix x < size (lab_coords c) x) -> everywhere c (completed dims ix).
Proof.
  intros NE W x I. unfold completed. destruct (existsb (String.eqb x) dims) eqn:X.
  - apply W. apply existsb_exists in X as (y & Iy & E). apply String.eqb_eq in E. now subst.
  - apply (proj1 (dget_Some_key x c)) in I as (labels & D). rewrite (@size_lab c x labels D). specialize (NE x labels D). destruct labels; [easy|cbn; lia].
Qed.

Lemma Forall2_right {A B} (P : A -> B -> Prop) l l' y : Forall2 P l l' -> In y l' -> exists x, In x l /\ P x y.
Proof. induction 1 as [|a b l l' H F IH]; [easy|]. intros [<-|I]; [exists a; split; [now left|exact H]|]. destruct (IH I) as (x & Ix & Q). exists x. split; [now right|exact Q]. Qed.
Lemma Forall2_left {A B} (P : A -> B -> Prop) l l' x : Forall2 P l l' -> In x l -> exists y, In y l' /\ P x y.
Proof. induction 1 as [|a b l l' H F IH]; [easy|]. intros [<-|I]; [exists b; split; [now left|exact H]|]. destruct (IH I) as (y & Iy & Q). exists y. split; [now right|exact Q]. Qed.

Section Solutions.
Context (c : dict (list string)) (objs : list mobj) (d : dict (arr R)) (texts : list string) (sides : list (pexpr * pexpr)).
Hypothesis ND : NoDup (map o_name objs).
Hypothesis NK : NoDup (dkeys c).
Hypothesis DE : forall o, In o objs -> S_Simplify.declared c o.
Hypothesis NE : no_empty_dim c.
Hypothesis F : Forall2 (fun s lr => indexed_equation c objs s (fst lr) (snd lr) /\ forall rho ix, meaning rho ix (normalize_eq s) = eval rho ix (EBin Sub (fst lr) (snd lr))) texts sides.
Local Notation rho := (array_values objs d).
Local Notation value := (fun (lr : pexpr * pexpr) ix => eval rho ix (EBin Sub (fst lr) (snd lr))).

Lemma side_text lr : In lr sides -> exists s, In s texts /\ indexed_equation c objs s (fst lr) (snd lr) /\ forall ix, meaning rho ix (normalize_eq s) = value lr ix.
Proof. intros I. destruct (@Forall2_right _ _ _ _ _ _ F I) as (s & Is & IE & M). exists s. split; [exact Is|]. split; [exact IE|]. intros ix. apply M. Qed.
Lemma text_side s : In s texts -> exists lr, In lr sides /\ indexed_equation c objs s (fst lr) (snd lr) /\ forall ix, meaning rho ix (normalize_eq s) = value lr ix.
Proof. intros I. destruct (@Forall2_left _ _ _ _ _ _ F I) as (lr & Is & IE & M). exists lr. split; [exact Is|]. split; [exact IE|]. intros ix. apply M. Qed.
Lemma value_completed lr dims ix : In lr sides -> dims_of_text c objs (EBin Sub (fst lr) (snd lr)) dims -> value lr ix = value lr (completed dims ix).
Proof.
  intros I (_ & _ & D). destruct (@side_text lr I) as (s & _ & IE & _). pose proof IE as (lhs & rhs & _ & _ & _ & Nl & Nr).
  assert (N : index_notation c objs true (EBin Sub (fst lr) (snd lr))) by now constructor.
  apply (@eval_same c objs d true _ ND N). intros x R. symmetry. apply completed_in. apply D. split; [|exact R]. eapply (@runs_known c objs true); [exact DE|exact N|exact R].
Qed.

Hypothesis DF : forall s ix, In s texts -> everywhere c ix -> meaning rho ix (normalize_eq s) <> None.
Lemma defined_sides lr dims : In lr sides -> dims_of_text c objs (EBin Sub (fst lr) (snd lr)) dims -> defined_on (lab_coords c) dims (value lr).
Proof.
  intros I D ix W. rewrite (@value_completed lr dims ix I D). destruct (@side_text lr I) as (s & Is & _ & M). rewrite <- M. apply DF; [exact Is|]. now apply completed_everywhere.
Qed.

Lemma blocks_solved blocks : Forall2 (fun lr block => exists dims, dims_of_text c objs (EBin Sub (fst lr) (snd lr)) dims /\ block_of (lab_coords c) dims (value lr) block) sides blocks ->
  (forall y, In y (List.concat blocks) -> y = 0%R) <-> (forall s ix, In s texts -> everywhere c ix -> holds rho ix s).
Proof.
  intros FB. split.
  - intros Z s ix Is W. destruct (@text_side s Is) as (lr & I & IE & M). unfold holds. rewrite M.
    assert (X : exists b dims, dims_of_text c objs (EBin Sub (fst lr) (snd lr)) dims /\ block_of (lab_coords c) dims (value lr) b /\ forall y, In y b -> y = 0%R).
    { destruct (@Forall2_left _ _ _ _ _ _ FB I) as (b & Ib & dims & D & B). exists b, dims. split; [exact D|]. split; [exact B|]. intros y Iy. apply Z. apply in_concat. eauto. }
    destruct X as (b & dims & D & B & Zb). refine (proj1 (@block_zero (lab_coords c) dims _ b (proj1 D) B) Zb ix _). intros y Iy. apply W. apply D. exact Iy.
  - intros H y Iy. apply in_concat in Iy as (b & Ib & Iy).
    assert (X : exists lr dims, In lr sides /\ dims_of_text c objs (EBin Sub (fst lr) (snd lr)) dims /\ block_of (lab_coords c) dims (value lr) b).
    { destruct (@Forall2_right _ _ _ _ _ _ FB Ib) as (lr & I & dims & D & B). exists lr, dims. auto. }
    destruct X as (lr & dims & I & D & B). refine (proj2 (@block_zero (lab_coords c) dims _ b (proj1 D) B) _ y Iy). intros ix W. rewrite (@value_completed lr dims ix I D).
    destruct (@side_text lr I) as (s & Is & _ & M). rewrite <- M. apply H; [exact Is|]. now apply completed_everywhere.
Qed.
End Solutions.

Lemma sides_plain c objs texts sides : Forall2 (fun s lr => indexed_equation c objs s (fst lr) (snd lr) /\ forall rho ix, meaning rho ix (normalize_eq s) = eval rho ix (EBin Sub (fst lr) (snd lr))) texts sides ->
  Forall2 (fun s lr => indexed_equation c objs s (fst lr) (snd lr)) texts sides.
Proof. induction 1 as [|s lr texts sides (H & _) F IH]; constructor; auto. Qed.

Lemma c110_solved__p :
  forall other sub_into set_order dict_order evaluates cse order c vars params texts d x theta,
    numba_model other set_order dict_order evaluates cse order c vars params texts d x theta ->
    exists r, numba_returns other sub_into set_order dict_order evaluates cse order c vars params texts x theta r /\
      (vanishes r <-> forall s ix, In s texts -> everywhere c ix -> holds (array_values (vars ++ params) d) ix s).
Proof.
  intros other si so do_ ev cse order c vars params texts d x theta (WS & WD & EC & VN & TN & (v & w & uv & up & DC & AR & NM) & EI & UD & DF).
  destruct (@equations_sides _ _ _ EI) as (sides & FS). pose proof DC as (PL & NK & _ & _ & _ & _ & ND). pose proof AR as (HD & _).
  assert (NE : no_empty_dim c) by (intros y labels E; apply (PL y labels E)).
  assert (DE : forall o, In o (vars ++ params) -> S_Simplify.declared c o) by (intros o I; apply (HD o I)).
  destruct (@c109_numba__p other si so do_ ev cse order WS WD EC c vars params texts sides d v w uv up x theta DC AR VN TN NM (sides_plain FS)) as (eqs & E & H).
  { intros lr dims. apply (@defined_sides c (vars ++ params) d texts sides ND DE NE FS DF). }
  destruct H as (f & blocks & CF & FB & NS & _); [intros lr I; eapply UD; eauto|]. exists (List.concat blocks). split; [exists eqs, f; auto|].
  apply (@blocks_solved c (vars ++ params) d texts sides ND DE NE FS blocks FB).
Qed.

Lemma c110_solved_sympytensor__p :
  forall other sub_into set_order dict_order evaluates order, walks_set set_order -> walks_set dict_order ->
  forall c vars params texts d v w uv up x theta,
    declaration order c vars params uv up -> arguments c vars params d v w x theta -> vars <> [] -> texts <> [] ->
    ~ In "hess_point"%string (map make_indexed_name (uv ++ up)) ->
    Forall (equation_in c (vars ++ params)) texts -> undecided other evaluates c vars params texts ->
    (forall equations o, sympy_equations other c vars params texts = Ok equations -> In o (vars ++ params) -> exists lr es, In lr equations /\
       equation_symbols sub_into set_order dict_order evaluates c None (uv ++ up) (fst lr) (snd lr) = Ok es /\ occurs_in c es o) ->
    (forall s ix, In s texts -> everywhere c ix -> meaning (array_values (vars ++ params) d) ix (normalize_eq s) <> None) ->
    exists r, sympytensor_returns other sub_into set_order dict_order evaluates order c vars params texts d r /\
      (vanishes r <-> forall s ix, In s texts -> everywhere c ix -> holds (array_values (vars ++ params) d) ix s).
Proof.
  intros other si so do_ ev order WS WD c vars params texts d v w uv up x theta DC AR VN TN NH EI UD OC DF.
  destruct (@equations_sides _ _ _ EI) as (sides & FS). pose proof DC as (PL & NK & _ & _ & _ & _ & ND). pose proof AR as (HD & _).
  assert (NE : no_empty_dim c) by (intros y labels E; apply (PL y labels E)).
  assert (DE : forall o, In o (vars ++ params) -> S_Simplify.declared c o) by (intros o I; apply (HD o I)).
  destruct (@c109_sympytensor__p other si so do_ ev order WS WD c vars params texts sides d v w uv up x theta DC AR VN TN NH (sides_plain FS)) as (eqs & E & H).
  { intros lr dims. apply (@defined_sides c (vars ++ params) d texts sides ND DE NE FS DF). }
  destruct H as (f & blocks & CF & FB & NS & _); [intros lr I; eapply UD; eauto|intros o I; apply (OC eqs o E I)|]. exists (List.concat blocks). split; [exists eqs, f; auto|].
  apply (@blocks_solved c (vars ++ params) d texts sides ND DE NE FS blocks FB).
Qed.

Lemma zero_holds other sub_into set_order dict_order evaluates cse order c vars params texts d x theta r :
  numba_model other set_order dict_order evaluates cse order c vars params texts d x theta ->
  numba_returns other sub_into set_order dict_order evaluates cse order c vars params texts x theta r -> vanishes r ->
  forall s ix, In s texts -> everywhere c ix -> holds (array_values (vars ++ params) d) ix s.
Proof.
  intros M (eqs & f & E & CF & NS) Z. destruct (@c110_solved__p other sub_into _ _ _ _ _ _ _ _ _ _ _ _ M) as (r' & (eqs' & f' & E' & CF' & NS') & H).
  assert (eqs' = eqs) as -> by congruence. assert (f' = f) as -> by (rewrite CF in CF'; congruence). apply H. assert (r' = r) as -> by congruence. exact Z.
Qed.
