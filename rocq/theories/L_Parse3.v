(** C109: the backends agree on the notation they share. *)
From Coq Require Import Ascii Reals Lra Lia ZArith.
From Verif Require Import Py PyStr NdArray M_Primitives M_Utilities M_PyExpr M_Expand M_Graph M_SymExpr M_Calculus M_Simplify M_Lambdify M_NumbaModel M_SympyTensor M_Equations M_Tensor M_Parse.
From Verif Require Import S_PyExpr S_Meaning S_Production S_Layout S_Tensor S_Calculus S_Reduce S_Simplify S_Lambdify S_NumbaModel S_SympyTensor S_Parse.
From Verif Require Import L_Reduce5 L_PyExpr L_Production6 L_ArrayModel L_Simplify L_Simplify2 L_Lambdify L_NumbaModel L_SympyTensor2 L_Solved L_Tensor3 L_Parse L_Parse2.
Local Open Scope string_scope.
Local Open Scope list_scope.

Lemma filter_ext_eq {A} (f g : A -> bool) l : (forall x, In x (filter f l) <-> In x (filter g l)) -> NoDup l -> filter f l = filter g l.
Proof.
  intros H N. apply filter_ext_in. intros x I. specialize (H x). rewrite !filter_In in H. destruct (f x), (g x); try reflexivity; exfalso; [destruct (proj1 H (conj I eq_refl)); discriminate|destruct (proj2 H (conj I eq_refl)); discriminate].
Qed.

Lemma arithmetic_notation c objs e : arithmetic e -> (forall o, In o objs -> ~ In (o_name o) (dkeys c)) ->
  (forall w, S_Tensor.mentions w e -> S_Meaning.number w = None -> exists o, In o objs /\ o_name o = w) -> index_notation c objs true e.
Proof.
  intros A K. induction A as [w|op a b Ha IHa Hb IHb|a Ha IHa]; intros H.
  - destruct (S_Meaning.number w) as [n|] eqn:E; [eapply in_number; eauto|]. destruct (H w (mn_word w) E) as (o & I & <-). apply in_object; auto.
  - apply in_op; [apply IHa; intros w M; apply H; now apply mn_left|apply IHb; intros w M; apply H; now apply mn_right].
  - apply in_neg, IHa. intros w M. apply H. now apply mn_neg.
Qed.
Lemma arithmetic_runs objs e x : arithmetic e -> (runs_over objs x e <-> exists o, In o objs /\ S_Tensor.mentions (o_name o) e /\ S_Meaning.number (o_name o) = None /\ In x (o_dims o)).
Proof.
  induction 1 as [w|op a b Ha IHa Hb IHb|a Ha IHa].
  - split; [intros H; inversion H as [o I N D E| | | | | |]; subst; exists o; repeat split; auto; constructor|]. intros (o & I & M & N & D). inversion M; subst. now apply ro_word.
  - rewrite ro_op, IHa, IHb. split.
    + intros [(o & I & M & N & D)|(o & I & M & N & D)]; exists o; repeat split; auto; [now apply mn_left|now apply mn_right].
    + intros (o & I & M & N & D). inversion M; subst; [left|right]; exists o; auto.
  - rewrite ro_minus, IHa. split; intros (o & I & M & N & D); exists o; repeat split; auto; [now apply mn_neg|now inversion M].
Qed.

(** The dims of a text in shared notation, when they are written in the order of the coords *)
Lemma shared_text c objs s ds : NoDup (map o_name objs) -> (forall o, In o objs -> S_Simplify.declared c o) -> (forall o, In o objs -> ~ In (o_name o) (dkeys c)) ->
  shared_notation objs s ds -> (exists f, ds = filter f (dkeys c)) ->
  exists el er, indexed_equation c objs s el er /\ dims_of_text c objs (EBin Sub el er) ds /\ forall rho ix, meaning rho ix (normalize_eq s) = eval rho ix (EBin Sub el er).
Proof.
  intros NN DE K (lhs & rhs & el & er & -> & Oa & Ea & Hl & Hr & Al & Ar & ND & W & T) FI. exists el, er. split; [|split].
  - exists lhs, rhs. repeat split; auto; (apply arithmetic_notation; [assumption|exact K|]); intros w M N; [destruct (W w (mn_left Sub er M) N) as (_ & o & I & E & _)|destruct (W w (mn_right Sub el M) N) as (_ & o & I & E & _)]; now exists o.
  - split; [exact ND|]. split; [exact FI|]. intros x. rewrite (@arithmetic_runs objs (EBin Sub el er) x (ar_op Sub Al Ar)). split.
    + intros I. destruct T as [->|(o & Io & M & N & D)]; [easy|]. rewrite <- D in I. split; [now apply (DE o Io)|exists o; auto].
    + intros (_ & o & I & M & N & D). destruct (W _ M N) as (_ & o' & I' & E & (l & S)). rewrite S. apply in_app_iff. right.
      now rewrite (@name_unique objs o' o NN I' I E).
  - intros rho ix. unfold meaning. now rewrite (proj1 (@c54_difference__p lhs rhs el er Hl Hr Oa Ea)).
Qed.

Lemma dims_unique c objs e ds ds' : NoDup (dkeys c) -> dims_of_text c objs e ds -> dims_of_text c objs e ds' -> ds = ds'.
Proof.
  intros NK (N1 & (f1 & E1) & I1) (N2 & (f2 & E2) & I2). rewrite E1, E2. apply filter_ext_eq; [|exact NK]. intros y. now rewrite <- E1, <- E2, I1, I2.
Qed.

Lemma c109_agree__p :
  forall other number_op sub_into set_order dict_order evaluates cse order, walks_set set_order -> walks_set dict_order -> eliminates cse -> real_arithmetic number_op ->
  forall c vars params texts dims names d v w uv up x theta,
    declaration order c vars params uv up -> arguments c vars params d v w x theta -> vars <> [] -> texts <> [] ->
    (forall n, In n (map make_indexed_name (uv ++ up)) -> M_Lambdify.is_name n = true /\ ~ In n reserved) ->
    ~ In "hess_point"%string (map make_indexed_name (uv ++ up)) ->
    let objs := vars ++ params in
    let value s ix := meaning (array_values objs d) ix (normalize_eq s) in
    (forall o, In o objs -> ~ In (o_name o) (dkeys c)) ->
    Forall2 (fun s ds => shared_notation objs s ds /\ (exists f, ds = filter f (dkeys c)) /\ defined_on (lab_coords c) ds (value s)) texts dims ->
    length names = list_sum (map (fun ds => prodn (map (size (lab_coords c)) ds)) dims) ->
    exists equations, sympy_equations other c vars params texts = Ok equations /\
      ((forall lr, In lr equations -> evaluates (fst lr) (snd lr) = false) ->
       (forall o, In o objs -> exists lr es, In lr equations /\
          equation_symbols sub_into set_order dict_order evaluates c None (uv ++ up) (fst lr) (snd lr) = Ok es /\ occurs_in c es o) ->
       exists f g r, compile_numba_cge_functions sub_into set_order dict_order evaluates cse order c None vars params equations = Ok f /\
         compile_sympytensor_cge_functions sub_into set_order dict_order evaluates order c None vars params equations = Ok g /\
         pytensor_system number_op (lab_coords c) objs texts names d = Ok r /\ nf_system f x theta = Ok (OVec r) /\ sf_system g d = Ok r).
Proof.
  intros other nop si so do_ ev cse order WS WD EC RA c vars params texts dims names d v w uv up x theta DC AR VN TN NM NH objs value K F LN.
  pose proof DC as (PL & NK & _ & EV & EP & NN & ND). pose proof AR as (HD & AK & FL & DA).
  assert (DE : forall o, In o objs -> S_Simplify.declared c o) by (intros o I; apply (HD o I)).
  assert (X : exists sides, Forall2 (fun s lr => indexed_equation c objs s (fst lr) (snd lr)) texts sides /\
    Forall2 (fun ds lr => dims_of_text c objs (EBin Sub (fst lr) (snd lr)) ds) dims sides /\
    Forall2 (fun sd lr => forall ix, value (fst sd) ix = eval (array_values objs d) ix (EBin Sub (fst lr) (snd lr))) (combine texts dims) sides).
  { clear LN TN. induction F as [|s ds texts dims (S & FI & DF) F (sides & A & B & C)]; [exists []; repeat split; constructor|].
    destruct (@shared_text c objs s ds ND DE K S FI) as (el & er & A1 & B1 & C1). exists ((el, er) :: sides). split; [constructor; assumption|]. split; [constructor; assumption|]. cbn [combine]. constructor; [intros ix; apply C1|exact C]. }
  destruct X as (sides & FS & FD & FV).
  assert (UD : forall e ds ds', dims_of_text c objs e ds -> dims_of_text c objs e ds' -> ds = ds').
  { intros e ds ds'. now apply dims_unique. }
  assert (DF : forall lr ds, In lr sides -> dims_of_text c objs (EBin Sub (fst lr) (snd lr)) ds -> defined_on (lab_coords c) ds (fun ix => eval (array_values objs d) ix (EBin Sub (fst lr) (snd lr)))).
  { clear - F FD FV UD. revert F FV. revert texts. induction FD as [|ds lr dims sides Hd FD IH]; intros texts F FV lr0 ds0 I D0; [easy|].
    inversion F as [|s ? texts' ? (_ & _ & DF) F']; subst. cbn [combine] in FV. inversion FV as [|? ? ? ? HV FV']; subst. destruct I as [->|I]; [|eapply IH; eauto].
    rewrite (UD _ _ _ D0 Hd). intros ix W. cbv beta. rewrite <- HV. now apply DF. }
  destruct (@c109_numba__p other si so do_ ev cse order WS WD EC c vars params texts sides d v w uv up x theta DC AR VN TN NM FS DF) as (eqs & E & HN).
  destruct (@c109_sympytensor__p other si so do_ ev order WS WD c vars params texts sides d v w uv up x theta DC AR VN TN NH FS DF) as (eqs' & E' & HS).
  rewrite E in E'. injection E' as <-. exists eqs. split; [exact E|]. intros EV0 OC.
  destruct (HN EV0) as (f & b1 & CF & B1 & S1 & _). destruct (HS EV0 OC) as (g & b2 & CG & B2 & S2 & _).
  assert (GV : given (lab_coords c) objs d) by (split; [exact ND|]; intros o I; apply (HD o I)).
  destruct (@c82_shared__p nop (lab_coords c) objs d texts names dims RA GV) as (b3 & S3 & B3); [|exact LN|].
  { clear - F. induction F as [|s ds texts dims (S & FI & DF) F IH]; constructor; auto. }
  assert (Q : forall bs, Forall2 (fun lr block => exists ds, dims_of_text c objs (EBin Sub (fst lr) (snd lr)) ds /\ block_of (lab_coords c) ds (fun ix => eval (array_values objs d) ix (EBin Sub (fst lr) (snd lr))) block) sides bs -> bs = b3).
  { clear - FD FV UD B3. intros bs H. revert FV B3. revert texts b3. revert bs H. induction FD as [|ds lr dims sides Hd FD IH]; intros bs H texts b3 FV B3.
    - inversion H; subst. destruct texts; inversion B3; reflexivity.
    - destruct texts as [|s texts]; cbn [combine] in FV, B3; [inversion FV|]. inversion FV as [|? ? ? ? HV FV']; inversion B3 as [|? b ? b3' HB B3']; inversion H as [|? b0 ? bs' (ds0 & D0 & BL) H']; subst.
      f_equal; [|eapply IH; eauto]. rewrite (UD _ _ _ D0 Hd) in BL. eapply block_unique; [apply Hd|exact BL|]. destruct HB as (L & HB). split; [exact L|]. intros ix W. cbn [fst snd] in *. rewrite <- HV. now apply HB. }
  rewrite (Q b1 B1) in S1. rewrite (Q b2 B2) in S2. exists f, g, (List.concat b3). auto 10.
Qed.

(** ** Where they differ *)
Definition or_c : dict (list string) := [("i", ["a"; "b"]); ("j", ["p"; "q"])].
Definition or_vars : list mobj := [exobj KVar "Y" []].

Ltac nodup := repeat (constructor; [cbn; intuition discriminate|]); constructor.
Lemma or_setup params d x theta : NoDup (map o_name (or_vars ++ params)) ->
  (forall o, In o params -> NoDup (o_dims o) /\ o_dim_vals o = [] /\ o_base_name o = o_name o /\ forall x, In x (o_dims o) -> x = "i" \/ x = "j") ->
  (forall o, In o (or_vars ++ params) -> exists a, dget (o_name o) d = Some a /\ fits (lab_coords or_c) o a) ->
  dkeys d = map o_name (or_vars ++ params) -> variable_dict_to_flat_array d or_vars params = Ok (x, theta) ->
  forall up, unpack_objects (fun l => l) params (lab_coords or_c) = Ok up ->
  let names := map make_indexed_name (exobj KVar "Y" [] :: up) in
  NoDup names -> declaration (fun l => l) or_c or_vars params [exobj KVar "Y" []] up /\ exists v w, arguments or_c or_vars params d v w x theta.
Proof.
  intros ND DP HD KD FL up EU names NN.
  assert (NL : forall i ls, dget i or_c = Some ls -> NoDup ls).
  { intros i ls E. apply dget_In in E. destruct E as [E|[E|[]]]; injection E as <- <-; nodup. }
  split.
  - split; [|split; [nodup|split; [exact NL|split; [reflexivity|split; [exact EU|split; [exact NN|exact ND]]]]]].
    intros i ls E. apply dget_In in E. destruct E as [E|[E|[]]]; injection E as <- <-; (split; [discriminate|repeat constructor]).
  - destruct (@data_exists or_c (or_vars ++ params) d NL ND) as (v & w & DA). exists v, w. split; [|split; [rewrite KD; auto|split; [exact FL|exact DA]]].
    intros o I. split; [|now apply HD]. cbn in I. destruct I as [<-|I].
    + split; [constructor|]. split; [reflexivity|]. split; [reflexivity|]. intros y [].
    + destruct (DP o I) as (A & B & C & D). split; [exact A|]. split; [exact B|]. split; [exact C|]. intros y Iy. cbn. destruct (D y Iy) as [-> | ->]; auto.
Qed.

Section One.
Variables (other : pexpr -> res sexpr) (sub_into : sexpr -> list string -> bool) (set_order : list sexpr -> list sexpr)
  (dict_order : list (sexpr * sexpr) -> list (sexpr * sexpr)) (cse : list sexpr -> list (string * sexpr) * list sexpr).
Hypothesis (WS : walks_set set_order) (WD : walks_set dict_order) (EC : eliminates cse).

(** One equation over both dims *)
Lemma one_block params d x theta up s el er equations v w vals :
  declaration (fun l => l) or_c or_vars params [exobj KVar "Y" []] up -> arguments or_c or_vars params d v w x theta ->
  (forall n, In n (map make_indexed_name (exobj KVar "Y" [] :: up)) -> M_Lambdify.is_name n = true /\ ~ In n reserved) ->
  indexed_equation or_c (or_vars ++ params) s el er -> runs_over (or_vars ++ params) "i" (EBin Sub el er) -> runs_over (or_vars ++ params) "j" (EBin Sub el er) ->
  sympy_equations other or_c or_vars params [s] = Ok equations -> (forall lr, In lr equations -> sexpr_eqb (fst lr) (snd lr) = false) ->
  (forall i j, i < 2 -> j < 2 -> forall ix, ix "i" = i -> ix "j" = j -> exists r, eval (array_values (or_vars ++ params) d) ix (EBin Sub el er) = Some r /\ nth_error vals (2 * i + j) = Some r) ->
  length vals = 4 ->
  exists f, compile_numba_cge_functions sub_into set_order dict_order sexpr_eqb cse (fun l => l) or_c None or_vars params equations = Ok f /\ nf_system f x theta = Ok (OVec vals).
Proof.
  intros DC AR NM IE Ri Rj E EV HV LV.
  assert (DT : dims_of_text or_c (or_vars ++ params) (EBin Sub el er) ["i"; "j"]).
  { split; [nodup|]. split; [exists (fun _ => true); reflexivity|]. intros y. split; [|intros (A & _); exact A]. intros [<-|[<-|[]]]; (split; [cbn; auto|assumption]). }
  assert (VALS : forall ix, (forall y, In y ["i"; "j"] -> ix y < size (lab_coords or_c) y) -> exists r, eval (array_values (or_vars ++ params) d) ix (EBin Sub el er) = Some r /\ nth_error vals (2 * ix "i" + ix "j") = Some r).
  { intros ix W. apply HV; auto; [apply (W "i"); now left|apply (W "j"); right; now left]. }
  destruct (@c109_numba__p other sub_into set_order dict_order sexpr_eqb cse (fun l => l) WS WD EC or_c or_vars params [s] [(el, er)] d v w [exobj KVar "Y" []] up x theta DC AR) as (eqs & E' & H); try discriminate.
  - exact NM.
  - constructor; [exact IE|constructor].
  - intros lr dims [<-|[]] D. cbn [fst snd] in *. rewrite (@dims_unique or_c (or_vars ++ params) (EBin Sub el er) dims ["i"; "j"]); [|nodup|exact D|exact DT].
    intros ix W. destruct (VALS ix W) as (r & -> & _). discriminate.
  - rewrite E in E'. injection E' as <-. destruct (H EV) as (f & blocks & CF & FB & NS & _). exists f. split; [exact CF|]. rewrite NS. do 2 f_equal.
    inversion FB as [|? b ? bs (dims & D & BL) FB']; subst. inversion FB'; subst. cbn [List.concat]. rewrite app_nil_r. cbn [fst snd] in D, BL.
    rewrite (@dims_unique or_c (or_vars ++ params) (EBin Sub el er) dims ["i"; "j"]) in BL; [|nodup|exact D|exact DT].
    eapply (@block_unique (lab_coords or_c) ["i"; "j"]); [nodup|exact BL|]. split; [exact LV|]. intros ix W. destruct (VALS ix W) as (r & -> & V). rewrite <- V. f_equal.
    change (ix "i" * (2 * 1) + (ix "j" * 1 + 0) = 2 * ix "i" + ix "j"). lia.
Qed.
End One.

(** Dims written in another order than that of the coords *)
Definition or_params : list mobj := [exobj KPar "A" ["j"; "i"]].
Definition or_d : dict (arr R) := [("Y", mkArr [] [10]%R); ("A", mkArr [2; 2] [1; 2; 3; 4]%R)].
Lemma c109_order_refuted__p :
  exists c vars params s ds d x theta, shared_notation (vars ++ params) s ds /\ variable_dict_to_flat_array d vars params = Ok (x, theta) /\
    forall other number_op sub_into set_order dict_order cse names, walks_set set_order -> walks_set dict_order -> eliminates cse -> real_arithmetic number_op -> length names = 4%nat ->
      exists equations f, sympy_equations other c vars params [s] = Ok equations /\
        compile_numba_cge_functions sub_into set_order dict_order sexpr_eqb cse (fun l => l) c None vars params equations = Ok f /\
        nf_system f x theta = Ok (OVec [9; 7; 8; 6]%R) /\
        pytensor_system number_op (lab_coords c) (vars ++ params) [s] names d = Ok [9; 8; 7; 6]%R.
Proof.
  exists or_c, or_vars, or_params, "Y = A", ["j"; "i"], or_d, [10]%R, [1; 2; 3; 4]%R. split; [|split; [reflexivity|]].
  - exists "Y ", " A", (EWord "Y"), (EWord "A"). split; [reflexivity|]. split; [intros a b E; exfalso; eapply (@no_equal_sign "Y " (EWord "Y")); [repeat constructor|reflexivity|exact E]|].
    split; [reflexivity|]. split; [repeat constructor|]. split; [repeat constructor|]. split; [constructor|]. split; [constructor|]. split; [nodup|]. split.
    + intros w M N. inversion M as [|? ? ? M1|? ? ? M1|]; subst; inversion M1; subst; (split; [cbn; intuition discriminate|]).
      * exists (exobj KVar "Y" []). split; [now left|]. split; [reflexivity|]. exists ["j"; "i"]. reflexivity.
      * exists (exobj KPar "A" ["j"; "i"]). split; [right; now left|]. split; [reflexivity|]. exists []. reflexivity.
    + right. exists (exobj KPar "A" ["j"; "i"]). split; [right; now left|]. split; [apply mn_right; constructor|]. split; reflexivity.
  - intros other nop si so do_ cse names WS WD EC RA L.
    assert (SU : exists up, unpack_objects (fun l => l) or_params (lab_coords or_c) = Ok up /\ NoDup (map make_indexed_name (exobj KVar "Y" [] :: up)) /\
      forall n, In n (map make_indexed_name (exobj KVar "Y" [] :: up)) -> M_Lambdify.is_name n = true /\ ~ In n reserved).
    { eexists. split; [reflexivity|]. split; [vm_compute; nodup|]. intros n Hn. vm_compute in Hn. repeat (destruct Hn as [<-|Hn]; [split; [reflexivity|cbn; intuition discriminate]|]). destruct Hn. }
    destruct SU as (up & EU & NN & NM).
    destruct (@or_setup or_params or_d [10]%R [1; 2; 3; 4]%R) with (up := up) as (DC & v & w & AR); auto.
    + cbn. nodup.
    + intros o [<-|[]]. split; [cbn; nodup|]. split; [reflexivity|]. split; [reflexivity|]. cbn. intuition.
    + intros o [<-|[<-|[]]]; (eexists; split; [reflexivity|split; [reflexivity|unfold has_shape; cbn; repeat (constructor; [eexists; split; reflexivity|]); constructor]]).
    + eexists. 
      destruct (@one_block other si so do_ cse WS WD EC or_params or_d [10]%R [1; 2; 3; 4]%R up "Y = A" (EWord "Y") (EWord "A") [(SSym "Y", SIx "A" [IVar "j"; IVar "i"])] v w [9; 7; 8; 6]%R DC AR NM) as (f & CF & NF).
      * exists "Y ", " A". split; [reflexivity|]. split; [repeat constructor|]. split; [repeat constructor|].
        split; [apply (@in_object or_c (or_vars ++ or_params) true (exobj KVar "Y" []))|apply (@in_object or_c (or_vars ++ or_params) true (exobj KPar "A" ["j"; "i"]))]; try reflexivity; cbn; intuition discriminate.
      * apply ro_right. apply (@ro_word (or_vars ++ or_params) "i" (exobj KPar "A" ["j"; "i"])); [right; now left|reflexivity|right; now left].
      * apply ro_right. apply (@ro_word (or_vars ++ or_params) "j" (exobj KPar "A" ["j"; "i"])); [right; now left|reflexivity|now left].
      * reflexivity.
      * intros lr [<-|[]]. reflexivity.
      * intros i j Hi Hj ix Ei Ej. cbn [eval]. change (S_Meaning.number "Y") with (@None nat). change (S_Meaning.number "A") with (@None nat).
        change (array_values (or_vars ++ or_params) or_d "Y" ix) with (Some 10%R). unfold array_values. cbn [find or_vars or_params app o_name exobj String.eqb Ascii.eqb Bool.eqb or_d dget o_dims map]. rewrite Ei, Ej.
        destruct i as [|[|]], j as [|[|]]; try lia; (eexists; split; [reflexivity|]); cbn; f_equal; lra.
      * reflexivity.
      * exists f. split; [reflexivity|]. split; [exact CF|]. split; [exact NF|]. destruct names as [|n1 [|n2 [|n3 [|n4 [|]]]]]; try discriminate.
        transitivity (Ok [nop Sub 10 1; nop Sub 10 2; nop Sub 10 3; nop Sub 10 4]%R); [reflexivity|]. rewrite !(ra_sub _ _ RA). repeat (f_equal; try lra).
Qed.

(** Dims that do not stand at the end: aligned by name in sympy, by place in pytensor *)
Definition pl_params : list mobj := [exobj KPar "X" ["i"; "j"]; exobj KPar "A" ["i"]].
Definition pl_d : dict (arr R) := [("Y", mkArr [] [2]%R); ("X", mkArr [2; 2] [1; 1; 2; 2]%R); ("A", mkArr [2] [2; 1]%R)].
Lemma c109_alignment_refuted__p :
  exists c vars params s d x theta, variable_dict_to_flat_array d vars params = Ok (x, theta) /\
    forall other number_op sub_into set_order dict_order cse names, walks_set set_order -> walks_set dict_order -> eliminates cse -> real_arithmetic number_op -> length names = 4%nat ->
      exists equations f, sympy_equations other c vars params [s] = Ok equations /\
        compile_numba_cge_functions sub_into set_order dict_order sexpr_eqb cse (fun l => l) c None vars params equations = Ok f /\
        nf_system f x theta = Ok (OVec [0; 0; 0; 0]%R) /\
        pytensor_system number_op (lab_coords c) (vars ++ params) [s] names d = Ok [0; 1; -2; 0]%R.
Proof.
  exists or_c, or_vars, pl_params, "Y = X * A", pl_d, [2]%R, [1; 1; 2; 2; 2; 1]%R. split; [reflexivity|].
  intros other nop si so do_ cse names WS WD EC RA L.
  assert (SU : exists up, unpack_objects (fun l => l) pl_params (lab_coords or_c) = Ok up /\ NoDup (map make_indexed_name (exobj KVar "Y" [] :: up)) /\
    forall n, In n (map make_indexed_name (exobj KVar "Y" [] :: up)) -> M_Lambdify.is_name n = true /\ ~ In n reserved).
  { eexists. split; [reflexivity|]. split; [vm_compute; nodup|]. intros n Hn. vm_compute in Hn. repeat (destruct Hn as [<-|Hn]; [split; [reflexivity|cbn; intuition discriminate]|]). destruct Hn. }
  destruct SU as (up & EU & NN & NM).
  destruct (@or_setup pl_params pl_d [2]%R [1; 1; 2; 2; 2; 1]%R) with (up := up) as (DC & v & w & AR); auto.
  + cbn. nodup.
  + intros o [<-|[<-|[]]]; (split; [cbn; nodup|]; split; [reflexivity|]; split; [reflexivity|]; cbn; intuition).
  + intros o [<-|[<-|[<-|[]]]]; (eexists; split; [reflexivity|split; [reflexivity|unfold has_shape; cbn; repeat (constructor; [eexists; split; reflexivity|]); constructor]]).
  + eexists.
    destruct (@one_block other si so do_ cse WS WD EC pl_params pl_d [2]%R [1; 1; 2; 2; 2; 1]%R up "Y = X * A" (EWord "Y") (EBin Mul (EWord "X") (EWord "A"))
      [(SSym "Y", SBin OMul (SIx "X" [IVar "i"; IVar "j"]) (SIx "A" [IVar "i"]))] v w [0; 0; 0; 0]%R DC AR NM) as (f & CF & NF).
    * exists "Y ", " X * A". split; [reflexivity|]. split; [repeat constructor|]. split; [apply parse_sound; reflexivity|].
      split; [apply (@in_object or_c (or_vars ++ pl_params) true (exobj KVar "Y" []))|apply in_op; [apply (@in_object or_c (or_vars ++ pl_params) true (exobj KPar "X" ["i"; "j"]))|apply (@in_object or_c (or_vars ++ pl_params) true (exobj KPar "A" ["i"]))]]; try reflexivity; cbn; intuition discriminate.
    * apply ro_right, ro_left. apply (@ro_word (or_vars ++ pl_params) "i" (exobj KPar "X" ["i"; "j"])); [right; now left|reflexivity|now left].
    * apply ro_right, ro_left. apply (@ro_word (or_vars ++ pl_params) "j" (exobj KPar "X" ["i"; "j"])); [right; now left|reflexivity|right; now left].
    * reflexivity.
    * intros lr [<-|[]]. reflexivity.
    * intros i j Hi Hj ix Ei Ej. cbn [eval]. change (S_Meaning.number "Y") with (@None nat). change (S_Meaning.number "A") with (@None nat). change (S_Meaning.number "X") with (@None nat).
      change (array_values (or_vars ++ pl_params) pl_d "Y" ix) with (Some 2%R). unfold array_values. cbn [find or_vars pl_params app o_name exobj String.eqb Ascii.eqb Bool.eqb pl_d dget o_dims map]. rewrite Ei, Ej.
      destruct i as [|[|]], j as [|[|]]; try lia; (eexists; split; [reflexivity|]); cbn; f_equal; lra.
    * reflexivity.
    * exists f. split; [reflexivity|]. split; [exact CF|]. split; [exact NF|]. destruct names as [|n1 [|n2 [|n3 [|n4 [|]]]]]; try discriminate.
      transitivity (Ok [nop Sub 2 (nop Mul 1 2); nop Sub 2 (nop Mul 1 1); nop Sub 2 (nop Mul 2 2); nop Sub 2 (nop Mul 2 1)]%R); [reflexivity|]. rewrite !(ra_mul _ _ RA), !(ra_sub _ _ RA). repeat (f_equal; try lra).
Qed.
