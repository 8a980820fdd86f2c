(** C109: the same text in every backend. *)
From Coq Require Import Ascii Reals Lra Lia ZArith.
From Verif Require Import Py PyStr NdArray M_Primitives M_Utilities M_PyExpr M_Expand M_Graph M_SymExpr M_Calculus M_Simplify M_Lambdify M_NumbaModel M_SympyTensor M_Equations M_Tensor M_Parse.
From Verif Require Import S_PyExpr S_Meaning S_Production S_Layout S_Tensor S_Calculus S_Reduce S_Simplify S_Lambdify S_NumbaModel S_SympyTensor S_Parse.
From Verif Require Import L_Markers L_Reduce L_Reduce5 L_PyExpr L_Production6 L_ArrayModel L_Simplify L_Simplify2 L_Lambdify L_NumbaModel L_SympyTensor2 L_Solved L_Tensor3 L_Parse L_Parse2 L_Parse3 L_Parse4.
Local Open Scope string_scope.
Local Open Scope list_scope.

Lemma Ok_same {A} (x y : A) : Ok x = Ok y -> x = y. Proof. congruence. Qed.
(** A scalar variable Y and a parameter A over i and j; Y = 10, A = [[1, 2], [3, 4]] *)
Definition px_params : list mobj := [exobj KPar "A" ["i"; "j"]].
Definition px_d : dict (arr R) := [("Y", mkArr [] [10]%R); ("A", mkArr [2; 2] [1; 2; 3; 4]%R)].
Definition px_objs : list mobj := or_vars ++ px_params.
Definition px_A : mobj := exobj KPar "A" ["i"; "j"].
Definition px_Y : mobj := exobj KVar "Y" [].
Lemma px_setup : exists up, unpack_objects (fun l => l) px_params (lab_coords or_c) = Ok up /\
  (forall n, In n (map make_indexed_name ([px_Y] ++ up)) -> M_Lambdify.is_name n = true /\ ~ In n reserved) /\
  ~ In "hess_point" (map make_indexed_name ([px_Y] ++ up)) /\
  declaration (fun l => l) or_c or_vars px_params [px_Y] up /\ exists v w, arguments or_c or_vars px_params px_d v w [10]%R [1; 2; 3; 4]%R.
Proof.
  assert (SU : exists up, unpack_objects (fun l => l) px_params (lab_coords or_c) = Ok up /\ NoDup (map make_indexed_name (exobj KVar "Y" [] :: up)) /\
    (forall n, In n (map make_indexed_name (exobj KVar "Y" [] :: up)) -> M_Lambdify.is_name n = true /\ ~ In n reserved) /\ ~ In "hess_point" (map make_indexed_name ([px_Y] ++ up))).
  { eexists. split; [reflexivity|]. split; [vm_compute; nodup|]. split; [|vm_compute; intuition discriminate]. intros n Hn. vm_compute in Hn. repeat (destruct Hn as [<-|Hn]; [split; [reflexivity|cbn; intuition discriminate]|]). destruct Hn. }
  destruct SU as (up & EU & NN & NM & NH). exists up. split; [exact EU|]. split; [exact NM|]. split; [exact NH|].
  apply (@or_setup px_params px_d [10]%R [1; 2; 3; 4]%R); auto.
  + cbn. nodup.
  + intros o [<-|[]]. split; [cbn; nodup|]. split; [reflexivity|]. split; [reflexivity|]. cbn. intuition.
  + intros o [<-|[<-|[]]]; (eexists; split; [reflexivity|split; [reflexivity|unfold has_shape; cbn; repeat (constructor; [eexists; split; reflexivity|]); constructor]]).
Qed.

(** The equation Y = Sum(A, (i, 0, 1)), one for every j *)
Definition px_text : string := "Y = Sum(A, (i, 0, 1))".
Definition px_sides : pexpr * pexpr := (EWord "Y", sum_over (EWord "A") "i" "0" "1").
Lemma px_indexed : indexed_equation or_c px_objs px_text (fst px_sides) (snd px_sides).
Proof.
  exists "Y ", " Sum(A, (i, 0, 1))". split; [reflexivity|]. split; [apply parse_sound; reflexivity|]. split; [apply parse_sound; reflexivity|]. split.
  - apply (@in_object or_c px_objs true px_Y); [now left|reflexivity|cbn; intuition discriminate].
  - apply (@in_sum or_c px_objs (EWord "A") "i" "0" "1" 0 1 ["a"; "b"]); try reflexivity; [|cbn; intuition discriminate|lia|cbn; lia].
    apply (@in_object or_c px_objs false px_A); [right; now left|reflexivity|cbn; intuition discriminate].
Qed.
Lemma px_dims : dims_of_text or_c px_objs (EBin Sub (fst px_sides) (snd px_sides)) ["j"].
Proof.
  split; [nodup|]. split; [exists (fun y => String.eqb y "j"); reflexivity|]. intros y. split.
  - intros [<-|[]]. split; [cbn; auto|]. apply ro_right. apply ro_sum; [|discriminate]. apply (@ro_word px_objs "j" px_A); [right; now left|reflexivity|right; now left].
  - intros (I & H). apply ro_op in H as [H|H].
    + inversion H as [o Io No Do Eo| | | | | |]; subst. destruct Io as [<-|[<-|[]]]; [destruct Do|discriminate].
    + apply ro_total in H as (_ & Ny). cbn in I. destruct I as [<-|[<-|[]]]; [easy|now left].
Qed.
Lemma px_value ix : ix "j" < 2 -> exists r, eval (array_values px_objs px_d) ix (EBin Sub (fst px_sides) (snd px_sides)) = Some r /\ nth_error [6; 4]%R (ix "j") = Some r.
Proof.
  intros H. destruct (ix "j") as [|[|]] eqn:E; [| |lia].
  - exists (10 - (1 + (3 + 0)))%R. split; [|cbn; f_equal; lra]. unfold px_sides, sum_over. cbn. rewrite E. reflexivity.
  - exists (10 - (2 + (4 + 0)))%R. split; [|cbn; f_equal; lra]. unfold px_sides, sum_over. cbn. rewrite E. reflexivity.
Qed.
Lemma px_defined lr dims : In lr [px_sides] -> dims_of_text or_c px_objs (EBin Sub (fst lr) (snd lr)) dims ->
  defined_on (lab_coords or_c) dims (fun ix => eval (array_values px_objs px_d) ix (EBin Sub (fst lr) (snd lr))).
Proof.
  intros [<-|[]] D. rewrite (@dims_unique or_c px_objs (EBin Sub (fst px_sides) (snd px_sides)) dims ["j"]); [|nodup|exact D|exact px_dims]. intros ix W.
  destruct (px_value ix (W "j" (or_introl eq_refl))) as (r & E & _). cbv beta. rewrite E. discriminate.
Qed.
Definition px_equations : list (sexpr * sexpr) := [(SSym "Y", SRed RSum (SIx "A" [IVar "i"; IVar "j"]) [("i", (0, 1))])].

Theorem c109_sides :
  forall other c vars params d v w, NoDup (map o_name (vars ++ params)) -> has_data c (vars ++ params) d -> data_of c (vars ++ params) d v w ->
  forall s el er, indexed_equation c (vars ++ params) s el er ->
    exists lr, sympy_sides other c vars params s = Ok lr /\
      (forall dims, equation_dims c (written lr) dims <-> dims_of_text c (vars ++ params) (EBin Sub el er) dims) /\
      forall dims ix ls r, dims_of_text c (vars ++ params) (EBin Sub el er) dims -> labels_of c dims (map ix dims) ls ->
        eval (array_values (vars ++ params) d) ix (EBin Sub el er) = Some r -> den c v w (assign dims ls) (written lr) = Some r.
Proof. exact @c109_sides__p. Qed.
Print Assumptions c109_sides.
Example c109_sides_ex : indexed_equation or_c px_objs px_text (fst px_sides) (snd px_sides) /\
  sympy_sides (fun _ => Err ValueError) or_c or_vars px_params px_text = Ok (SSym "Y", SRed RSum (SIx "A" [IVar "i"; IVar "j"]) [("i", (0, 1))]).
Proof. split; [exact px_indexed|reflexivity]. Qed.

Theorem c109_numba :
  forall other sub_into set_order dict_order evaluates cse order, walks_set set_order -> walks_set dict_order -> eliminates cse ->
  forall c vars params texts sides d v w uv up x theta,
    declaration order c vars params uv up -> arguments c vars params d v w x theta -> vars <> [] -> texts <> [] ->
    (forall n, In n (map make_indexed_name (uv ++ up)) -> M_Lambdify.is_name n = true /\ ~ In n reserved) ->
    let objs := vars ++ params in
    let value lr ix := eval (array_values objs d) ix (EBin Sub (fst lr) (snd lr)) in
    let dims_are lr dims := dims_of_text c objs (EBin Sub (fst lr) (snd lr)) dims in
    Forall2 (fun s lr => indexed_equation c objs s (fst lr) (snd lr)) texts sides ->
    (forall lr dims, In lr sides -> dims_are lr dims -> defined_on (lab_coords c) dims (value lr)) ->
    exists equations, sympy_equations other c vars params texts = Ok equations /\
      ((forall lr, In lr equations -> evaluates (fst lr) (snd lr) = false) ->
       exists f blocks, compile_numba_cge_functions sub_into set_order dict_order evaluates cse order c None vars params equations = Ok f /\
         Forall2 (fun lr block => exists dims, dims_are lr dims /\ block_of (lab_coords c) dims (value lr) block) sides blocks /\
         nf_system f x theta = Ok (OVec (List.concat blocks)) /\
         nf_resid f x theta = Ok (OScalar (/ 2 * rsum (map (fun r => r * r) (List.concat blocks)))%R)).
Proof. exact @c109_numba__p. Qed.
Print Assumptions c109_numba.
Example c109_numba_ex : forall cse, eliminates cse ->
  sympy_equations (fun _ => Err ValueError) or_c or_vars px_params [px_text] = Ok px_equations /\
  exists f, compile_numba_cge_functions sympy_rule (uniq sexpr_eqb) (uniq pair_eqb) sexpr_eqb cse (fun l => l) or_c None or_vars px_params px_equations = Ok f /\
    nf_system f [10]%R [1; 2; 3; 4]%R = Ok (OVec [6; 4]%R).
Proof.
  intros cse EC. split; [reflexivity|]. destruct px_setup as (up & _ & NM & _ & DC & v & w & AR).
  destruct (@c109_numba (fun _ => Err ValueError) sympy_rule (uniq sexpr_eqb) (uniq pair_eqb) sexpr_eqb cse (fun l => l) (@uniq_walks _ _ sexpr_eqb_eq) (@uniq_walks _ _ pair_eqb_eq) EC
    or_c or_vars px_params [px_text] [px_sides] px_d v w [px_Y] up [10]%R [1; 2; 3; 4]%R DC AR) as (eqs & E & H); try discriminate.
  - exact NM.
  - constructor; [exact px_indexed|constructor].
  - exact px_defined.
  - assert (eqs = px_equations) as -> by (apply Ok_same in E; now rewrite <- E). destruct H as (f & blocks & CF & FB & NS & _); [intros lr [<-|[]]; reflexivity|].
    exists f. split; [exact CF|]. rewrite NS. do 2 f_equal. inversion FB as [|? b ? bs (dims & D & BL) FB']; subst. inversion FB'; subst. cbn [List.concat]. rewrite app_nil_r.
    rewrite (@dims_unique or_c px_objs (EBin Sub (fst px_sides) (snd px_sides)) dims ["j"]) in BL; [|nodup|exact D|exact px_dims]. eapply (@block_unique (lab_coords or_c) ["j"]); [nodup|exact BL|]. split; [reflexivity|].
    intros ix W. destruct (px_value ix (W "j" (or_introl eq_refl))) as (r & Ev & Nr). unfold px_objs in Ev. rewrite Ev, <- Nr. f_equal.
    change (ix "j" * 1 + 0 = ix "j"). lia.
Qed.

Theorem c109_solved :
  forall other sub_into set_order dict_order evaluates cse order, walks_set set_order -> walks_set dict_order -> eliminates cse ->
  forall c vars params texts sides d v w uv up x theta,
    declaration order c vars params uv up -> arguments c vars params d v w x theta -> vars <> [] -> texts <> [] ->
    (forall n, In n (map make_indexed_name (uv ++ up)) -> M_Lambdify.is_name n = true /\ ~ In n reserved) ->
    let objs := vars ++ params in
    let value lr ix := eval (array_values objs d) ix (EBin Sub (fst lr) (snd lr)) in
    let dims_are lr dims := dims_of_text c objs (EBin Sub (fst lr) (snd lr)) dims in
    Forall2 (fun s lr => indexed_equation c objs s (fst lr) (snd lr)) texts sides ->
    (forall lr dims, In lr sides -> dims_are lr dims -> defined_on (lab_coords c) dims (value lr)) ->
    exists equations, sympy_equations other c vars params texts = Ok equations /\
      ((forall lr, In lr equations -> evaluates (fst lr) (snd lr) = false) ->
       exists f r, compile_numba_cge_functions sub_into set_order dict_order evaluates cse order c None vars params equations = Ok f /\
         nf_system f x theta = Ok (OVec r) /\
         ((forall y, In y r -> y = 0%R) <->
          (forall lr dims ix, In lr sides -> dims_are lr dims -> (forall y, In y dims -> ix y < size (lab_coords c) y) -> value lr ix = Some 0%R))).
Proof. exact @c109_solved__p. Qed.
Print Assumptions c109_solved.
Example c109_solved_ex : exists up v w, declaration (fun l => l) or_c or_vars px_params [px_Y] up /\ arguments or_c or_vars px_params px_d v w [10]%R [1; 2; 3; 4]%R /\
  Forall2 (fun s lr => indexed_equation or_c px_objs s (fst lr) (snd lr)) [px_text] [px_sides] /\
  (forall lr dims, In lr [px_sides] -> dims_of_text or_c px_objs (EBin Sub (fst lr) (snd lr)) dims ->
     defined_on (lab_coords or_c) dims (fun ix => eval (array_values px_objs px_d) ix (EBin Sub (fst lr) (snd lr)))) /\
  forall lr, In lr px_equations -> sexpr_eqb (fst lr) (snd lr) = false.
Proof.
  destruct px_setup as (up & _ & NM & _ & DC & v & w & AR). exists up, v, w. split; [exact DC|]. split; [exact AR|]. split; [constructor; [exact px_indexed|constructor]|]. split; [exact px_defined|].
  intros lr [<-|[]]. reflexivity.
Qed.

Theorem c109_sympytensor :
  forall other sub_into set_order dict_order evaluates order, walks_set set_order -> walks_set dict_order ->
  forall c vars params texts sides d v w uv up x theta,
    declaration order c vars params uv up -> arguments c vars params d v w x theta -> vars <> [] -> texts <> [] ->
    ~ In "hess_point"%string (map make_indexed_name (uv ++ up)) ->
    let objs := vars ++ params in
    let value lr ix := eval (array_values objs d) ix (EBin Sub (fst lr) (snd lr)) in
    let dims_are lr dims := dims_of_text c objs (EBin Sub (fst lr) (snd lr)) dims in
    Forall2 (fun s lr => indexed_equation c objs s (fst lr) (snd lr)) texts sides ->
    (forall lr dims, In lr sides -> dims_are lr dims -> defined_on (lab_coords c) dims (value lr)) ->
    exists equations, sympy_equations other c vars params texts = Ok equations /\
      ((forall lr, In lr equations -> evaluates (fst lr) (snd lr) = false) ->
       (forall o, In o objs -> exists lr es, In lr equations /\
          equation_symbols sub_into set_order dict_order evaluates c None (uv ++ up) (fst lr) (snd lr) = Ok es /\ occurs_in c es o) ->
       exists f blocks, compile_sympytensor_cge_functions sub_into set_order dict_order evaluates order c None vars params equations = Ok f /\
         Forall2 (fun lr block => exists dims, dims_are lr dims /\ block_of (lab_coords c) dims (value lr) block) sides blocks /\
         sf_system f d = Ok (List.concat blocks) /\
         sf_resid f d = Ok (/ 2 * rsum (map (fun r => r * r) (List.concat blocks)))%R).
Proof. exact @c109_sympytensor__p. Qed.
Print Assumptions c109_sympytensor.
Definition px_es : list sexpr := [SBin OSub (SSym "Y") (SBin OAdd (SSym "A_a_p") (SSym "A_b_p")); SBin OSub (SSym "Y") (SBin OAdd (SSym "A_a_q") (SSym "A_b_q"))].
Example c109_sympytensor_ex : exists f,
  compile_sympytensor_cge_functions sympy_rule (uniq sexpr_eqb) (uniq pair_eqb) sexpr_eqb (fun l => l) or_c None or_vars px_params px_equations = Ok f /\
    sf_system f px_d = Ok [6; 4]%R.
Proof.
  destruct px_setup as (up & EU & NM & NH & DC & v & w & AR).
  destruct (@c109_sympytensor (fun _ => Err ValueError) sympy_rule (uniq sexpr_eqb) (uniq pair_eqb) sexpr_eqb (fun l => l) (@uniq_walks _ _ sexpr_eqb_eq) (@uniq_walks _ _ pair_eqb_eq)
    or_c or_vars px_params [px_text] [px_sides] px_d v w [px_Y] up [10]%R [1; 2; 3; 4]%R DC AR) as (eqs & E & H); try discriminate.
  - exact NH.
  - constructor; [exact px_indexed|constructor].
  - exact px_defined.
  - assert (eqs = px_equations) as -> by (apply Ok_same in E; now rewrite <- E). 
    assert (ES : exists es, equation_symbols sympy_rule (uniq sexpr_eqb) (uniq pair_eqb) sexpr_eqb or_c None ([px_Y] ++ up) (SSym "Y") (SRed RSum (SIx "A" [IVar "i"; IVar "j"]) [("i", (0, 1))]) = Ok es /\
      exists e1 e2, es = [e1; e2] /\ In "Y" (atoms e1) /\ In "A_a_p" (atoms e1)).
    { clear - EU. vm_compute in EU. apply Ok_same in EU. subst up. eexists. split; [vm_compute; reflexivity|]. do 2 eexists. split; [reflexivity|]. cbn. auto 10. }
    destruct ES as (es & ES & e1 & e2 & -> & Q1 & Q2).
    destruct H as (f & blocks & CF & FB & NS & _); [intros lr [<-|[]]; reflexivity| |].
    { intros o Io. exists (SSym "Y", SRed RSum (SIx "A" [IVar "i"; IVar "j"]) [("i", (0, 1))]), [e1; e2]. split; [now left|]. split; [exact ES|]. destruct Io as [<-|[<-|[]]].
      - exists e1, []. split; [now left|]. split; [constructor|exact Q1].
      - exists e1, ["a"; "p"]. split; [now left|]. split; [|exact Q2]. repeat (constructor; [eexists; split; [reflexivity|now left]|]). constructor. }
    exists f. split; [exact CF|]. rewrite NS. f_equal. inversion FB as [|? b ? bs (dims & D & BL) FB']; subst. inversion FB'; subst. cbn [List.concat]. rewrite app_nil_r.
    rewrite (@dims_unique or_c px_objs (EBin Sub (fst px_sides) (snd px_sides)) dims ["j"]) in BL; [|nodup|exact D|exact px_dims]. eapply (@block_unique (lab_coords or_c) ["j"]); [nodup|exact BL|]. split; [reflexivity|].
    intros ix W. destruct (px_value ix (W "j" (or_introl eq_refl))) as (r & Ev & Nr). unfold px_objs in Ev. rewrite Ev, <- Nr. f_equal.
    change (ix "j" * 1 + 0 = ix "j"). lia.
Qed.

Theorem c109_agree :
  forall other number_op sub_into set_order dict_order evaluates cse order, walks_set set_order -> walks_set dict_order -> eliminates cse -> real_arithmetic number_op ->
  forall c vars params texts dims names d v w uv up x theta,
    declaration order c vars params uv up -> arguments c vars params d v w x theta -> vars <> [] -> texts <> [] ->
    (forall n, In n (map make_indexed_name (uv ++ up)) -> M_Lambdify.is_name n = true /\ ~ In n reserved) ->
    ~ In "hess_point"%string (map make_indexed_name (uv ++ up)) ->
    let objs := vars ++ params in
    let value s ix := meaning (array_values objs d) ix (normalize_eq s) in
    (forall o, In o objs -> ~ In (o_name o) (dkeys c)) ->
    Forall2 (fun s ds => shared_notation objs s ds /\ (exists f, ds = filter f (dkeys c)) /\ defined_on (lab_coords c) ds (value s)) texts dims ->
    length names = list_sum (map (fun ds => prodn (map (size (lab_coords c)) ds)) dims) ->
    exists equations, sympy_equations other c vars params texts = Ok equations /\
      ((forall lr, In lr equations -> evaluates (fst lr) (snd lr) = false) ->
       (forall o, In o objs -> exists lr es, In lr equations /\
          equation_symbols sub_into set_order dict_order evaluates c None (uv ++ up) (fst lr) (snd lr) = Ok es /\ occurs_in c es o) ->
       exists f g r, compile_numba_cge_functions sub_into set_order dict_order evaluates cse order c None vars params equations = Ok f /\
         compile_sympytensor_cge_functions sub_into set_order dict_order evaluates order c None vars params equations = Ok g /\
         pytensor_system number_op (lab_coords c) objs texts names d = Ok r /\ nf_system f x theta = Ok (OVec r) /\ sf_system g d = Ok r).
Proof. exact @c109_agree__p. Qed.
Print Assumptions c109_agree.
(** Y = A, one equation for every i and j *)
Definition pa_equations : list (sexpr * sexpr) := [(SSym "Y", SIx "A" [IVar "i"; IVar "j"])].
Lemma pa_shared : shared_notation px_objs "Y = A" ["i"; "j"].
Proof.
  exists "Y ", " A", (EWord "Y"), (EWord "A"). split; [reflexivity|]. split; [intros a b E; exfalso; eapply (@no_equal_sign "Y " (EWord "Y")); [repeat constructor|reflexivity|exact E]|].
  split; [reflexivity|]. split; [repeat constructor|]. split; [repeat constructor|]. split; [constructor|]. split; [constructor|]. split; [nodup|]. split.
  + intros w M N. inversion M as [|? ? ? M1|? ? ? M1|]; subst; inversion M1; subst; (split; [cbn; intuition discriminate|]).
    * exists px_Y. split; [now left|]. split; [reflexivity|]. exists ["i"; "j"]. reflexivity.
    * exists px_A. split; [right; now left|]. split; [reflexivity|]. exists []. reflexivity.
  + right. exists px_A. split; [right; now left|]. split; [apply mn_right; constructor|]. split; reflexivity.
Qed.
Example c109_agree_ex : forall number_op cse names, real_arithmetic number_op -> eliminates cse -> length names = 4 -> exists f g,
  compile_numba_cge_functions sympy_rule (uniq sexpr_eqb) (uniq pair_eqb) sexpr_eqb cse (fun l => l) or_c None or_vars px_params pa_equations = Ok f /\
  compile_sympytensor_cge_functions sympy_rule (uniq sexpr_eqb) (uniq pair_eqb) sexpr_eqb (fun l => l) or_c None or_vars px_params pa_equations = Ok g /\
  pytensor_system number_op (lab_coords or_c) px_objs ["Y = A"] names px_d = Ok [9; 8; 7; 6]%R /\
  nf_system f [10]%R [1; 2; 3; 4]%R = Ok (OVec [9; 8; 7; 6]%R) /\ sf_system g px_d = Ok [9; 8; 7; 6]%R.
Proof.
  intros nop cse names RA EC LN. destruct px_setup as (up & EU & NM & NH & DC & v & w & AR).
  assert (PS : pytensor_system nop (lab_coords or_c) px_objs ["Y = A"] names px_d = Ok [9; 8; 7; 6]%R).
  { destruct names as [|n1 [|n2 [|n3 [|n4 [|]]]]]; try discriminate.
    transitivity (Ok [nop Sub 10 1; nop Sub 10 2; nop Sub 10 3; nop Sub 10 4]%R); [reflexivity|]. rewrite !(ra_sub _ _ RA). repeat (f_equal; try lra). }
  destruct (@c109_agree (fun _ => Err ValueError) nop sympy_rule (uniq sexpr_eqb) (uniq pair_eqb) sexpr_eqb cse (fun l => l) (@uniq_walks _ _ sexpr_eqb_eq) (@uniq_walks _ _ pair_eqb_eq) EC RA
    or_c or_vars px_params ["Y = A"] [["i"; "j"]] names px_d v w [px_Y] up [10]%R [1; 2; 3; 4]%R DC AR) as (eqs & E & H); try discriminate.
  - exact NM.
  - exact NH.
  - intros o [<-|[<-|[]]]; cbn; intuition discriminate.
  - constructor; [|constructor]. split; [exact pa_shared|]. split; [exists (fun _ => true); reflexivity|]. intros ix W. unfold meaning.
    replace (parse (normalize_eq "Y = A")) with (Some (EBin Sub (EWord "Y") (EWord "A"))) by reflexivity.
    pose proof (W "i" (or_introl eq_refl)) as Wi. pose proof (W "j" (or_intror (or_introl eq_refl))) as Wj. change (size (lab_coords or_c) "i") with 2 in Wi. change (size (lab_coords or_c) "j") with 2 in Wj.
    cbn. destruct (ix "i") as [|[|]], (ix "j") as [|[|]]; try lia; cbn; discriminate.
  - exact LN.
  - assert (eqs = pa_equations) as -> by (apply Ok_same in E; now rewrite <- E).
    assert (ES : exists es, equation_symbols sympy_rule (uniq sexpr_eqb) (uniq pair_eqb) sexpr_eqb or_c None ([px_Y] ++ up) (SSym "Y") (SIx "A" [IVar "i"; IVar "j"]) = Ok es /\
      exists e1 l, es = e1 :: l /\ In "Y" (atoms e1) /\ In "A_a_p" (atoms e1)).
    { clear - EU. vm_compute in EU. apply Ok_same in EU. subst up. eexists. split; [vm_compute; reflexivity|]. do 2 eexists. split; [reflexivity|]. cbn. auto 10. }
    destruct ES as (es & ES & e1 & l & -> & Q1 & Q2).
    destruct H as (f & g & r & CF & CG & P & NF & SF); [intros lr [<-|[]]; reflexivity| |].
    { intros o Io. exists (SSym "Y", SIx "A" [IVar "i"; IVar "j"]), (e1 :: l). split; [now left|]. split; [exact ES|]. destruct Io as [<-|[<-|[]]].
      - exists e1, []. split; [now left|]. split; [constructor|exact Q1].
      - exists e1, ["a"; "p"]. split; [now left|]. split; [|exact Q2]. repeat (constructor; [eexists; split; [reflexivity|now left]|]). constructor. }
    assert (r = [9; 8; 7; 6]%R) as -> by (apply Ok_same; rewrite <- P; exact PS). exists f, g. auto 10.
Qed.

Theorem c109_order_refuted :
  exists c vars params s ds d x theta, shared_notation (vars ++ params) s ds /\ variable_dict_to_flat_array d vars params = Ok (x, theta) /\
    forall other number_op sub_into set_order dict_order cse names, walks_set set_order -> walks_set dict_order -> eliminates cse -> real_arithmetic number_op -> length names = 4%nat ->
      exists equations f, sympy_equations other c vars params [s] = Ok equations /\
        compile_numba_cge_functions sub_into set_order dict_order sexpr_eqb cse (fun l => l) c None vars params equations = Ok f /\
        nf_system f x theta = Ok (OVec [9; 7; 8; 6]%R) /\
        pytensor_system number_op (lab_coords c) (vars ++ params) [s] names d = Ok [9; 8; 7; 6]%R.
Proof. exact @c109_order_refuted__p. Qed.
Print Assumptions c109_order_refuted.

Theorem c109_alignment_refuted :
  exists c vars params s d x theta, variable_dict_to_flat_array d vars params = Ok (x, theta) /\
    forall other number_op sub_into set_order dict_order cse names, walks_set set_order -> walks_set dict_order -> eliminates cse -> real_arithmetic number_op -> length names = 4%nat ->
      exists equations f, sympy_equations other c vars params [s] = Ok equations /\
        compile_numba_cge_functions sub_into set_order dict_order sexpr_eqb cse (fun l => l) c None vars params equations = Ok f /\
        nf_system f x theta = Ok (OVec [0; 0; 0; 0]%R) /\
        pytensor_system number_op (lab_coords c) (vars ++ params) [s] names d = Ok [0; 1; -2; 0]%R.
Proof. exact @c109_alignment_refuted__p. Qed.
Print Assumptions c109_alignment_refuted.
