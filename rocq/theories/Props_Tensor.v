(** C82: array equations mean their index equations. *)
From Coq Require Import Reals Lra.
From Verif Require Import Py PyStr NdArray M_Primitives M_PyExpr M_Tensor S_PyExpr S_Meaning S_Production S_Layout S_Tensor L_PyExpr L_Production6 L_Tensor L_Tensor2 L_Tensor3 L_Tensor4.
Local Open Scope string_scope.
Local Open Scope list_scope.

(** The compiled function returns, equation by equation and in row-major order,
    the residuals of the index equations that the array equations say. *)
Theorem c82_system :
  forall number_op c objs data equations names readings, real_arithmetic number_op -> given c objs data ->
    Forall2 (fun s r => equation_reads c objs (array_values objs data) s (fst r) (snd r) /\ defined_on c (fst r) (snd r)) equations readings ->
    length names = list_sum (map (fun r => prodn (map (size c) (fst r))) readings) ->
    exists blocks, pytensor_system number_op c objs equations names data = Ok (List.concat blocks) /\
      Forall2 (fun r block => block_of c (fst r) (snd r) block) readings blocks.
Proof. exact @c82_system__p. Qed.
Print Assumptions c82_system.
(** Two equations of the test model: X[i, j] = psi[i, j] * VC[j], and
    Y[i] = C[i] + the sum over j of X[i, j]. *)
Definition tm_c : coords := [("i", [LStr "a"; LStr "b"]); ("j", [LStr "u"; LStr "v"; LStr "w"])].
Definition tm_objs : list mobj :=
  [exobj KVar "Y" ["i"]; exobj KVar "C" ["i"]; exobj KVar "VC" ["j"]; exobj KVar "X" ["i"; "j"]; exobj KPar "psi_X" ["i"; "j"]].
Definition tm_data : dict (arr R) :=
  [("Y", mkArr [2] [9; 20]%R); ("C", mkArr [2] [1; 2]%R); ("VC", mkArr [3] [1; 2; 3]%R); ("X", mkArr [2; 3] [1; 2; 3; 4; 5; 6]%R); ("psi_X", mkArr [2; 3] [1; 1; 1; 2; 2; 2]%R)].
Definition tm_demand (rho : valuation) : indices -> option R := fun ix => lift2 (apply_op Sub) (rho "X" ix) (lift2 (apply_op Mul) (rho "psi_X" ix) (rho "VC" ix)).
Definition tm_market (rho : valuation) : indices -> option R := fun ix =>
  lift2 (apply_op Sub) (rho "Y" ix) (lift2 (apply_op Add) (rho "C" ix) (over tm_c Rplus 0%R "j" (rho "X") ix)).
Ltac align := unfold joined, padded; cbn; repeat (constructor; [unfold meet; auto|]); constructor.
Lemma tm_name rho o : In o tm_objs -> reads tm_c tm_objs rho (EWord (o_name o)) (map Some (o_dims o)) (rho (o_name o)).
Proof. intros H. apply reads_name; [exact H| |]; destruct H as [<-|[<-|[<-|[<-|[<-|[]]]]]]; cbn; (reflexivity || intuition discriminate). Qed.
Example c82_reading_ex rho : equation_reads tm_c tm_objs rho "X = psi_X * VC[None]" ["i"; "j"] (tm_demand rho) /\
  equation_reads tm_c tm_objs rho "Y = C + X.sum(axis=1)" ["i"] (tm_market rho).
Proof.
  pose proof (@tm_name rho (exobj KVar "Y" ["i"]) ltac:(cbn; auto 10)) as Y. pose proof (@tm_name rho (exobj KVar "C" ["i"]) ltac:(cbn; auto 10)) as C.
  pose proof (@tm_name rho (exobj KVar "VC" ["j"]) ltac:(cbn; auto 10)) as VC. pose proof (@tm_name rho (exobj KVar "X" ["i"; "j"]) ltac:(cbn; auto 10)) as X.
  pose proof (@tm_name rho (exobj KPar "psi_X" ["i"; "j"]) ltac:(cbn; auto 10)) as Psi. cbn in Y, C, VC, X, Psi.
  split.
  - exists "X ", " psi_X * VC[None]", (EWord "X"), (EBin Mul (EWord "psi_X") (EIndex (EWord "VC") (ECons (EWord "None") ENil))).
    split; [reflexivity|]. split; [apply only_axis_none; reflexivity|]. split; [reflexivity|]. split; [apply parse_sound; reflexivity|]. split; [apply parse_sound; reflexivity|].
    split; [repeat (constructor; [cbn; intuition discriminate|]); constructor|].
    apply (@reads_op tm_c tm_objs rho Sub _ _ [Some "i"; Some "j"] [Some "i"; Some "j"]); [exact X| |].
    + apply (@reads_op tm_c tm_objs rho Mul _ _ [Some "i"; Some "j"] [None; Some "j"]); [exact Psi| |].
      * apply (@reads_insert tm_c tm_objs rho _ _ [Some "j"]); [exact VC|]. repeat constructor.
      * align.
    + align.
  - exists "Y ", " C + X.sum(axis=1)", (EWord "Y"), (EBin Add (EWord "C") (ECall (EAttr (EWord "X") "sum") (ECons (EKw "axis" (EWord "1")) ENil))).
    split; [reflexivity|]. split; [apply only_axis_none; reflexivity|]. split; [reflexivity|]. split; [apply parse_sound; reflexivity|]. split; [apply parse_sound; reflexivity|].
    split; [repeat (constructor; [cbn; intuition discriminate|]); constructor|].
    apply (@reads_op tm_c tm_objs rho Sub _ _ [Some "i"] [Some "i"]); [exact Y| |align].
    apply (@reads_op tm_c tm_objs rho Add _ _ [Some "i"] [Some "i"]); [exact C| |align].
    apply (@reads_axis tm_c tm_objs rho (EWord "X") "sum" Rplus 0%R "1" [Some "i"] "j" []); [exact X|cbn; intuition discriminate|reflexivity|left; auto].
Qed.
Example c82_system_ex number_op names : real_arithmetic number_op -> length names = 8 ->
  exists b1 b2, pytensor_system number_op tm_c tm_objs ["X = psi_X * VC[None]"; "Y = C + X.sum(axis=1)"] names tm_data = Ok (b1 ++ b2) /\
    block_of tm_c ["i"; "j"] (tm_demand (array_values tm_objs tm_data)) b1 /\ block_of tm_c ["i"] (tm_market (array_values tm_objs tm_data)) b2.
Proof.
  intros H L. set (rho := array_values tm_objs tm_data).
  destruct (@c82_system number_op tm_c tm_objs tm_data ["X = psi_X * VC[None]"; "Y = C + X.sum(axis=1)"] names [(["i"; "j"], tm_demand rho); (["i"], tm_market rho)] H) as (blocks & E & B).
  - give.
  - destruct (c82_reading_ex rho) as (R1 & R2). repeat constructor; try assumption.
    + intros ix W. pose proof (W "i" ltac:(cbn; auto 10)) as Wi. pose proof (W "j" ltac:(cbn; auto 10)) as Wj. cbn in Wi, Wj. unfold snd, tm_demand, rho, array_values. cbn -[IZR].
      destruct (ix "i") as [|[|]]; [| |lia]; destruct (ix "j") as [|[|[|]]]; try lia; discriminate.
    + intros ix W. pose proof (W "i" ltac:(cbn; auto 10)) as Wi. cbn in Wi. unfold snd, tm_market, rho, array_values, over. cbn -[IZR].
      destruct (ix "i") as [|[|]]; [| |lia]; discriminate.
  - exact L.
  - inversion B as [|? b1 ? bs B1 B']; subst. inversion B' as [|? b2 ? bs' B2 B'']; subst. inversion B''; subst. exists b1, b2. split; [|split; assumption].
    rewrite E. cbn. now rewrite app_nil_r.
Qed.

(** Equations written in the notation that all backends share have the residuals
    of the index equation, if the dims of the objects line up from the right. *)
Theorem c82_shared :
  forall number_op c objs data equations names dims, real_arithmetic number_op -> given c objs data ->
    let value s ix := meaning (array_values objs data) ix (normalize_eq s) in
    Forall2 (fun s ds => shared_notation objs s ds /\ defined_on c ds (value s)) equations dims ->
    length names = list_sum (map (fun ds => prodn (map (size c) ds)) dims) ->
    exists blocks, pytensor_system number_op c objs equations names data = Ok (List.concat blocks) /\
      Forall2 (fun sd block => block_of c (snd sd) (value (fst sd)) block) (combine equations dims) blocks.
Proof. exact @c82_shared__p. Qed.
Print Assumptions c82_shared.
Example c82_shared_ex number_op names : real_arithmetic number_op -> length names = 6 ->
  shared_notation tm_objs "X = psi_X * VC" ["i"; "j"] /\
  exists block, pytensor_system number_op tm_c tm_objs ["X = psi_X * VC"] names tm_data = Ok block /\
    block_of tm_c ["i"; "j"] (fun ix => meaning (array_values tm_objs tm_data) ix (normalize_eq "X = psi_X * VC")) block.
Proof.
  intros H L. assert (S : shared_notation tm_objs "X = psi_X * VC" ["i"; "j"]).
  { exists "X ", " psi_X * VC", (EWord "X"), (EBin Mul (EWord "psi_X") (EWord "VC")).
    split; [reflexivity|]. split; [apply only_axis_none; reflexivity|]. split; [reflexivity|]. split; [apply parse_sound; reflexivity|]. split; [apply parse_sound; reflexivity|].
    split; [repeat constructor|]. split; [repeat constructor|]. split; [repeat (constructor; [cbn; intuition discriminate|]); constructor|]. split.
    - intros w M _.
      assert (W : In w ["X"; "psi_X"; "VC"]).
      { inversion M as [|? ? ? M1|? ? ? M1|]; subst; inversion M1 as [|? ? ? M2|? ? ? M2|]; subst; cbn; auto; inversion M2; subst; auto. }
      destruct W as [<-|[<-|[<-|[]]]]; (split; [cbn; intuition discriminate|]);
        [exists (exobj KVar "X" ["i"; "j"])|exists (exobj KPar "psi_X" ["i"; "j"])|exists (exobj KVar "VC" ["j"])]; (split; [cbn; auto 10|]); (split; [reflexivity|]);
        [exists []|exists []|exists ["i"]]; reflexivity.
    - right. exists (exobj KVar "X" ["i"; "j"]). split; [cbn; auto 10|]. split; [apply mn_left, mn_word|]. split; reflexivity. }
  split; [exact S|].
  destruct (@c82_shared number_op tm_c tm_objs tm_data ["X = psi_X * VC"] names [["i"; "j"]] H) as (blocks & E & B).
  - give.
  - constructor; [|constructor]. split; [exact S|]. intros ix W. pose proof (W "i" ltac:(cbn; auto 10)) as Wi. pose proof (W "j" ltac:(cbn; auto 10)) as Wj. cbn in Wi, Wj. unfold meaning.
    replace (parse (normalize_eq "X = psi_X * VC")) with (Some (EBin Sub (EWord "X") (EBin Mul (EWord "psi_X") (EWord "VC")))) by reflexivity. unfold array_values. cbn -[IZR].
    destruct (ix "i") as [|[|]]; [| |lia]; destruct (ix "j") as [|[|[|]]]; try lia; discriminate.
  - exact L.
  - inversion B as [|? b1 ? bs B1 B']; subst. inversion B'; subst. exists b1. split; [|exact B1]. rewrite E. cbn. now rewrite app_nil_r.
Qed.

(** So the system is solved just when every index equation holds at every index. *)
Theorem c82_solutions :
  forall number_op c objs data equations names dims, real_arithmetic number_op -> given c objs data ->
    let rho := array_values objs data in
    Forall2 (fun s ds => shared_notation objs s ds /\ defined_on c ds (fun ix => meaning rho ix (normalize_eq s))) equations dims ->
    length names = list_sum (map (fun ds => prodn (map (size c) ds)) dims) ->
    exists residuals, pytensor_system number_op c objs equations names data = Ok residuals /\
      (all_zero residuals <-> Forall2 (fun s ds => forall ix, (forall d, In d ds -> ix d < size c d) -> holds rho ix s) equations dims).
Proof. exact @c82_solutions__p. Qed.
Print Assumptions c82_solutions.
Example c82_solutions_ex number_op names : real_arithmetic number_op -> length names = 6 -> exists residuals,
  pytensor_system number_op tm_c tm_objs ["X = psi_X * VC"] names tm_data = Ok residuals /\
  (all_zero residuals <-> forall ix, (forall d, In d ["i"; "j"] -> ix d < size tm_c d) -> holds (array_values tm_objs tm_data) ix "X = psi_X * VC").
Proof.
  intros H L. destruct (@c82_shared_ex number_op names H L) as (S & _).
  destruct (@c82_solutions number_op tm_c tm_objs tm_data ["X = psi_X * VC"] names [["i"; "j"]] H) as (residuals & E & Z).
  - give.
  - constructor; [|constructor]. split; [exact S|]. intros ix W. pose proof (W "i" ltac:(cbn; auto 10)) as Wi. pose proof (W "j" ltac:(cbn; auto 10)) as Wj. cbn in Wi, Wj. unfold meaning.
    replace (parse (normalize_eq "X = psi_X * VC")) with (Some (EBin Sub (EWord "X") (EBin Mul (EWord "psi_X") (EWord "VC")))) by reflexivity. unfold array_values. cbn -[IZR].
    destruct (ix "i") as [|[|]]; [| |lia]; destruct (ix "j") as [|[|[|]]]; try lia; discriminate.
  - exact L.
  - exists residuals. split; [exact E|]. rewrite Z. split; intros F; [now inversion F|constructor; [exact F|constructor]].
Qed.

(** If they do not line up, another equation is compiled: Z = X * Y with Z and X
    over (i, j) and Y over i takes Y along j when there are as many i as j. *)
Theorem c82_alignment_refuted :
  exists c objs data s ix, given c objs data /\ (forall d, ix d < 2)%nat /\ meaning (array_values objs data) ix (normalize_eq s) = Some 1%R /\
    forall number_op names, real_arithmetic number_op -> length names = 4%nat ->
      pytensor_system number_op c objs [s] names data = Ok [0; 0; 0; 0]%R.
Proof. exact @c82_alignment_refuted__p. Qed.
Print Assumptions c82_alignment_refuted.
(** Dims of the same length count as the same dim: Y = X with Y over i and X over
    j has one residual per pair of equal positions. *)
Theorem c82_cross_refuted :
  exists c objs data s ix, given c objs data /\ (forall d, ix d < 2)%nat /\ meaning (array_values objs data) ix (normalize_eq s) = Some (-1)%R /\
    forall number_op names, real_arithmetic number_op -> length names = 2%nat ->
      pytensor_system number_op c objs [s] names data = Ok [0; 0]%R.
Proof. exact @c82_cross_refuted__p. Qed.
Print Assumptions c82_cross_refuted.
Example c82_cross_refuted_ex number_op : real_arithmetic number_op ->
  pytensor_system number_op al_c cr_objs ["Y = X"] ["Y_a"; "Y_b"] cr_data = Ok [0; 0]%R /\
  pytensor_system number_op tm_c [exobj KVar "Y" ["i"]; exobj KPar "X" ["j"]] ["Y = X"] ["Y_a"; "Y_b"] [("Y", mkArr [2] [1; 2]%R); ("X", mkArr [3] [1; 2; 3]%R)] = Err ValueError.
Proof.
  intros H. split; [|reflexivity]. transitivity (Ok [number_op Sub 1 1; number_op Sub 2 2]%R); [reflexivity|]. rewrite !(ra_sub _ _ H). repeat (f_equal; try lra).
Qed.
