(** Lemmas for C82: equations in the notation shared by all backends. *)
From Coq Require Import Ascii Reals Lra Lia ZArith.
From Verif Require Import Py PyStr NdArray M_Primitives M_PyExpr M_Equations M_Tensor S_PyExpr S_Meaning S_Production S_Layout S_Tensor L_PyExpr L_Meaning L_Production6 L_Tensor L_Tensor2.
Local Open Scope string_scope.
Local Open Scope list_scope.

Lemma meets_same (l : list axis) : meets l l l.
Proof. induction l; constructor; [left; auto|assumption]. Qed.
Lemma joined_suffix (l b : list axis) : joined (l ++ b) b (l ++ b) /\ joined b (l ++ b) (l ++ b).
Proof.
  unfold joined, padded. rewrite !app_length. rewrite (Nat.max_l (length l + length b)) by lia. rewrite (Nat.max_r (length b)) by lia.
  rewrite Nat.sub_diag. cbn [repeat app]. replace (length l + length b - length b) with (length l) by lia.
  split; induction l as [|x l IH]; cbn [length repeat app]; try apply meets_same; constructor; auto; [left|right]; auto.
Qed.
Lemma suffix_total (a b d : list string) : suffix a d -> suffix b d -> suffix a b \/ suffix b a.
Proof.
  intros (x & ->) (y & E). unfold suffix. revert y E. induction x as [|h x IH]; intros y E.
  - cbn in E. subst a. right. exists y. reflexivity.
  - destruct y as [|k y]; [cbn in E; subst b; left; now exists (h :: x)|]. cbn in E. injection E as _ E. now apply IH with y.
Qed.
Lemma suffix_trans a b d : suffix a b -> suffix b d -> suffix a d.
Proof. intros (x & ->) (y & ->). exists (y ++ x). apply app_assoc. Qed.

Lemma arith_reads c objs rho e D : arithmetic e ->
  (forall w, mentions w e -> number w = None -> ~ In w ["pt"; "None"] /\ exists o, In o objs /\ o_name o = w /\ suffix (o_dims o) D) ->
  NoDup (map o_name objs) ->
  exists A F, reads c objs rho e (map Some A) F /\ suffix A D /\ (forall ix, F ix = eval rho ix e) /\
    (forall o, In o objs -> mentions (o_name o) e -> number (o_name o) = None -> suffix (o_dims o) A).
Proof.
  intros Ar H N. induction Ar as [w|op a b Ha IHa Hb IHb|a Ha IHa].
  - destruct (number w) as [n|] eqn:E.
    + exists [], (fun _ => Some (IZR (Z.of_nat n))). split; [now apply reads_number|]. split; [exists D; now rewrite app_nil_r|]. split; [intros ix; cbn; now rewrite E|].
      intros o _ M Nn. inversion M; subst. congruence.
    + destruct (H w (mn_word w) E) as (P & o & Io & <- & So). exists (o_dims o), (rho (o_name o)). split; [now apply reads_name|]. split; [exact So|].
      split; [intros ix; cbn; now rewrite E|]. intros o' Io' M _. inversion M as [Q| | |]; subst.
      assert (o' = o) as ->; [|now exists []]. clear - N Io Io' Q. induction objs as [|x l IH]; [destruct Io|]. inversion N as [|? ? Nx Nl]; subst.
      destruct Io as [->|Io], Io' as [->|Io']; auto; exfalso; apply Nx; [rewrite <- Q|rewrite Q]; now apply in_map.
  - destruct IHa as (A & F & RA & SA & FA & MA); [intros w M; apply H; now apply mn_left|]. destruct IHb as (B & G & RB & SB & GB & MB); [intros w M; apply H; now apply mn_right|].
    assert (J : exists C, joined (map Some A) (map Some B) (map Some C) /\ suffix C D /\ suffix A C /\ suffix B C).
    { destruct (suffix_total SA SB) as [(l & E)|(l & E)].
      - exists B. subst B. rewrite map_app. split; [apply joined_suffix|]. split; [exact SB|]. split; [now exists l|now exists []].
      - exists A. subst A. rewrite map_app. split; [apply joined_suffix|]. split; [exact SA|]. split; [now exists []|now exists l]. }
    destruct J as (C & J & SC & AC & BC). exists C. eexists. split; [exact (reads_op op RA RB J)|]. split; [exact SC|]. split; [intros ix; cbn [eval]; now rewrite FA, GB|].
    intros o Io M Nn. inversion M; subst; [apply suffix_trans with A; [now apply MA|exact AC]|apply suffix_trans with B; [now apply MB|exact BC]].
  - destruct IHa as (A & F & RA & SA & FA & MA); [intros w M; apply H; now apply mn_neg|]. exists A. eexists. split; [exact (reads_neg RA)|]. split; [exact SA|].
    split; [intros ix; cbn [eval]; now rewrite FA|]. intros o Io M Nn. inversion M; subst. now apply MA.
Qed.
Lemma shared_reads c objs rho s D : NoDup (map o_name objs) -> shared_notation objs s D ->
  exists F, equation_reads c objs rho s D F /\ forall ix, F ix = meaning rho ix (normalize_eq s).
Proof.
  intros N (lhs & rhs & el & er & -> & Oa & Ea & Hl & Hr & Al & Ar & ND & W & T).
  destruct (@arith_reads c objs rho (EBin Sub el er) D (ar_op Sub Al Ar) W N) as (A & F & RA & SA & FA & MA).
  assert (A = D) as ->.
  { destruct T as [-> |(o & Io & Mo & No & <-)]; [destruct SA as ([|] & E); [now symmetry in E|discriminate]|].
    destruct SA as (x & E). destruct (MA o Io Mo No) as (y & E'). rewrite E in E'. rewrite app_assoc in E'.
    assert (L : length A = length (y ++ x) + length A) by (rewrite <- app_length, <- E'; reflexivity). rewrite app_length in L.
    destruct x; [|simpl in L; lia]. now symmetry. }
  exists F. split; [exists lhs, rhs, el, er; auto 10|]. intros ix. rewrite FA. unfold meaning. now rewrite (proj1 (@c54_difference__p lhs rhs el er Hl Hr Oa Ea)).
Qed.

Lemma c82_shared__p :
  forall number_op c objs data equations names dims, real_arithmetic number_op -> given c objs data ->
    let value s ix := meaning (array_values objs data) ix (normalize_eq s) in
    Forall2 (fun s ds => shared_notation objs s ds /\ defined_on c ds (value s)) equations dims ->
    length names = list_sum (map (fun ds => prodn (map (size c) ds)) dims) ->
    exists blocks, pytensor_system number_op c objs equations names data = Ok (List.concat blocks) /\
      Forall2 (fun sd block => block_of c (snd sd) (value (fst sd)) block) (combine equations dims) blocks.
Proof.
  intros number_op c objs data equations names dims Ar G value H L.
  assert (X : exists readings, Forall2 (fun s r => equation_reads c objs (array_values objs data) s (fst r) (snd r) /\ defined_on c (fst r) (snd r)) equations readings /\
            map fst readings = dims /\ Forall2 (fun sd r => fst r = snd sd /\ forall ix, snd r ix = value (fst sd) ix) (combine equations dims) readings).
  { clear L. induction H as [|s ds eqs dss (Hs & Ds) H (rs & R1 & R2 & R3)]; [exists []; repeat split; constructor|].
    destruct (@shared_reads c objs (array_values objs data) s ds (proj1 G) Hs) as (F & EF & MF). exists ((ds, F) :: rs). split; [|split; [cbn; congruence|]].
    - constructor; [|exact R1]. split; [exact EF|]. intros ix W. cbn. rewrite MF. now apply Ds.
    - cbn [combine]. constructor; [|exact R3]. split; [reflexivity|]. intros ix. apply MF. }
  destruct X as (readings & R1 & R2 & R3). destruct (@c82_system__p number_op c objs data equations names readings Ar G R1) as (blocks & E & B).
  { rewrite L, <- R2, map_map. reflexivity. }
  exists blocks. split; [exact E|]. clear - R3 B. revert blocks B. induction R3 as [|sd r sds rs (E1 & E2) R IH]; intros blocks B; inversion B as [|? b ? bs Hb Hbs]; subst; constructor; [|now apply IH].
  destruct Hb as (L & Hb). rewrite E1 in *. split; [exact L|]. intros ix W. now rewrite Hb, E2.
Qed.

(** ** Where the dims do not line up *)
Lemma ra_sub number_op x y : real_arithmetic number_op -> number_op Sub x y = (x - y)%R.
Proof. intros H. now apply H. Qed.
Lemma ra_mul number_op x y : real_arithmetic number_op -> number_op Mul x y = (x * y)%R.
Proof. intros H. now apply H. Qed.

(** Z[i, j] = X[i, j] * Y[i] with as many i as j: the array Y is taken along j. *)
Definition al_c : coords := [("i", [LStr "a"; LStr "b"]); ("j", [LStr "u"; LStr "v"])].
Definition al_objs : list mobj := [exobj KVar "Z" ["i"; "j"]; exobj KPar "Y" ["i"]; exobj KPar "X" ["i"; "j"]].
Definition al_data : dict (arr R) := [("Z", mkArr [2; 2] [1; 2; 1; 2]%R); ("Y", mkArr [2] [1; 2]%R); ("X", mkArr [2; 2] [1; 1; 1; 1]%R)].
Lemma given_intro c objs data : NoDup (map o_name objs) ->
  Forall (fun o => exists a, dget (o_name o) data = Some a /\ fits c o a) objs -> given c objs data.
Proof. intros N F. split; [exact N|]. now apply Forall_forall. Qed.
Ltac give := apply given_intro; [repeat (constructor; [cbn; intuition discriminate|]); constructor|
  repeat (constructor; [eexists; split; [reflexivity|split; [reflexivity|unfold has_shape; cbn; repeat (constructor; [eexists; split; reflexivity|]); constructor]]|]); constructor].
Lemma al_given : given al_c al_objs al_data.
Proof. give. Qed.
Lemma al_system number_op names : real_arithmetic number_op -> length names = 4 ->
  pytensor_system number_op al_c al_objs ["Z = X * Y"] names al_data = Ok [0; 0; 0; 0]%R.
Proof.
  intros H L. destruct names as [|n1 [|n2 [|n3 [|n4 [|]]]]]; try discriminate.
  transitivity (Ok [number_op Sub 1 (number_op Mul 1 1); number_op Sub 2 (number_op Mul 1 2); number_op Sub 1 (number_op Mul 1 1); number_op Sub 2 (number_op Mul 1 2)]%R); [reflexivity|].
  rewrite !(ra_sub _ _ H), !(ra_mul _ _ H). repeat (f_equal; try lra).
Qed.

Definition al_at (i j : nat) : indices := fun d => if String.eqb d "i" then i else j.
Lemma al_meaning : meaning (array_values al_objs al_data) (al_at 0 1) (normalize_eq "Z = X * Y") = Some 1%R.
Proof.
  unfold meaning.
  replace (parse (normalize_eq "Z = X * Y")) with (Some (EBin Sub (EWord "Z") (EBin Mul (EWord "X") (EWord "Y")))) by reflexivity. transitivity (Some (2 - 1 * 1)%R); [reflexivity|f_equal; lra].
Qed.
Lemma c82_alignment_refuted__p :
  exists c objs data s ix, given c objs data /\ (forall d, ix d < 2)%nat /\ meaning (array_values objs data) ix (normalize_eq s) = Some 1%R /\
    forall number_op names, real_arithmetic number_op -> length names = 4%nat ->
      pytensor_system number_op c objs [s] names data = Ok [0; 0; 0; 0]%R.
Proof.
  exists al_c, al_objs, al_data, "Z = X * Y"%string, (al_at 0 1). split; [exact al_given|]. split; [intros d; unfold al_at; destruct (String.eqb d "i"); lia|].
  split; [exact al_meaning|]. intros number_op names. apply al_system.
Qed.

(** Y[i] = X[j] with as many i as j: n residuals, not n squared. *)
Definition cr_objs : list mobj := [exobj KVar "Y" ["i"]; exobj KPar "X" ["j"]].
Definition cr_data : dict (arr R) := [("Y", mkArr [2] [1; 2]%R); ("X", mkArr [2] [1; 2]%R)].
Lemma c82_cross_refuted__p :
  exists c objs data s ix, given c objs data /\ (forall d, ix d < 2)%nat /\ meaning (array_values objs data) ix (normalize_eq s) = Some (-1)%R /\
    forall number_op names, real_arithmetic number_op -> length names = 2%nat ->
      pytensor_system number_op c objs [s] names data = Ok [0; 0]%R.
Proof.
  exists al_c, cr_objs, cr_data, "Y = X"%string, (al_at 0 1). split; [give|]. split; [intros d; unfold al_at; destruct (String.eqb d "i"); lia|]. split.
  - unfold meaning.
    replace (parse (normalize_eq "Y = X")) with (Some (EBin Sub (EWord "Y") (EWord "X"))) by reflexivity. transitivity (Some (1 - 2)%R); [reflexivity|f_equal; lra].
  - intros number_op names H L. destruct names as [|n1 [|n2 [|]]]; try discriminate.
    transitivity (Ok [number_op Sub 1 1; number_op Sub 2 2]%R); [reflexivity|]. rewrite !(ra_sub _ _ H). repeat (f_equal; try lra).
Qed.
