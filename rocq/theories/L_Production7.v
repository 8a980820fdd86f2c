(** Lemmas for C59 and C60. *)
From Coq Require Import Ascii Reals Lra Lia ZArith.
From Verif Require Import Py PyStr M_PyExpr S_PyExpr L_PyExpr S_Meaning L_Meaning M_Production S_Production L_Production L_Production2 L_Production4 L_Production5 L_Production6.
Local Open Scope string_scope.
Local Open Scope list_scope.

(** ** C59 *)
(** Lists are accepted iff they match, or if one share of two is given. *)
Lemma second_alpha_length factors shares :
  length (fst (add_second_alpha (Many shares) (Many factors))) =
  if Nat.eqb (length factors) 2 && Nat.eqb (length shares) 1 then 2 else length shares.
Proof. destruct factors as [|a [|b [|c factors]]]; destruct shares as [|s [|t shares]]; reflexivity. Qed.
Lemma check_ok a b c : check_lengths (Many a) (Many b) (Many c) = Ok tt <-> length a = length b /\ length a = length c.
Proof.
  unfold check_lengths. cbn [at_least_list].
  destruct (Nat.eqb_spec (length a) (length b)), (Nat.eqb_spec (length a) (length c)), (Nat.eqb_spec (length b) (length c)); cbn [andb]; split; intros H; try discriminate; try lia; auto.
Qed.
Lemma check_cases a b c : check_lengths a b c = Ok tt \/ check_lengths a b c = Err ValueError.
Proof. unfold check_lengths. destruct (_ && _); auto. Qed.

Definition lists_match (factors prices shares : list string) : Prop :=
  length prices = length factors /\ (length shares = length factors \/ length factors = 2 /\ length shares = 1).
Lemma match_iff factors prices shares :
  (exists u, check_lengths (Many factors) (Many prices) (Many (fst (add_second_alpha (Many shares) (Many factors)))) = Ok u) <-> lists_match factors prices shares.
Proof.
  assert (X : (exists u, check_lengths (Many factors) (Many prices) (Many (fst (add_second_alpha (Many shares) (Many factors)))) = Ok u) <->
              check_lengths (Many factors) (Many prices) (Many (fst (add_second_alpha (Many shares) (Many factors)))) = Ok tt)
    by (split; [intros ([] & H); exact H|intros H; now exists tt]).
  rewrite X, check_ok, second_alpha_length. unfold lists_match.
  destruct (Nat.eqb_spec (length factors) 2), (Nat.eqb_spec (length shares) 1); cbn [andb]; lia.
Qed.

Lemma c59_accepts__p :
  forall (factors prices shares : list string) (output output_price TFP epsilon : string) (expand_price_dim : option string) (use_value : bool),
  ((exists eqs, fst (cobb_douglass (Many factors) (Many prices) output output_price (Many shares) TFP use_value) = Ok eqs) <->
   length prices = length factors /\ (length shares = length factors \/ length factors = 2 /\ length shares = 1)) /\
  ((exists eqs, fst (CES (Many factors) (Many prices) output output_price TFP (Many shares) epsilon expand_price_dim use_value) = Ok eqs) <->
   length prices = length factors /\ (length shares = length factors \/ length factors = 2 /\ length shares = 1)).
Proof.
  intros factors prices shares output output_price TFP epsilon ep uv. fold (lists_match factors prices shares). rewrite <- match_iff. unfold cobb_douglass, CES.
  destruct (add_second_alpha (Many shares) (Many factors)) as (sh, after). cbn [fst].
  destruct (check_cases (Many factors) (Many prices) (Many sh)) as [H|H]; rewrite H; cbn [bind]; split; split; intros (? & E); try discriminate; eexists; reflexivity.
Qed.

Lemma c59_equations__p :
  forall (factors prices shares : list string) (output output_price TFP epsilon : string) (expand_price_dim : option string) (use_value : bool) eqs,
  fst (cobb_douglass (Many factors) (Many prices) output output_price (Many shares) TFP use_value) = Ok eqs \/
  fst (CES (Many factors) (Many prices) output output_price TFP (Many shares) epsilon expand_price_dim use_value) = Ok eqs ->
  length eqs = S (length factors).
Proof.
  assert (Z : forall A B C (a : list A) (b : list B) (c : list C), length b = length a -> length c = length a -> length (zip3 a b c) = length a).
  { induction a as [|x a IH]; intros [|y b] [|z c] H1 H2; try discriminate; [reflexivity|]. cbn [zip3 length] in *. f_equal. apply IH; lia. }
  intros factors prices shares output output_price TFP epsilon ep uv eqs H. unfold cobb_douglass, CES in H.
  destruct (add_second_alpha (Many shares) (Many factors)) as (sh, after). cbn [fst iter] in H.
  destruct (check_cases (Many factors) (Many prices) (Many sh)) as [E|E]; rewrite E in H; cbn [bind] in H; [|destruct H; discriminate].
  apply check_ok in E as (E1 & E2). destruct H as [H|H]; apply ok_eq in H; subst eqs; cbn [length]; rewrite map_length, Z; rewrite ?map_length; congruence.
Qed.

(** The missing share of two factors is inferred as one minus the other... *)
Lemma c59_inferred__p :
  forall (f1 f2 p1 p2 a output output_price TFP epsilon : string) (expand_price_dim : option string) (use_value : bool),
  let full := Many [a; ("1 - " ++ a)%string] in
  fst (cobb_douglass (Many [f1; f2]) (Many [p1; p2]) output output_price (Many [a]) TFP use_value) =
    fst (cobb_douglass (Many [f1; f2]) (Many [p1; p2]) output output_price full TFP use_value) /\
  fst (cobb_douglass (Many [f1; f2]) (Many [p1; p2]) output output_price (One a) TFP use_value) =
    fst (cobb_douglass (Many [f1; f2]) (Many [p1; p2]) output output_price full TFP use_value) /\
  fst (CES (Many [f1; f2]) (Many [p1; p2]) output output_price TFP (Many [a]) epsilon expand_price_dim use_value) =
    fst (CES (Many [f1; f2]) (Many [p1; p2]) output output_price TFP full epsilon expand_price_dim use_value) /\
  fst (CES (Many [f1; f2]) (Many [p1; p2]) output output_price TFP (One a) epsilon expand_price_dim use_value) =
    fst (CES (Many [f1; f2]) (Many [p1; p2]) output output_price TFP full epsilon expand_price_dim use_value).
Proof. intros. repeat split; reflexivity. Qed.
(** ... but not that of three, though the documentation says so. *)
Lemma c59_inferred_refuted__p :
  fst (cobb_douglass (Many ["K"; "L"; "E"]) (Many ["r"; "w"; "pe"]) "Y" "P" (Many ["a"; "b"]) "A" true) = Err ValueError /\
  fst (CES (Many ["K"; "L"; "E"]) (Many ["r"; "w"; "pe"]) "Y" "P" "A" (Many ["a"; "b"]) "eps" None true) = Err ValueError.
Proof. split; reflexivity. Qed.

(** The caller's list of shares is left alone unless one share of two was given as a list. *)
Lemma c59_unmodified__p :
  forall (factors prices shares : names) (output output_price TFP epsilon : string) (expand_price_dim : option string) (use_value : bool),
  (forall f1 f2 a, factors = Many [f1; f2] -> shares <> Many [a]) ->
  snd (cobb_douglass factors prices output output_price shares TFP use_value) = shares /\
  snd (CES factors prices output output_price TFP shares epsilon expand_price_dim use_value) = shares.
Proof.
  intros factors prices shares output output_price TFP epsilon ep uv H. unfold cobb_douglass, CES.
  assert (X : snd (add_second_alpha shares factors) = shares).
  { unfold add_second_alpha. destruct factors as [f|[|f1 [|f2 [|f3 l]]]]; try reflexivity. destruct shares as [s|[|a [|b l]]]; try reflexivity. now destruct (H f1 f2 a eq_refl). }
  destruct (add_second_alpha shares factors) as (sh, after). cbn [snd] in *. now split.
Qed.
Lemma c59_mutation_refuted__p :
  snd (cobb_douglass (Many ["K"; "L"]) (Many ["r"; "w"]) "Y" "P" (Many ["a"]) "A" true) = Many ["a"; "1 - a"] /\
  snd (CES (Many ["K"; "L"]) (Many ["r"; "w"]) "Y" "P" "A" (Many ["a"]) "eps" None true) = Many ["a"; "1 - a"].
Proof. split; reflexivity. Qed.
(** A list shared by two calls: alone the second call succeeds, after the first it fails. *)
Lemma c59_shared_list_refuted__p :
  exists shares, let first := cobb_douglass (Many ["K"; "L"]) (Many ["r"; "w"]) "Y" "P" shares "A" true in
    let second shares := fst (cobb_douglass (Many ["E"]) (Many ["pe"]) "Z" "Q" shares "B" true) in
    (exists eqs, second shares = Ok eqs) /\ second (snd first) = Err ValueError.
Proof. exists (Many ["a"]). cbn zeta. split; [eexists; reflexivity|reflexivity]. Qed.

(** Called again with the same arguments, changed or not, the equations are the same. *)
Lemma c59_again__p :
  forall (factors prices shares : names) (output output_price TFP epsilon : string) (expand_price_dim : option string) (use_value : bool),
  (let cd s := cobb_douglass factors prices output output_price s TFP use_value in fst (cd (snd (cd shares))) = fst (cd shares)) /\
  (let ces s := CES factors prices output output_price TFP s epsilon expand_price_dim use_value in fst (ces (snd (ces shares))) = fst (ces shares)).
Proof.
  intros factors prices shares output output_price TFP epsilon ep uv.
  assert (X : fst (add_second_alpha (snd (add_second_alpha shares factors)) factors) = fst (add_second_alpha shares factors)).
  { unfold add_second_alpha. destruct factors as [f|[|f1 [|f2 [|f3 l]]]]; try reflexivity. destruct shares as [s|[|a [|b l]]]; reflexivity. }
  cbn zeta. unfold cobb_douglass, CES.
  destruct (add_second_alpha shares factors) as (sh, after) eqn:E. cbn [snd fst] in *.
  destruct (add_second_alpha after factors) as (sh2, after2). cbn [fst] in *. subst. now split.
Qed.

(** A single factor given as a string is taken apart into its characters. *)
Lemma c59_string_refuted__p :
  fst (cobb_douglass (One "Labor") (One "wage") "Y" "P" (One "a") "A" false) =
    Ok ["Y = A * L ** (a)"; "L = (a) * Y * (P) / (w)"].
Proof. reflexivity. Qed.

Lemma c59_leontief__p :
  forall (factors prices shares : list string) (output output_price dim : string) coords sum_dim expand_price_dim transpose_output backend,
  (exists eqs, leontief (Many factors) (Many prices) output output_price (Many shares) (One dim) coords sum_dim expand_price_dim transpose_output backend = Ok eqs) <->
  length prices = length factors /\ length shares = length factors /\ length factors <> 1.
Proof.
  intros. unfold leontief. cbn [at_least_list].
  assert (C := check_ok factors prices shares). destruct (check_cases (Many factors) (Many prices) (Many shares)) as [E|E]; rewrite E in *; cbn [bind].
  - destruct (proj1 C eq_refl) as (C1 & C2). destruct (Nat.eqb_spec (length factors) 1) as [X|X]; split; intros H; try (destruct H; discriminate); [lia|auto|eexists; reflexivity].
  - split; [intros (? & ?); discriminate|]. intros (H1 & H2 & _). assert (X : Err ValueError = Ok tt) by (apply C; split; congruence). discriminate.
Qed.

Lemma c59_dixit_stiglitz__p :
  forall (factors prices : list string) (shares : option (list string)) (output output_price epsilon dim : string) coords backend TFP use_value,
  (exists eqs, dixit_stiglitz (Many factors) (Many prices) output output_price epsilon dim coords backend TFP (option_map Many shares) use_value = Ok eqs) <->
  length factors = 1 /\ length prices = 1 /\ (forall s, shares = Some s -> length s = 1) /\ dget dim coords <> None /\ (backend = "numba" \/ backend = "pytensor").
Proof.
  assert (S : forall l : list string, (exists s, single (Many l) = Ok s) <-> length l = 1).
  { intros [|a [|b l]]; cbn [single length]; split; intros H; try (destruct H; discriminate); try lia; eauto. }
  assert (E : forall l : list string, length l <> 1 -> single (Many l) = Err ValueError).
  { intros [|a [|b l]] H; cbn [single length] in *; [reflexivity|congruence|reflexivity]. }
  intros factors prices shares output output_price epsilon dim coords backend TFP uv. unfold dixit_stiglitz.
  destruct (Nat.eq_dec (length factors) 1) as [F|F]; [|rewrite (E _ F); cbn [bind]; split; [intros (? & ?); discriminate|tauto]].
  destruct (proj2 (S factors) F) as (f & ->). cbn [bind].
  destruct (Nat.eq_dec (length prices) 1) as [Pr|Pr]; [|rewrite (E _ Pr); cbn [bind]; split; [intros (? & ?); discriminate|tauto]].
  destruct (proj2 (S prices) Pr) as (p & ->). cbn [bind].
  assert (Sh : (exists o, (match option_map Many shares with None => Ok None | Some x => let* s := single x in Ok (Some s) end) = Ok o) <-> (forall s, shares = Some s -> length s = 1)).
  { destruct shares as [s|]; cbn [option_map].
    - split; [intros (o & H) s' X; injection X as <-; apply S; destruct (single (Many s)); [eauto|discriminate]|].
      intros H. destruct (proj2 (S s) (H s eq_refl)) as (w & ->). cbn [bind]. eauto.
    - split; [discriminate|eauto]. }
  destruct (match option_map Many shares with None => Ok None | Some x => let* s := single x in Ok (Some s) end) as [o|er] eqn:Eo; cbn [bind].
  2:{ split; [intros (? & ?); discriminate|]. intros (_ & _ & H & _). apply Sh in H as (? & ?). discriminate. }
  assert (Hs : forall s, shares = Some s -> length s = 1) by (apply Sh; eauto). unfold dgetitem.
  destruct (dget dim coords) as [labels|]; cbn [bind]; [|split; [intros (? & ?); discriminate|intros (_ & _ & _ & H & _); now destruct H]].
  unfold ds_rhs. destruct (String.eqb_spec backend "numba") as [->|B1]; cbn [bind]; [split; [intros _; repeat split; auto; discriminate|eauto]|].
  destruct (String.eqb_spec backend "pytensor") as [->|B2]; cbn [bind]; [split; [intros _; repeat split; auto; discriminate|eauto]|].
  split; [intros (? & ?); discriminate|]. intros (_ & _ & _ & _ & [H|H]); contradiction.
Qed.

(** ** C60 *)
Lemma same_sum g l l' : Forall2 same_values l l' -> (forall f f', same_values f f' -> g f = g f') -> sum_over g l = sum_over g l'.
Proof. intros F G. unfold sum_over. induction F as [|f f' l l' H F IH]; cbn [fold_right]; [reflexivity|]. now rewrite IH, (G f f' H). Qed.
Lemma same_prod g l l' : Forall2 same_values l l' -> (forall f f', same_values f f' -> g f = g f') -> prod_over g l = prod_over g l'.
Proof. intros F G. unfold prod_over. induction F as [|f f' l l' H F IH]; cbn [fold_right]; [reflexivity|]. now rewrite IH, (G f f' H). Qed.
Lemma same_all (P : factor -> Prop) l l' : Forall2 same_values l l' -> (forall f f', same_values f f' -> P f <-> P f') -> (forall f, In f l -> P f) <-> (forall f, In f l' -> P f).
Proof.
  intros F G. rewrite <- !Forall_forall. induction F as [|f f' l l' H F IH]; [split; constructor|]. rewrite !Forall_cons_iff, IH. now rewrite (G f f' H).
Qed.
Lemma same_nonempty l l' : Forall2 same_values l l' -> l <> [] -> l' <> [].
Proof. intros F N. destruct F; [congruence|discriminate]. Qed.

Ltac sv := let q := fresh in let p := fresh in let s := fresh in intros f f' (q & p & s); rewrite ?q, ?p, ?s; reflexivity.

(** However the quantities, prices and shares are written, as long as each is
    written as a unit (shares as any expression), the equations say the same. *)
Lemma c60_cobb_douglass__p :
  forall (rho : valuation) (ix : indices) (l l' : list factor) (output output' output_price output_price' TFP TFP' : string) (y p a : R) (use_value : bool) eqs eqs',
  l <> [] -> Forall2 same_values l l' -> Forall (factor_ok rho ix) l -> Forall (factor_ok rho ix) l' -> (forall f, In f l -> 0 < qty f)%R ->
  unit_val rho ix output y -> unit_val rho ix output' y -> no_eq output -> no_eq output' ->
  unit_val rho ix output_price p -> unit_val rho ix output_price' p -> no_eq output_price -> no_eq output_price' ->
  unit_val rho ix TFP a -> unit_val rho ix TFP' a ->
  fst (cobb_douglass (Many (map f_name l)) (Many (map f_price l)) output output_price (Many (map f_share l)) TFP use_value) = Ok eqs ->
  fst (cobb_douglass (Many (map f_name l')) (Many (map f_price l')) output' output_price' (Many (map f_share l')) TFP' use_value) = Ok eqs' ->
  (Forall (holds rho ix) eqs <-> Forall (holds rho ix) eqs').
Proof.
  intros rho ix l l' o o' op op' T T' y p a uv eqs eqs' N S F F' Pq Y Y' Ny Ny' P P' Np Np' A A' E E'.
  assert (Pq' : (forall f, In f l' -> 0 < qty f)%R) by (apply (same_all (fun f => 0 < qty f)%R S); [sv|exact Pq]).
  destruct (@c55_meaning__p rho ix l o op T y p a uv N F Pq Y Ny P Np A) as (e1 & E1 & _ & M1). rewrite E in E1. apply ok_eq in E1. subst e1.
  destruct (@c55_meaning__p rho ix l' o' op' T' y p a uv (same_nonempty S N) F' Pq' Y' Ny' P' Np' A') as (e2 & E2 & _ & M2). rewrite E' in E2. apply ok_eq in E2. subst e2.
  rewrite M1, M2. rewrite (same_all (fun f => (price f * qty f = share f * (p * y))%R) S) by sv.
  destruct uv.
  - now rewrite (@same_sum (fun f => price f * qty f)%R l l' S) by sv.
  - now rewrite (@same_prod (fun f => Rpower (qty f) (share f)) l l' S) by sv.
Qed.
Lemma c60_CES__p :
  forall (rho : valuation) (ix : indices) (l l' : list factor) (output output' output_price output_price' TFP TFP' epsilon epsilon' : string) (y p a e : R) (use_value : bool) eqs eqs',
  l <> [] -> Forall2 same_values l l' -> Forall (factor_ok rho ix) l -> Forall (factor_ok rho ix) l' -> (forall f, In f l -> 0 < qty f /\ 0 < share f)%R ->
  (0 < y /\ 0 < p /\ 0 < a)%R -> e <> 0%R -> e <> 1%R ->
  unit_val rho ix output y -> unit_val rho ix output' y -> no_eq output -> no_eq output' ->
  unit_val rho ix output_price p -> unit_val rho ix output_price' p -> no_eq output_price -> no_eq output_price' ->
  unit_val rho ix TFP a -> unit_val rho ix TFP' a -> unit_val rho ix epsilon e -> unit_val rho ix epsilon' e ->
  fst (CES (Many (map f_name l)) (Many (map f_price l)) output output_price TFP (Many (map f_share l)) epsilon None use_value) = Ok eqs ->
  fst (CES (Many (map f_name l')) (Many (map f_price l')) output' output_price' TFP' (Many (map f_share l')) epsilon' None use_value) = Ok eqs' ->
  (Forall (holds rho ix) eqs <-> Forall (holds rho ix) eqs').
Proof.
  intros rho ix l l' o o' op op' T T' ep ep' y p a e uv eqs eqs' N S F F' Pq P3 E0 E1 Y Y' Ny Ny' P P' Np Np' A A' Ep Ep' E E'.
  assert (Pq' : (forall f, In f l' -> 0 < qty f /\ 0 < share f)%R) by (apply (same_all (fun f => 0 < qty f /\ 0 < share f)%R S); [sv|exact Pq]).
  destruct (@c56_equivalent__p rho ix l o op T ep y p a e N F Pq P3 Y Ny P Np A Ep E0 E1) as (v1 & pr1 & d1 & C1 & C2 & D1 & V1 & P1 & _).
  destruct (@c56_equivalent__p rho ix l' o' op' T' ep' y p a e (same_nonempty S N) F' Pq' P3 Y' Ny' P' Np' A' Ep' E0 E1) as (v2 & pr2 & d2 & C1' & C2' & D2 & V2 & P2 & _).
  assert (D : Forall (holds rho ix) d1 <-> Forall (holds rho ix) d2).
  { refine (iff_trans D1 (iff_trans _ (iff_sym D2))). apply (same_all (fun f => qty f = (y / a * Rpower (share f * p * a / price f) e)%R) S). sv. }
  destruct uv; [rewrite C1 in E; rewrite C1' in E'|rewrite C2 in E; rewrite C2' in E']; apply ok_eq in E; apply ok_eq in E'; subst eqs eqs'; rewrite !Forall_cons_iff, D.
  - rewrite V1, V2. now rewrite (@same_sum (fun f => price f * qty f)%R l l' S) by sv.
  - rewrite P1, P2. now rewrite (@same_sum (fun f => share f * Rpower (qty f) ((e - 1) / e))%R l l' S) by sv.
Qed.
Lemma c60_leontief__p :
  forall (rho : valuation) (ix : indices) (l l' : list factor) (output output' output_price output_price' d : string) coords sum_dim expand_price_dim transpose_output backend (y p : R) eqs eqs',
  2 <= length l -> Forall2 same_values l l' -> Forall (factor_ok rho ix) l -> Forall (factor_ok rho ix) l' ->
  Forall (fun f => unit_val rho ix (f_share f) (share f)) l -> Forall (fun f => unit_val rho ix (f_share f) (share f)) l' ->
  unit_val rho ix output y -> unit_val rho ix output' y -> no_eq output -> no_eq output' ->
  expr_val rho ix output_price p -> expr_val rho ix output_price' p -> p <> 0%R -> y <> 0%R ->
  let le l output output_price := leontief (Many (map f_name l)) (Many (map f_price l)) output output_price (Many (map f_share l)) (One d) coords sum_dim expand_price_dim transpose_output backend in
  le l output output_price = Ok eqs -> le l' output' output_price' = Ok eqs' ->
  (Forall (holds rho ix) eqs <-> Forall (holds rho ix) eqs').
Proof.
  intros rho ix l l' o o' op op' d coords sd ep tr backend y p eqs eqs' N S F F' U U' Y Y' Ny Ny' P P' Np Nyz le E E'. unfold le in *.
  assert (N' : 2 <= length l') by (assert (EL : length l = length l') by (clear -S; induction S; cbn [length]; congruence); lia).
  destruct (@c57_one_dim__p rho ix l o op d coords sd ep tr backend y p N F U Y Ny P Np Nyz) as (e1 & E1 & M1 & _). rewrite E in E1. apply ok_eq in E1. subst e1.
  destruct (@c57_one_dim__p rho ix l' o' op' d coords sd ep tr backend y p N' F' U' Y' Ny' P' Np Nyz) as (e2 & E2 & M2 & _). rewrite E' in E2. apply ok_eq in E2. subst e2.
  rewrite M1, M2. rewrite (same_all (fun f => (qty f = share f * y)%R) S) by sv.
  now rewrite (@same_sum (fun f => price f * qty f)%R l l' S) by sv.
Qed.

(** Sums in other positions are torn apart. *)
Definition hygiene_values : valuation := env [("K", 1%R); ("L", 1%R); ("r", 1%R); ("w", 1%R); ("u", 1%R); ("v", 1%R); ("z", 2%R); ("P", 1%R); ("A", 1%R); ("a", (1 / 2)%R)].

Ltac refute_eq := intros H; revert H; unfold holds, meaning;
  match goal with |- match parse ?s with _ => _ end = _ -> _ => let e := eval vm_compute in (parse s) in replace (parse s) with e by (vm_compute; reflexivity) end;
  cbv -[Rplus Rminus Rmult Rdiv Ropp Rinv IZR Req_EM_T Rlt_dec Rpower];
  repeat match goal with |- context [Req_EM_T ?a ?b] => destruct (Req_EM_T a b); [exfalso; lra|] end; intros H; injection H as H; lra.

(** Output u + v instead of a name z for it: the demand reads share * u + v * price. *)
Lemma c60_output_refuted__p :
  exists rho ix eqs eqs',
    let cd output := fst (cobb_douglass (Many ["K"; "L"]) (Many ["r"; "w"]) output "P" (Many ["a"; "a"]) "A" true) in
    cd "z" = Ok eqs /\ cd "u + v" = Ok eqs' /\ meaning rho ix "u + v" = rho "z" ix /\ Forall (holds rho ix) eqs /\ ~ Forall (holds rho ix) eqs'.
Proof.
  exists hygiene_values, (fun _ => 0). eexists _, _. cbn zeta. split; [reflexivity|]. split; [reflexivity|]. split; [|split].
  - unfold meaning. match goal with |- match parse ?s with _ => _ end = _ => let e := eval vm_compute in (parse s) in replace (parse s) with e by (vm_compute; reflexivity) end.
    cbv -[Rplus IZR]. f_equal; lra.
  - repeat constructor; compute_parse; eval_eq.
  - intros H. apply Forall_inv_tail, Forall_inv in H. revert H. refute_eq.
Qed.

(** A single share b - c: the other is inferred as 1 - b - c. *)
Definition share_values : valuation := env [("K", 1%R); ("L", 3%R); ("r", 1%R); ("w", 1%R); ("Y", 4%R); ("P", 1%R); ("A", 1%R); ("b", (1 / 2)%R); ("c", (1 / 4)%R); ("z", (1 / 4)%R)].
Lemma c60_share_refuted__p :
  exists rho ix eqs eqs',
    let cd share := fst (cobb_douglass (Many ["K"; "L"]) (Many ["r"; "w"]) "Y" "P" (One share) "A" true) in
    cd "z" = Ok eqs /\ cd "b - c" = Ok eqs' /\ meaning rho ix "b - c" = rho "z" ix /\ Forall (holds rho ix) eqs /\ ~ Forall (holds rho ix) eqs'.
Proof.
  exists share_values, (fun _ => 0). eexists _, _. cbn zeta. split; [reflexivity|]. split; [reflexivity|]. split; [|split].
  - unfold meaning. match goal with |- match parse ?s with _ => _ end = _ => let e := eval vm_compute in (parse s) in replace (parse s) with e by (vm_compute; reflexivity) end.
    cbv -[Rminus IZR Rdiv]. f_equal. lra.
  - repeat constructor; compute_parse; eval_eq.
  - intros H. apply Forall_inv_tail, Forall_inv_tail, Forall_inv in H. revert H. refute_eq.
Qed.

(** Leontief coefficient b - c *)
Definition coefficient_values : valuation := env [("K", 1%R); ("L", 3%R); ("r", 1%R); ("w", 1%R); ("Y", 4%R); ("P", 1%R); ("b", (1 / 2)%R); ("c", (1 / 4)%R); ("z", (1 / 4)%R); ("d", (3 / 4)%R)].
Lemma c60_coefficient_refuted__p :
  exists rho ix eqs eqs',
    let le share := leontief (Many ["K"; "L"]) (Many ["r"; "w"]) "Y" "P" (Many [share; "d"]) (One "i") [("i", ["A"])] None true true "numba" in
    le "z" = Ok eqs /\ le "b - c" = Ok eqs' /\ meaning rho ix "b - c" = rho "z" ix /\ Forall (holds rho ix) eqs /\ ~ Forall (holds rho ix) eqs'.
Proof.
  exists coefficient_values, (fun _ => 0). eexists _, _. cbn zeta. split; [reflexivity|]. split; [reflexivity|]. split; [|split].
  - unfold meaning. match goal with |- match parse ?s with _ => _ end = _ => let e := eval vm_compute in (parse s) in replace (parse s) with e by (vm_compute; reflexivity) end.
    cbv -[Rminus IZR Rdiv]. f_equal. lra.
  - repeat constructor; compute_parse; eval_eq.
  - intros H. apply Forall_inv_tail, Forall_inv in H. revert H. refute_eq.
Qed.

(** the demands of CES with expand_price_dim are those for prices written with [:, None] *)
Lemma c59_expand__p :
  forall (factors prices : list string) (shares : names) (output output_price TFP epsilon which : string) (use_value : bool),
  let wide p := (p ++ "[:, None]")%string in
  let ces prices output_price expand := fst (CES (Many factors) (Many prices) output output_price TFP shares epsilon expand use_value) in
  forall eqs, ces prices output_price (Some which) = Ok eqs ->
  exists plain demands, ces prices output_price None = Ok plain /\
    ces (if (String.eqb which "input" || String.eqb which "both")%bool then map wide prices else prices)
        (if (String.eqb which "output" || String.eqb which "both")%bool then wide output_price else output_price) None = Ok demands /\
    eqs = firstn 1 plain ++ skipn 1 demands.
Proof.
  intros factors prices shares output op TFP eps which uv wide ces eqs. unfold ces, CES. destruct (add_second_alpha shares (Many factors)) as (sh & after). cbn [fst].
  set (prices' := if (_ || _)%bool then _ else prices). set (op' := if (_ || _)%bool then _ else op).
  assert (L : forall a b c, check_lengths a (Many b) c = check_lengths a (Many (map wide b)) c) by (intros; unfold check_lengths; cbn [at_least_list]; now rewrite map_length).
  assert (L' : check_lengths (Many factors) (Many prices') (Many sh) = check_lengths (Many factors) (Many prices) (Many sh)) by (unfold prices'; destruct (_ || _)%bool; [symmetry; apply L|reflexivity]).
  rewrite L'. destruct (check_lengths (Many factors) (Many prices) (Many sh)); [|discriminate]. cbn [bind]. intros H. assert (OI : forall (a b : list string), Ok a = Ok b -> a = b) by congruence. apply OI in H. subst eqs.
  do 2 eexists. split; [reflexivity|]. split; [reflexivity|]. cbn [firstn skipn app iter].
  assert (E1 : expand ["output"; "both"] (Some which) op = expand ["output"; "both"] None op').
  { unfold expand, op'. cbn [existsb]. rewrite orb_false_r. destruct (_ || _)%bool; reflexivity. }
  assert (E2 : map (expand ["input"; "both"] (Some which)) prices = map (expand ["input"; "both"] None) prices').
  { unfold prices', expand. cbn [existsb]. rewrite orb_false_r. destruct (_ || _)%bool; [rewrite map_map|]; apply map_ext; reflexivity. }
  rewrite E1, E2. reflexivity.
Qed.
