(** The parser of the model reads every string of the grammar. *)
From Coq Require Import Ascii.
From Verif Require Import Py PyStr M_PyExpr S_PyExpr.
Local Open Scope string_scope.
Local Open Scope list_scope.

(** ** Fuel *)
Lemma P_mono1 : forall n m ts r, P n m ts = Some r -> P (S n) m ts = Some r.
Proof.
  induction n as [|n IH]; intros m ts r H; [discriminate|].
  remember (S n) as n1 eqn:En. rename IH into IH'. rewrite En in H. clear En.
  Ltac go n IH' H :=
    match type of H with
    | Some _ = Some _ => exact H
    | P n _ _ = Some _ => apply IH'; exact H
    | None = Some _ => discriminate H
    | match P n ?m ?t with _ => _ end = _ =>
        let E := fresh "E" in let a := fresh "a" in let r := fresh "r" in
        destruct (P n m t) as [(a & r)|] eqn:E; [rewrite (IH' _ _ _ E); go n IH' H|discriminate H]
    | match ?l with [] => _ | _ :: _ => _ end = _ => destruct l; go n IH' H
    | match ?t with Word _ => _ | _ => _ end = _ => destruct t; go n IH' H
    | (if ?b then _ else _) = _ => destruct b; go n IH' H
    end.
  destruct m; cbn [P] in H |- *.
  all: go n IH' H.
Qed.
Lemma P_mono n n' m ts r : P n m ts = Some r -> n <= n' -> P n' m ts = Some r.
Proof. intros H. induction 1 as [|k Hk IH]; [exact H|]. now apply P_mono1. Qed.

Arguments P_mono [n n' m ts r] _ _.
(** ** Completeness *)

(** How tightly a token binds what stands before it *)
Definition tight (t : token) : nat :=
  match t with Dot | LP | LB => 4 | Pow => 3 | Star | Slash => 2 | Plus | Minus => 1 | _ => 0 end.
Definition stop (k : nat) (rest : list token) : Prop := match rest with [] => True | t :: _ => tight t <= k end.
(** What may follow an argument *)
Definition stopI (rest : list token) : Prop :=
  match rest with [] => False | t :: _ => match t with Comma | RP | RB | RC => True | _ => False end end.
(** How an expression starts *)
Definition starts (ts : list token) : Prop :=
  match ts with
  | [] => False
  | Word _ :: Equal :: _ => False
  | t :: _ => match t with Word _ | LP | LB | LC | Minus => True | _ => False end
  end.

Lemma starts_app a b : starts a -> match b with Equal :: _ => False | _ => True end -> starts (a ++ b).
Proof.
  destruct a as [|t a]; [intros []|]. destruct t; simpl; auto. destruct a as [|t a]; simpl; auto.
Qed.

Lemma G_starts lvl ts e : G lvl ts e ->
  match lvl with
  | LItem => True | LArgs => True
  | LPrim | LPower => starts ts /\ match ts with Minus :: _ => False | _ => True end
  | _ => starts ts
  end.
Proof.
  assert (A : forall a b, (starts a /\ match a with Minus :: _ => False | _ => True end) -> match b with Equal :: _ => False | _ => True end ->
              starts (a ++ b) /\ match a ++ b with Minus :: _ => False | _ => True end).
  { intros a b (S1 & S2) Hb. split; [now apply starts_app|]. destruct a as [|[] a]; simpl in *; auto. contradiction. }
  induction 1; simpl; auto; try (apply A; [assumption|exact I]); try (apply starts_app; [assumption|exact I]); try tauto.
Qed.

Definition spec (lvl : level) (ts : list token) (e : pexpr) : Prop :=
  match lvl with
  | LPrim => forall rest r n, P n (MTrail e) rest = Some r -> P (n + (12 * length ts - 8)) MPrim (ts ++ rest) = Some r
  | LPower => forall rest, stop 2 rest -> P (12 * length ts - 6) MPower (ts ++ rest) = Some (e, rest)
  | LFactor => forall rest, stop 2 rest -> P (12 * length ts - 5) MFactor (ts ++ rest) = Some (e, rest)
  | LTerm => forall rest r n, stop 2 rest -> P n (MTermL e) rest = Some r -> P (n + (12 * length ts - 3)) MTerm (ts ++ rest) = Some r
  | LExpr => forall rest r n, stop 1 rest -> P n (MExprL e) rest = Some r -> P (n + (12 * length ts - 1)) MExpr (ts ++ rest) = Some r
  | LItem => forall rest, stopI rest -> P (12 * length ts + 1) MItem (ts ++ rest) = Some (e, rest)
  | LArgs => forall close rest, In close [RP; RB; RC] -> P (12 * length ts + 2) (MArgs close) (ts ++ close :: rest) = Some (e, rest)
  end.

Lemma trail_stop e rest : stop 3 rest -> P 1 (MTrail e) rest = Some (e, rest).
Proof. destruct rest as [|[] rest]; simpl; intros; try reflexivity; lia. Qed.
Lemma terml_stop e rest : stop 1 rest -> P 1 (MTermL e) rest = Some (e, rest).
Proof. destruct rest as [|[] rest]; simpl; intros; try reflexivity; lia. Qed.
Lemma exprl_stop e rest : stop 0 rest -> P 1 (MExprL e) rest = Some (e, rest).
Proof. destruct rest as [|[] rest]; simpl; intros; try reflexivity; lia. Qed.
Arguments trail_stop e [rest] _. Arguments terml_stop e [rest] _. Arguments exprl_stop e [rest] _.
Lemma stop_le j k rest : stop j rest -> j <= k -> stop k rest.
Proof. destruct rest; simpl; [auto|lia]. Qed.

Arguments stop_le [j k] [rest] _ _.
Lemma G_length lvl ts e : G lvl ts e -> match lvl with LArgs => True | _ => 1 <= length ts end.
Proof. induction 1; auto; try (rewrite ?app_length; simpl; rewrite ?app_length; simpl; lia). Qed.

Lemma G_whole lvl ts e : G lvl ts e -> match lvl with LItem | LArgs => True | _ => only_argument e = false end.
Proof. induction 1; auto. Qed.

Ltac fuel n := let k := fresh "k" in let E := fresh "E" in
  match goal with |- P ?m _ _ = _ => destruct m as [|k] eqn:E; [exfalso; lia|]; cbn [P] end.

Lemma item_not_closed lvl a ea : G lvl a ea -> lvl = LItem -> forall close, In close [RP; RB; RC] ->
  exists t a', a = t :: a' /\ closes close t = false.
Proof.
  intros H. destruct H; try discriminate; intros _ close Hc.
  - pose proof (G_starts H) as S. simpl in S. destruct ts as [|t ts]; [destruct S|]. exists t, ts. split; [reflexivity|].
    destruct t; simpl in S; try (destruct ts as [|[]]; contradiction); destruct Hc as [<-|[<-|[<-|[]]]]; reflexivity.
  - exists Colon, []. split; [reflexivity|]. destruct Hc as [<-|[<-|[<-|[]]]]; reflexivity.
  - eexists. eexists. split; [reflexivity|]. destruct Hc as [<-|[<-|[<-|[]]]]; reflexivity.
  - pose proof (G_starts H) as S. simpl in S. destruct a as [|t ts]; [destruct S|]. exists t, (ts ++ Colon :: b). split; [reflexivity|].
    destruct t; simpl in S; try (destruct ts as [|[]]; contradiction); destruct Hc as [<-|[<-|[<-|[]]]]; reflexivity.
Qed.

Lemma closes_refl close : In close [RP; RB; RC] -> closes close close = true.
Proof. intros [<-|[<-|[<-|[]]]]; reflexivity. Qed.

(** An expression as an argument *)
Lemma item_expr k ts e : starts ts -> forall rest, stopI rest ->
  P k MExpr (ts ++ rest) = Some (e, rest) -> P (S k) MItem (ts ++ rest) = Some (e, rest).
Proof.
  intros S rest Hr H. cbn [P]. rewrite H. destruct ts as [|t ts]; [destruct S|].
  destruct rest as [|t1 rest]; [destruct Hr|].
  destruct t1; simpl in Hr; try contradiction; destruct t; simpl in S; try contradiction; try reflexivity;
    destruct ts as [|[] ts]; simpl in S; try contradiction; reflexivity.
Qed.
Lemma P_complete lvl ts e : G lvl ts e -> spec lvl ts e.
Proof.
  induction 1; cbn [spec] in *; intros.
  - (* term *) pose proof (G_length H) as L. cbn in L. fuel n.
    rewrite (@P_mono (1 + (12 * length ts - 3)) _ _ _ _ (IHG rest (e, rest) 1 ltac:(eapply stop_le; [eassumption|lia]) (terml_stop _ H0))) by lia.
    apply (@P_mono n); [exact H1|lia].
  - (* add *) pose proof (G_length H) as L1. pose proof (G_length H0) as L2. cbn in L1, L2. rewrite app_length. cbn [length]. rewrite <- app_assoc. cbn [app].
    refine (@P_mono (n + 12 * S (length b) + (12 * length a - 1)) _ _ _ _ _ _); [|lia].
    apply IHG1; [simpl; lia|]. fuel n.
    rewrite (@P_mono (1 + (12 * length b - 3)) _ _ _ _ (IHG2 rest (eb, rest) 1 ltac:(eapply stop_le; [eassumption|lia]) (terml_stop _ H1))) by lia.
    apply (@P_mono n); [exact H2|lia].
  - (* sub *) pose proof (G_length H) as L1. pose proof (G_length H0) as L2. cbn in L1, L2. rewrite app_length. cbn [length]. rewrite <- app_assoc. cbn [app].
    refine (@P_mono (n + 12 * S (length b) + (12 * length a - 1)) _ _ _ _ _ _); [|lia].
    apply IHG1; [simpl; lia|]. fuel n.
    rewrite (@P_mono (1 + (12 * length b - 3)) _ _ _ _ (IHG2 rest (eb, rest) 1 ltac:(eapply stop_le; [eassumption|lia]) (terml_stop _ H1))) by lia.
    apply (@P_mono n); [exact H2|lia].
  - (* factor *) pose proof (G_length H) as L. cbn in L. fuel n.
    rewrite (@P_mono _ k _ _ _ (IHG rest H0)) by lia. apply (@P_mono n); [exact H1|lia].
  - (* mul *) pose proof (G_length H) as L1. pose proof (G_length H0) as L2. cbn in L1, L2. rewrite app_length. cbn [length]. rewrite <- app_assoc. cbn [app].
    refine (@P_mono (n + 12 * S (length b) + (12 * length a - 3)) _ _ _ _ _ _); [|lia].
    apply IHG1; [simpl; lia|]. fuel n.
    rewrite (@P_mono _ k _ _ _ (IHG2 rest H1)) by lia. apply (@P_mono n); [exact H2|lia].
  - (* div *) pose proof (G_length H) as L1. pose proof (G_length H0) as L2. cbn in L1, L2. rewrite app_length. cbn [length]. rewrite <- app_assoc. cbn [app].
    refine (@P_mono (n + 12 * S (length b) + (12 * length a - 3)) _ _ _ _ _ _); [|lia].
    apply IHG1; [simpl; lia|]. fuel n.
    rewrite (@P_mono _ k _ _ _ (IHG2 rest H1)) by lia. apply (@P_mono n); [exact H2|lia].
  - (* power *) pose proof (G_length H) as L. cbn in L. pose proof (G_starts H) as (_ & S). fuel n.
    pose proof (@P_mono _ k _ _ _ (IHG rest H0) ltac:(lia)) as X.
    destruct ts as [|[] ts]; simpl in L, S |- *; try lia; try contradiction; exact X.
  - (* neg *) pose proof (G_length H) as L. cbn in L. cbn [length app]. fuel n.
    rewrite (@P_mono _ k _ _ _ (IHG rest H0)) by lia. reflexivity.
  - (* prim *) pose proof (G_length H) as L. cbn in L. fuel n.
    rewrite (@P_mono _ k _ _ _ (IHG rest (e, rest) 1 (trail_stop _ (stop_le (k := 3) H0 ltac:(lia))))) by lia.
    destruct rest as [|[] rest]; simpl in H0; try reflexivity; lia.
  - (* pow *) pose proof (G_length H) as L1. pose proof (G_length H0) as L2. cbn in L1, L2. rewrite app_length. cbn [length]. rewrite <- app_assoc. cbn [app].
    fuel n. rewrite (@P_mono _ k _ _ _ (IHG1 (Pow :: b ++ rest) (ea, Pow :: b ++ rest) 1 (@trail_stop ea (Pow :: b ++ rest) (le_n 3)))) by lia.
    rewrite (@P_mono _ k _ _ _ (IHG2 rest H1)) by lia. reflexivity.
  - (* word *) cbn [length app]. fuel n. apply (@P_mono n); [exact H|lia].
  - (* paren *) pose proof (G_length H) as L. cbn in L. pose proof (G_starts H) as S. cbn in S. cbn [length app]. rewrite app_length, <- app_assoc. cbn [length app]. fuel n.
    assert (X : P (Datatypes.S (12 * length ts)) MItem (ts ++ RP :: rest) = Some (e, RP :: rest)).
    { apply item_expr; [exact S|exact I|]. refine (P_mono (IHG (RP :: rest) (e, RP :: rest) 1 (Nat.le_0_l 1) (@exprl_stop e (RP :: rest) (le_n 0))) _). lia. }
    rewrite (@P_mono _ k _ _ _ X) by lia. pose proof (G_whole H) as W. cbn in W. rewrite W. apply (@P_mono n); [exact H0|lia].
  - (* attr *) pose proof (G_length H) as L. cbn in L. rewrite app_length, <- app_assoc. cbn [length app].
    refine (@P_mono (S n + (12 * length ts - 8)) _ _ _ _ _ _); [|lia]. apply IHG. cbn [P]. exact H0.
  - (* call *) pose proof (G_length H) as L. cbn in L. rewrite !app_length, <- app_assoc. cbn [length app]. rewrite app_length, <- app_assoc. cbn [length app].
    refine (@P_mono (n + (12 * length a + 3) + (12 * length f - 8)) _ _ _ _ _ _); [|lia]. apply IHG1. fuel n.
    rewrite (@P_mono _ k _ _ _ (IHG2 RP rest ltac:(simpl; auto))) by lia. apply (@P_mono n); [exact H1|lia].
  - (* index *) pose proof (G_length H) as L. cbn in L. rewrite !app_length, <- app_assoc. cbn [length app]. rewrite app_length, <- app_assoc. cbn [length app].
    refine (@P_mono (n + (12 * length a + 3) + (12 * length f - 8)) _ _ _ _ _ _); [|lia]. apply IHG1. fuel n.
    rewrite (@P_mono _ k _ _ _ (IHG2 RB rest ltac:(simpl; auto))) by lia. apply (@P_mono n); [exact H1|lia].
  - (* tuple *) cbn [length app]. rewrite !app_length, <- app_assoc. cbn [length app]. rewrite app_length, <- app_assoc. cbn [length app]. fuel n.
    rewrite (@P_mono _ k _ _ _ (IHG1 (Comma :: b ++ RP :: rest) I)) by lia.
    rewrite (@P_mono _ k _ _ _ (IHG2 RP rest ltac:(simpl; auto))) by lia. apply (@P_mono n); [exact H1|lia].
  - (* list *) cbn [length app]. rewrite !app_length, <- app_assoc. cbn [length app]. fuel n.
    rewrite (@P_mono _ k _ _ _ (IHG RB rest ltac:(simpl; auto))) by lia. apply (@P_mono n); [exact H0|lia].
  - (* dict *) cbn [length app]. rewrite !app_length, <- app_assoc. cbn [length app]. fuel n.
    rewrite (@P_mono _ k _ _ _ (IHG RC rest ltac:(simpl; auto))) by lia. apply (@P_mono n); [exact H0|lia].
  - (* nil *) cbn [length app]. fuel n. rewrite (closes_refl H). reflexivity.
  - (* one *) destruct (item_not_closed H eq_refl H0) as (t & a' & -> & C). fuel n. cbn [app]. rewrite C.
    assert (X : P (12 * length (t :: a') + 1) MItem (t :: a' ++ close :: rest) = Some (ea, close :: rest))
      by (apply (IHG (close :: rest)); destruct H0 as [<-|[<-|[<-|[]]]]; exact I).
    rewrite (@P_mono _ k _ _ _ X) by lia. rewrite (closes_refl H0). reflexivity.
  - (* cons *) destruct (item_not_closed H eq_refl H1) as (t & a' & -> & C). rewrite app_length. cbn [length]. rewrite <- app_assoc. cbn [app]. fuel n. rewrite C.
    assert (X : P (12 * length (t :: a') + 1) MItem (t :: a' ++ Comma :: b ++ close :: rest) = Some (ea, Comma :: b ++ close :: rest)) by (apply (IHG1 (Comma :: b ++ close :: rest)); exact I).
    rewrite (@P_mono _ k _ _ _ X) by (cbn [length] in *; lia).
    assert (D : closes close Comma = false) by (destruct H1 as [<-|[<-|[<-|[]]]]; reflexivity). rewrite D.
    rewrite (@P_mono _ k _ _ _ (IHG2 close rest H1)) by (cbn [length] in *; lia). reflexivity.
  - (* item *) pose proof (G_length H) as L. cbn in L. pose proof (G_starts H) as S. cbn in S.
    refine (P_mono (@item_expr (12 * length ts) ts e S rest H0 _) _); [|lia].
    refine (P_mono (IHG rest (e, rest) 1 _ (exprl_stop _ _)) _); [| |lia]; destruct rest as [|[] rest]; simpl in H0; try contradiction; simpl; lia.
  - (* colon *) cbn. reflexivity.
  - (* kw *) pose proof (G_length H) as L. cbn in L. cbn [length app]. fuel n.
    assert (S0 : stop 0 rest) by (destruct rest as [|[] rest]; simpl in H0; try contradiction; simpl; lia).
    rewrite (@P_mono _ k _ _ _ (IHG rest (e, rest) 1 (stop_le S0 (Nat.le_0_l 1)) (exprl_stop e S0))) by lia. reflexivity.
  - (* pair *) pose proof (G_length H) as L1. pose proof (G_length H0) as L2. cbn in L1, L2. pose proof (G_starts H) as S. cbn in S.
    rewrite app_length. cbn [length]. rewrite <- app_assoc. cbn [app]. fuel n.
    assert (X1 : P k MExpr (a ++ Colon :: b ++ rest) = Some (ea, Colon :: b ++ rest)).
    { refine (P_mono (IHG1 (Colon :: b ++ rest) (ea, Colon :: b ++ rest) 1 (Nat.le_0_l 1) (@exprl_stop ea (Colon :: b ++ rest) (le_n 0))) _). lia. }
    assert (X2 : P k MExpr (b ++ rest) = Some (eb, rest)).
    { refine (P_mono (IHG2 rest (eb, rest) 1 _ (exprl_stop _ _)) _); [| |lia]; destruct rest as [|[] rest]; simpl in H1; try contradiction; simpl; lia. }
    rewrite X1, X2. destruct a as [|t a]; [destruct S|]. destruct t; simpl in S |- *; try contradiction; try reflexivity.
    destruct a as [|[] a]; simpl in S |- *; try contradiction; reflexivity.
Qed.

(** What the grammar derives is what the parser reads. *)
Theorem parse_complete s e : is_expr s e -> parse s = Some e.
Proof.
  intros H. pose proof (G_length H) as L. cbn in L. unfold parse, parse_tokens.
  pose proof (P_complete H) as X. cbn [spec] in X. specialize (X [] (e, []) 1 I eq_refl). rewrite app_nil_r in X.
  rewrite (P_mono (n' := 12 * length (tokenize s) + 12) X) by lia. reflexivity.
Qed.
Theorem is_expr_unique s e e' : is_expr s e -> is_expr s e' -> e = e'.
Proof. intros H H'. apply parse_complete in H, H'. congruence. Qed.

(** What the parser reads is derived by the grammar. *)
Definition sound (m : mode) (used : list token) (e : pexpr) : Prop :=
  match m with
  | MExpr => G LExpr used e
  | MExprL acc => forall a, G LExpr a acc -> G LExpr (a ++ used) e
  | MTerm => G LTerm used e
  | MTermL acc => forall a, G LTerm a acc -> G LTerm (a ++ used) e
  | MFactor => G LFactor used e
  | MPower => G LPower used e
  | MPrim => G LPrim used e
  | MTrail acc => forall a, G LPrim a acc -> G LPrim (a ++ used) e
  | MArgs close => exists u, used = u ++ [close] /\ G LArgs u e
  | MItem => G LItem used e
  end.
Lemma closes_eq close t : closes close t = true -> t = close.
Proof. destruct close, t; cbn; congruence. Qed.
Lemma item_whole ts e : G LItem ts e -> only_argument e = false -> G LExpr ts e.
Proof. intros H. inversion H; subst; cbn; congruence. Qed.
Lemma P_sound : forall n m ts e r, P n m ts = Some (e, r) -> exists used, ts = used ++ r /\ sound m used e.
Proof.
  induction n as [|n IH]; intros m ts e r H; [discriminate|].
  destruct m; cbn [P] in H; cbn [sound].
  - destruct (P n MTerm ts) as [(t & r1)|] eqn:E1; [|discriminate]. apply IH in E1, H. destruct E1 as (u1 & -> & S1), H as (u2 & -> & S2).
    exists (u1 ++ u2). split; [apply app_assoc|]. now apply S2, G_term.
  - assert (Z : Some (acc, ts) = Some (e, r) -> exists used, ts = used ++ r /\ forall a, G LExpr a acc -> G LExpr (a ++ used) e).
    { intros [= <- <-]. exists []. split; [reflexivity|]. intros a. now rewrite app_nil_r. }
    destruct ts as [|[] ts]; try exact (Z H); (destruct (P n MTerm ts) as [(t & r1)|] eqn:E1; [|discriminate]); apply IH in E1, H;
      destruct E1 as (u1 & -> & S1), H as (u2 & -> & S2); eexists (_ :: u1 ++ u2); (split; [cbn; now rewrite <- app_assoc|]); intros a Ha.
    + replace (a ++ Plus :: u1 ++ u2) with ((a ++ Plus :: u1) ++ u2) by now rewrite <- app_assoc. apply S2. now apply G_add.
    + replace (a ++ Minus :: u1 ++ u2) with ((a ++ Minus :: u1) ++ u2) by now rewrite <- app_assoc. apply S2. now apply G_sub.
  - destruct (P n MFactor ts) as [(t & r1)|] eqn:E1; [|discriminate]. apply IH in E1, H. destruct E1 as (u1 & -> & S1), H as (u2 & -> & S2).
    exists (u1 ++ u2). split; [apply app_assoc|]. now apply S2, G_factor.
  - assert (Z : Some (acc, ts) = Some (e, r) -> exists used, ts = used ++ r /\ forall a, G LTerm a acc -> G LTerm (a ++ used) e).
    { intros [= <- <-]. exists []. split; [reflexivity|]. intros a. now rewrite app_nil_r. }
    destruct ts as [|[] ts]; try exact (Z H); (destruct (P n MFactor ts) as [(t & r1)|] eqn:E1; [|discriminate]); apply IH in E1, H;
      destruct E1 as (u1 & -> & S1), H as (u2 & -> & S2); eexists (_ :: u1 ++ u2); (split; [cbn; now rewrite <- app_assoc|]); intros a Ha.
    + replace (a ++ Star :: u1 ++ u2) with ((a ++ Star :: u1) ++ u2) by now rewrite <- app_assoc. apply S2. now apply G_mul.
    + replace (a ++ Slash :: u1 ++ u2) with ((a ++ Slash :: u1) ++ u2) by now rewrite <- app_assoc. apply S2. now apply G_div.
  - assert (Z : P n MPower ts = Some (e, r) -> exists used, ts = used ++ r /\ G LFactor used e).
    { intros X. apply IH in X. destruct X as (u & -> & S). exists u. split; [reflexivity|]. now apply G_power. }
    destruct ts as [|[] ts]; try exact (Z H). destruct (P n MFactor ts) as [(t & r1)|] eqn:E1; [|discriminate]. injection H as <- <-. apply IH in E1.
    destruct E1 as (u1 & -> & S1). exists (Minus :: u1). split; [reflexivity|]. now apply G_neg.
  - destruct (P n MPrim ts) as [(t & r1)|] eqn:E1; [|discriminate]. apply IH in E1. destruct E1 as (u1 & -> & S1).
    assert (Z : Some (t, r1) = Some (e, r) -> exists used, u1 ++ r1 = used ++ r /\ G LPower used e).
    { intros [= <- <-]. exists u1. split; [reflexivity|]. now apply G_prim. }
    destruct r1 as [|[] r1]; try exact (Z H). destruct (P n MFactor r1) as [(b & r2)|] eqn:E2; [|discriminate]. injection H as <- <-. apply IH in E2.
    destruct E2 as (u2 & -> & S2). exists (u1 ++ Pow :: u2). split; [now rewrite <- app_assoc|]. now apply G_pow.
  - destruct ts as [|[] ts]; try discriminate.
    + apply IH in H. destruct H as (u & -> & S). exists (Word w :: u). split; [reflexivity|]. apply (S [Word w]). apply G_word.
    + destruct (P n MItem ts) as [(a & [|[] r1])|] eqn:E1; try discriminate.
      * destruct (only_argument a) eqn:W; [discriminate|]. apply IH in E1, H. destruct E1 as (u1 & -> & S1), H as (u2 & -> & S2). cbn in S1, S2.
        exists (LP :: u1 ++ RP :: u2). split; [cbn; now rewrite <- app_assoc|].
        replace (LP :: u1 ++ RP :: u2) with ((LP :: u1 ++ [RP]) ++ u2) by (cbn; now rewrite <- app_assoc). apply S2, G_paren. now apply item_whole.
      * destruct (P n (MArgs RP) r1) as [(args & r2)|] eqn:E2; [|discriminate]. apply IH in E1, E2, H.
        destruct E1 as (u1 & -> & S1), E2 as (u2 & -> & u & -> & S2), H as (u3 & -> & S3). cbn in S1, S3.
        exists (LP :: u1 ++ Comma :: u ++ RP :: u3). split; [cbn; rewrite <- !app_assoc; cbn; now rewrite <- app_assoc|].
        replace (LP :: u1 ++ Comma :: u ++ RP :: u3) with ((LP :: u1 ++ Comma :: u ++ [RP]) ++ u3) by (cbn; rewrite <- !app_assoc; cbn; now rewrite <- app_assoc).
        apply S3. now apply G_tuple.
    + destruct (P n (MArgs RB) ts) as [(args & r2)|] eqn:E2; [|discriminate]. apply IH in E2, H. destruct E2 as (u2 & -> & u & -> & S2), H as (u3 & -> & S3). cbn in S3.
      exists ((LB :: u ++ [RB]) ++ u3). split; [cbn; now rewrite <- !app_assoc|]. apply S3. now apply G_list.
    + destruct (P n (MArgs RC) ts) as [(args & r2)|] eqn:E2; [|discriminate]. apply IH in E2, H. destruct E2 as (u2 & -> & u & -> & S2), H as (u3 & -> & S3). cbn in S3.
      exists ((LC :: u ++ [RC]) ++ u3). split; [cbn; now rewrite <- !app_assoc|]. apply S3. now apply G_dict.
  - assert (Z : Some (acc, ts) = Some (e, r) -> exists used, ts = used ++ r /\ forall a, G LPrim a acc -> G LPrim (a ++ used) e).
    { intros [= <- <-]. exists []. split; [reflexivity|]. intros a. now rewrite app_nil_r. }
    destruct ts as [|[] ts]; try exact (Z H).
    + destruct (P n (MArgs RP) ts) as [(args & r2)|] eqn:E2; [|discriminate]. apply IH in E2, H. destruct E2 as (u2 & -> & u & -> & S2), H as (u3 & -> & S3). cbn in S3.
      exists ((LP :: u ++ [RP]) ++ u3). split; [cbn; now rewrite <- !app_assoc|]. intros a Ha. rewrite app_assoc. apply S3. now apply G_call.
    + destruct (P n (MArgs RB) ts) as [(args & r2)|] eqn:E2; [|discriminate]. apply IH in E2, H. destruct E2 as (u2 & -> & u & -> & S2), H as (u3 & -> & S3). cbn in S3.
      exists ((LB :: u ++ [RB]) ++ u3). split; [cbn; now rewrite <- !app_assoc|]. intros a Ha. rewrite app_assoc. apply S3. now apply G_index.
    + destruct ts as [|[] ts]; try exact (Z H). apply IH in H. destruct H as (u & -> & S). exists ([Dot; Word w] ++ u). split; [reflexivity|].
      intros a Ha. rewrite app_assoc. apply S. now apply G_attr.
  - destruct ts as [|t ts]; [discriminate|]. destruct (closes close t) eqn:C.
    + injection H as <- <-. apply closes_eq in C. subst t. exists [close]. split; [reflexivity|]. exists []. split; [reflexivity|constructor].
    + destruct (P n MItem (t :: ts)) as [(a & [|t1 r1])|] eqn:E1; try discriminate. apply IH in E1. destruct E1 as (u1 & -> & S1). cbn in S1.
      destruct (closes close t1) eqn:C1.
      * injection H as <- <-. apply closes_eq in C1. subst t1. exists (u1 ++ [close]). split; [now rewrite <- app_assoc|]. exists u1. split; [reflexivity|]. now apply G_one.
      * destruct t1; try discriminate. destruct (P n (MArgs close) r1) as [(b & r2)|] eqn:E2; [|discriminate]. injection H as <- <-. apply IH in E2.
        destruct E2 as (u2 & -> & u & -> & S2). exists (u1 ++ Comma :: u ++ [close]). split; [rewrite <- !app_assoc; cbn; now rewrite <- !app_assoc|]. exists (u1 ++ Comma :: u). split; [now rewrite <- app_assoc|].
        now apply G_cons.
  - assert (Z : match P n MExpr ts with Some (a, Colon :: r) => match P n MExpr r with Some (b, r') => Some (EPair a b, r') | None => None end | x => x end = Some (e, r) ->
              exists used, ts = used ++ r /\ G LItem used e).
    { intros X. destruct (P n MExpr ts) as [(a & r1)|] eqn:E1; [|discriminate]. apply IH in E1. destruct E1 as (u1 & -> & S1). cbn in S1.
      assert (Y : Some (a, r1) = Some (e, r) -> exists used, u1 ++ r1 = used ++ r /\ G LItem used e).
      { intros [= <- <-]. exists u1. split; [reflexivity|]. now apply G_item. }
      destruct r1 as [|[] r1]; try exact (Y X). destruct (P n MExpr r1) as [(b & r2)|] eqn:E2; [|discriminate]. injection X as <- <-. apply IH in E2.
      destruct E2 as (u2 & -> & S2). exists (u1 ++ Colon :: u2). split; [now rewrite <- app_assoc|]. now apply G_pair. }
    destruct ts as [|[] ts]; try exact (Z H).
    + destruct ts as [|[] ts]; try exact (Z H). destruct (P n MExpr ts) as [(a & r1)|] eqn:E1; [|discriminate]. injection H as <- <-. apply IH in E1.
      destruct E1 as (u1 & -> & S1). exists (Word w :: Equal :: u1). split; [reflexivity|]. now apply G_kw.
    + injection H as <- <-. exists [Colon]. split; [reflexivity|apply G_colon].
Qed.
Theorem parse_sound s e : parse s = Some e -> is_expr s e.
Proof.
  unfold parse, parse_tokens, is_expr. destruct (P _ MExpr (tokenize s)) as [(x & [|])|] eqn:E; try discriminate. intros [= <-].
  apply P_sound in E. destruct E as (u & -> & S). now rewrite app_nil_r.
Qed.

(** ** Tokens of joined strings *)
Definition clean (c : ascii) : bool := negb (is_word c || Ascii.eqb c "." || Ascii.eqb c "*").
Definition clean_head (s : string) : bool := match s with "" => true | String c _ => clean c end.
Fixpoint clean_last (s : string) : bool := match s with "" => true | String c "" => clean c | String _ s' => clean_last s' end.

Lemma clean_inv c : clean c = true -> is_word c = false /\ Ascii.eqb c "." = false /\ Ascii.eqb c "*" = false.
Proof. unfold clean. destruct (is_word c), (Ascii.eqb c "."), (Ascii.eqb c "*"); simpl; auto; discriminate. Qed.

Lemma tok_flush w c s : clean c = true -> tok w (String c s) = flush w ++ tok "" (String c s).
Proof.
  intros H. apply clean_inv in H as (W & D & S). cbn [tok]. rewrite W, D. cbn [orb andb].
  destruct (is_space c); [reflexivity|]. destruct s; rewrite ?S; reflexivity.
Qed.

Lemma tok_head_aux n : forall a w b, slen a <= n -> clean_head b = true -> tok w (a ++ b)%string = tok w a ++ tok "" b.
Proof.
  induction n as [|n IH]; intros a w b L H.
  - destruct a; [|simpl in L; lia]. simpl. destruct b as [|c b]; [now rewrite app_nil_r|]. now apply tok_flush.
  - destruct a as [|c a].
    { simpl. destruct b as [|c b]; [now rewrite app_nil_r|]. now apply tok_flush. }
    simpl in L. change ((String c a ++ b)%string) with (String c (a ++ b)%string). cbn [tok].
    destruct (is_word c || Ascii.eqb c "." && starts_digit w); [apply IH; [lia|exact H]|]. rewrite <- app_assoc. f_equal.
    destruct (is_space c); [apply IH; [lia|exact H]|].
    destruct a as [|c2 a].
    + cbn [String.append]. destruct b as [|c2 b]; [reflexivity|]. cbn in H. apply clean_inv in H as (_ & _ & S). rewrite S, andb_false_r. reflexivity.
    + simpl in L. change ((String c2 a ++ b)%string) with (String c2 (a ++ b)%string). cbv beta iota.
      destruct (Ascii.eqb c "*" && Ascii.eqb c2 "*"); cbn [app]; f_equal; [apply IH; [lia|exact H]|].
      apply (IH (String c2 a)); [simpl; lia|exact H].
Qed.
Lemma tok_head a b : clean_head b = true -> tokenize (a ++ b)%string = tokenize a ++ tokenize b.
Proof. intros H. exact (@tok_head_aux (slen a) a "" b (le_n _) H). Qed.

Lemma tok_last_aux n : forall a w b, slen a <= n -> a <> "" -> clean_last a = true -> tok w (a ++ b)%string = tok w a ++ tok "" b.
Proof.
  induction n as [|n IH]; intros a w b L N H; [destruct a; [congruence|simpl in L; lia]|].
  destruct a as [|c a]; [congruence|]. simpl in L. change ((String c a ++ b)%string) with (String c (a ++ b)%string). cbn [tok].
  destruct a as [|c2 a].
  - cbn in H. apply clean_inv in H as (W & D & S). rewrite W, D. cbn [orb andb String.append]. rewrite <- app_assoc. f_equal.
    destruct (is_space c); [reflexivity|]. destruct b; rewrite ?S; reflexivity.
  - change (clean_last (String c2 a) = true) in H. assert (N2 : String c2 a <> "") by discriminate.
    destruct (is_word c || Ascii.eqb c "." && starts_digit w); [apply IH; [simpl in *; lia|exact N2|exact H]|]. rewrite <- app_assoc. f_equal.
    destruct (is_space c); [apply IH; [simpl in *; lia|exact N2|exact H]|].
    change ((String c2 a ++ b)%string) with (String c2 (a ++ b)%string). cbv beta iota.
    destruct (Ascii.eqb c "*" && Ascii.eqb c2 "*") eqn:E; cbn [app]; f_equal.
    + apply andb_true_iff in E as (_ & E). destruct a as [|c3 a].
      * cbn in H. apply clean_inv in H as (_ & _ & S). congruence.
      * apply IH; [simpl in *; lia|discriminate|exact H].
    + apply (IH (String c2 a)); [simpl in *; lia|exact N2|exact H].
Qed.
Lemma tok_last a b : clean_last a = true -> tokenize (a ++ b)%string = tokenize a ++ tokenize b.
Proof. intros H. destruct a as [|c a]; [reflexivity|]. exact (@tok_last_aux (slen (String c a)) (String c a) "" b (le_n _) ltac:(discriminate) H). Qed.

(** ** normalize_eq *)
Lemma find_eq_none_app : forall a seen s, find_eq seen a = None -> find_eq seen (a ++ s)%string = find_eq (seen ++ a)%string s.
Proof.
  induction a as [|c a IH]; intros seen s H; [now rewrite sapp_nil_r|].
  cbn [find_eq String.append] in *. destruct (Ascii.eqb c "=" && negb (ends_with "axis" seen)); [discriminate|].
  rewrite IH by exact H. now rewrite sapp_assoc.
Qed.
Lemma find_eq_split lhs rhs : find_eq "" lhs = None -> ends_with "axis" lhs = false ->
  find_eq "" (lhs ++ "=" ++ rhs)%string = Some (lhs, rhs).
Proof. intros H E. rewrite find_eq_none_app by exact H. cbn. now rewrite E. Qed.

Lemma normalize_tokens lhs rhs : find_eq "" lhs = None -> ends_with "axis" lhs = false ->
  tokenize (normalize_eq (lhs ++ "=" ++ rhs)) = tokenize lhs ++ Minus :: LP :: tokenize rhs ++ [RP].
Proof.
  intros H E. unfold normalize_eq. rewrite find_eq_split by assumption.
  rewrite tok_head by reflexivity. rewrite tok_last by reflexivity. rewrite tok_head by reflexivity. reflexivity.
Qed.
Lemma normalize_expr lhs rhs el er : find_eq "" lhs = None -> ends_with "axis" lhs = false -> is_expr lhs el -> is_expr rhs er ->
  is_expr (normalize_eq (lhs ++ "=" ++ rhs)) (EBin Sub el er).
Proof.
  intros H E L R. unfold is_expr. rewrite normalize_tokens by assumption. apply G_sub; [exact L|].
  apply G_factor, G_power, G_prim, G_paren. exact R.
Qed.
