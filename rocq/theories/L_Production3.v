(** Lemmas for C57 (two dimensions) and C58: sums over an index. *)
From Coq Require Import Ascii Reals Lra Lia ZArith DecimalString Decimal FunctionalExtensionality.
From Verif Require Import Py PyStr M_PyExpr S_PyExpr L_PyExpr S_Meaning L_Meaning M_Production S_Production L_Production L_Production2.
Local Open Scope string_scope.
Local Open Scope list_scope.

(** ** Numbers *)
Lemma tok_word : forall s w, all_word s = true -> tok w s = flush (w ++ s).
Proof.
  induction s as [|c s IH]; intros w H; [cbn [tok]; now rewrite sapp_nil_r|].
  cbn [all_word] in H. apply andb_true_iff in H as (H1 & H2). cbn [tok]. rewrite H1. cbn [orb]. rewrite IH by exact H2. now rewrite sapp_assoc.
Qed.
Lemma tok_word_app : forall s w t, all_word s = true -> tok w (s ++ t) = tok (w ++ s) t.
Proof.
  induction s as [|c s IH]; intros w t H; [now rewrite sapp_nil_r|].
  cbn [all_word] in H. apply andb_true_iff in H as (H1 & H2). cbn [String.append tok]. rewrite H1. cbn [orb]. rewrite IH by exact H2. now rewrite sapp_assoc.
Qed.
Lemma name_tok w : is_name w -> tokenize w = [Word w].
Proof. intros (N & A & _). unfold tokenize. rewrite tok_word by exact A. cbn. now destruct w. Qed.
Lemma name_dot w c t : is_name w -> is_word c = true -> tokenize (w ++ String "." (String c t)) = Word w :: Dot :: tokenize (String c t).
Proof.
  intros (N & A & D) C. unfold tokenize at 1. rewrite tok_word_app by exact A. change ("" ++ w)%string with w. cbn [tok]. rewrite D.
  change (is_word ".") with false. cbv [orb andb]. change (Ascii.eqb "." ".") with true. cbv iota. change (is_space ".") with false. cbv iota.
  change (Ascii.eqb "." "*") with false. cbv iota. destruct w; [congruence|]. reflexivity.
Qed.
Lemma uint_word d : all_word (NilEmpty.string_of_uint d) = true.
Proof. induction d; cbn [NilEmpty.string_of_uint all_word]; [reflexivity|rewrite IHd; reflexivity..]. Qed.

Lemma digits_acc : forall d p, digits (Pos.to_nat p) (NilEmpty.string_of_uint d) = Some (Pos.to_nat (Pos.of_uint_acc d p)).
Proof.
  induction d; intros p; cbn [NilEmpty.string_of_uint digits Pos.of_uint_acc]; [reflexivity|..];
    match goal with |- (if is_digit ?c then _ else _) = _ => change (is_digit c) with true end; cbv iota; rewrite <- IHd; f_equal;
    match goal with |- context [nat_of_ascii ?c - 48] => let v := eval vm_compute in (nat_of_ascii c - 48) in change (nat_of_ascii c - 48) with v end; lia.
Qed.
Lemma digits_0 : forall d, digits 0 (NilEmpty.string_of_uint d) = Some (N.to_nat (Pos.of_uint d)).
Proof.
  induction d; cbn [NilEmpty.string_of_uint digits Pos.of_uint]; [reflexivity|..];
    match goal with |- (if is_digit ?c then _ else _) = _ => change (is_digit c) with true end; cbv iota; [exact IHd|..];
    match goal with |- digits ?x _ = _ => let v := eval vm_compute in x in change x with v end;
    match goal with |- digits ?x _ = Some (N.to_nat (N.pos (Pos.of_uint_acc _ ?p))) => change x with (Pos.to_nat p) end; rewrite digits_acc; now rewrite positive_N_nat.
Qed.
Lemma str_of_nat_uint n : exists d, str_of_Z (Z.of_nat n) = NilEmpty.string_of_uint d /\ d <> Nil /\ Pos.of_uint d = N.of_nat n.
Proof.
  unfold str_of_Z. destruct n as [|n]; [exists (D0 Nil); repeat split; discriminate|].
  exists (Pos.to_uint (Pos.of_succ_nat n)). split; [reflexivity|]. split; [apply DecimalPos.Unsigned.to_uint_nonnil|].
  now rewrite DecimalPos.Unsigned.of_to.
Qed.
Lemma number_str n : number (str_of_Z (Z.of_nat n)) = Some n.
Proof.
  destruct (str_of_nat_uint n) as (d & -> & N & E). unfold number. destruct (NilEmpty.string_of_uint d) eqn:X.
  - destruct d; [congruence|discriminate..].
  - rewrite <- X, digits_0, E. f_equal. lia.
Qed.
Lemma tok_str n : tokenize (str_of_Z (Z.of_nat n)) = [Word (str_of_Z (Z.of_nat n))].
Proof.
  destruct (str_of_nat_uint n) as (d & -> & N & E). unfold tokenize. rewrite tok_word by apply uint_word. cbn [String.append].
  destruct (NilEmpty.string_of_uint d) eqn:X; [destruct d; [congruence|discriminate..]|reflexivity].
Qed.

(** ** Expressions whose value depends on the position of one index *)
Section VF.
Variables (rho : valuation) (ix : indices) (i : string) (n : nat).
Definition VF (lvl : level) (ts : list token) (f : nat -> R) : Prop :=
  exists e, G lvl ts e /\ forall k, k < n -> eval rho (upd ix i k) e = Some (f k).

Lemma VF_V lvl ts f k : VF lvl ts f -> k < n -> V rho (upd ix i k) lvl ts (f k).
Proof. intros (e & H & E) K. exists e. auto. Qed.
Lemma VF_prim ts f : VF LPrim ts f -> VF LFactor ts f.
Proof. intros (e & H & E). exists e. split; [now apply G_power, G_prim|exact E]. Qed.
Lemma VF_factor ts f : VF LFactor ts f -> VF LTerm ts f.
Proof. intros (e & H & E). exists e. split; [now apply G_factor|exact E]. Qed.
Lemma VF_term ts f : VF LTerm ts f -> VF LExpr ts f.
Proof. intros (e & H & E). exists e. split; [now apply G_term|exact E]. Qed.
Lemma VF_paren s f : VF LExpr (tokenize s) f -> VF LPrim (tokenize ("(" ++ s ++ ")")) f.
Proof. intros (e & H & E). exists e. split; [rewrite tok_last, tok_head by reflexivity; now apply (G_paren H)|exact E]. Qed.
Lemma VF_mul a f b g : VF LTerm (tokenize a) f -> VF LFactor (tokenize b) g -> VF LTerm (tokenize (a ++ " * " ++ b)) (fun k => f k * g k)%R.
Proof.
  intros (e & H & E) (e' & H' & E'). exists (EBin Mul e e'). split; [rewrite tok_head, tok_last by reflexivity; now apply (G_mul H H')|].
  intros k K. cbn [eval]. now rewrite E, E' by exact K.
Qed.
Lemma VF_div a f b g : VF LTerm (tokenize a) f -> VF LFactor (tokenize b) g -> (forall k, k < n -> g k <> 0%R) ->
  VF LTerm (tokenize (a ++ " / " ++ b)) (fun k => f k / g k)%R.
Proof.
  intros (e & H & E) (e' & H' & E') N. exists (EBin Div e e'). split; [rewrite tok_head, tok_last by reflexivity; now apply (G_div H H')|].
  intros k K. cbn [eval]. rewrite E, E' by exact K. cbn. destruct (Req_EM_T (g k) 0) as [X|_]; [now apply N in X|reflexivity].
Qed.
Lemma VF_sub a f b g : VF LExpr (tokenize a) f -> VF LTerm (tokenize b) g -> VF LExpr (tokenize (a ++ " - " ++ b)) (fun k => f k - g k)%R.
Proof.
  intros (e & H & E) (e' & H' & E'). exists (EBin Sub e e'). split; [rewrite tok_head, tok_last by reflexivity; now apply (G_sub H H')|].
  intros k K. cbn [eval]. now rewrite E, E' by exact K.
Qed.
Lemma VF_pow a f b g : VF LPrim (tokenize a) f -> VF LFactor (tokenize b) g -> (forall k, k < n -> (0 < f k)%R) ->
  VF LFactor (tokenize (a ++ " ** " ++ b)) (fun k => Rpower (f k) (g k)).
Proof.
  intros (e & H & E) (e' & H' & E') N. exists (EBin Power e e'). split; [rewrite tok_head, tok_last by reflexivity; apply G_power; now apply (G_pow H H')|].
  intros k K. cbn [eval]. rewrite E, E' by exact K. cbn. destruct (Rlt_dec 0 (f k)) as [_|X]; [reflexivity|now destruct (X (N k K))].
Qed.
Lemma VF_one : VF LPrim (tokenize "1") (fun _ => 1%R).
Proof. exists (EWord "1"). split; [exact (G_word "1")|reflexivity]. Qed.
Lemma VF_ext lvl ts f g : VF lvl ts f -> (forall k, k < n -> f k = g k) -> VF lvl ts g.
Proof. intros (e & H & E) X. exists e. split; [exact H|]. intros k K. now rewrite E, X by exact K. Qed.

(** Sum(body, (i, 0, n - 1)) *)
Lemma upd_upd k k' : upd (upd ix i k) i k' = upd ix i k'.
Proof. apply functional_extensionality. intros j. unfold upd. now destruct (String.eqb i j). Qed.
Lemma upd_same ix' k : ix' = upd ix i k -> forall k', upd ix' i k' = upd ix i k'.
Proof. intros -> k'. apply upd_upd. Qed.

Definition Sum_str (body : string) : string := "Sum(" ++ body ++ ", (" ++ i ++ ", 0, " ++ str_of_Z (Z.of_nat n - 1) ++ "))".

Lemma Sum_tokens body : is_name i -> 0 < n ->
  tokenize (Sum_str body) = [Word "Sum"] ++ LP :: (tokenize body ++ Comma :: (LP :: [Word i] ++ Comma :: ([Word "0"] ++ Comma :: [Word (str_of_Z (Z.of_nat (n - 1)))]) ++ [RP])) ++ [RP].
Proof.
  intros I N. unfold Sum_str. replace (Z.of_nat n - 1)%Z with (Z.of_nat (n - 1)) by lia. set (hi := str_of_Z (Z.of_nat (n - 1))).
  assert (T : tokenize hi = [Word hi]) by apply tok_str.
  rewrite tok_last by reflexivity. rewrite tok_head by reflexivity.
  replace (", (" ++ i ++ ", 0, " ++ hi ++ "))")%string with (", (" ++ (i ++ (", 0, " ++ (hi ++ "))"))))%string by sassoc.
  rewrite (@tok_last ", (") by reflexivity. rewrite (@tok_head i) by reflexivity. rewrite (@tok_last ", 0, ") by reflexivity. rewrite (@tok_head hi) by reflexivity.
  rewrite T. rewrite (name_tok I). cbn. now rewrite <- !app_assoc.
Qed.

Lemma V_summation ix' body f : is_name i -> 0 < n -> (forall k, upd ix' i k = upd ix i k) -> VF LExpr (tokenize body) f ->
  V rho ix' LPrim (tokenize (Sum_str body)) (sum_n f n).
Proof.
  intros I N U (e & H & E). rewrite Sum_tokens by assumption.
  eexists. split.
  - apply G_call; [apply G_word|]. apply G_cons; [apply G_item, H|]. apply G_one, G_item, G_term, G_factor, G_power, G_prim.
    apply G_tuple; [apply G_item, G_term, G_factor, G_power, G_prim, G_word|]. apply G_cons; [apply G_item, G_term, G_factor, G_power, G_prim, G_word|].
    apply G_one, G_item, G_term, G_factor, G_power, G_prim, G_word.
  - cbn [eval]. change (String.eqb "Sum" "Sum") with true. cbv iota. change (number "0") with (Some 0). rewrite number_str.
    replace (S (n - 1) - 0) with n by lia. unfold sum_n.
    assert (X : forall ks, (forall k, In k ks -> k < n) ->
      fold_right (lift2 (fun x y => Some (x + y)%R)) (Some 0%R) (map (fun k => eval rho (upd ix' i k) e) ks) = Some (fold_right Rplus 0%R (map f ks))).
    { induction ks as [|k ks IH]; intros K; [reflexivity|]. cbn [map fold_right]. rewrite IH by (intros; apply K; now right). rewrite U, E by (apply K; now left). reflexivity. }
    apply X. intros k K. apply in_seq in K. lia.
Qed.
End VF.

(** e.subs({i:j}) *)
Lemma V_swapaxes rho ix i j s v : is_name i -> is_name j -> is_name s -> V rho (upd ix i (ix j)) LPrim (tokenize s) v ->
  V rho ix LPrim (tokenize (swapaxes s i j)) v.
Proof.
  intros I J N (e & H & E). unfold swapaxes.
  change (s ++ ".subs({" ++ i ++ ":" ++ j ++ "})")%string with (s ++ String "." (String "s" ("ubs({" ++ i ++ ":" ++ j ++ "})")))%string.
  rewrite name_dot by (assumption || reflexivity). change (String "s" ("ubs({" ++ i ++ ":" ++ j ++ "})")) with ("subs({" ++ i ++ ":" ++ j ++ "})")%string.
  replace (tokenize ("subs({" ++ i ++ ":" ++ j ++ "})")) with [Word "subs"; LP; LC; Word i; Colon; Word j; RC; RP].
  - rewrite (name_tok N) in H. exists (ECall (EAttr e "subs") (ECons (EDict (ECons (EPair (EWord i) (EWord j)) ENil)) ENil)). split; [|exact E].
    change (Word s :: Dot :: [Word "subs"; LP; LC; Word i; Colon; Word j; RC; RP]) with (([Word s] ++ [Dot; Word "subs"]) ++ LP :: (LC :: ([Word i] ++ Colon :: [Word j]) ++ [RC]) ++ [RP]).
    apply G_call; [now apply G_attr|]. apply G_one, G_item, G_term, G_factor, G_power, G_prim, G_dict, G_one, G_pair;
      apply G_term, G_factor, G_power, G_prim, G_word.
  - symmetry. rewrite (@tok_last "subs({") by reflexivity. rewrite (@tok_head i) by reflexivity. rewrite (@tok_last ":") by reflexivity. rewrite (@tok_head j) by reflexivity.
    now rewrite (name_tok I), (name_tok J).
Qed.
