(** Python string primitives used by the modelled code.

    Strings are Coq strings (sequences of 8-bit characters); unicode beyond
    that range is not modelled. *)
From Coq Require Import DecimalString DecimalZ DecimalPos DecimalN DecimalNat Decimal.
From Verif Require Import Py.
Local Open Scope string_scope.
Notation slen := String.length.

(** str(int) *)
Definition str_of_Z (z : Z) : string := NilEmpty.string_of_int (Z.to_int z).
Definition str_of_nat (n : nat) : string := str_of_Z (Z.of_nat n).

(** c in s *)
Fixpoint contains_char (c : ascii) (s : string) : bool :=
  match s with
  | EmptyString => false
  | String a s' => Ascii.eqb a c || contains_char c s'
  end.

(** p in s (substring test) *)
Fixpoint contains (p s : string) : bool :=
  String.prefix p s ||
  match s with EmptyString => false | String _ s' => contains p s' end.

(** s[n:] *)
Fixpoint drop (n : nat) (s : string) : string :=
  match n, s with
  | 0, _ => s
  | _, EmptyString => EmptyString
  | S n', String _ s' => drop n' s'
  end.

(** s[:n] *)
Fixpoint take (n : nat) (s : string) : string :=
  match n, s with
  | 0, _ => EmptyString
  | _, EmptyString => EmptyString
  | S n', String a s' => String a (take n' s')
  end.

(** s.startswith(p), s.endswith(p) *)
Definition starts_with (p s : string) : bool := String.prefix p s.
Definition ends_with (p s : string) : bool :=
  Nat.leb (slen p) (slen s) && String.eqb (drop (slen s - slen p) s) p.

(** s.replace(pat, rep), also re.sub(pat, rep, s) for a pattern without
    regex metacharacters and a replacement without backslashes: leftmost,
    non-overlapping. [skip] counts characters of a match still to consume.
    For non-empty [pat]. *)
Fixpoint replace_go (pat rep s : string) (skip : nat) : string :=
  match s with
  | EmptyString => EmptyString
  | String c s' =>
      match skip with
      | S k => replace_go pat rep s' k
      | 0 => if String.prefix pat s
             then rep ++ replace_go pat rep s' (slen pat - 1)
             else String c (replace_go pat rep s' 0)
      end
  end.
Definition str_replace (pat rep s : string) : string := replace_go pat rep s 0.

(** s.split(c) for a single-character separator *)
Fixpoint split_on (c : ascii) (s : string) : list string :=
  match s with
  | EmptyString => [EmptyString]
  | String a s' =>
      if Ascii.eqb a c then EmptyString :: split_on c s'
      else match split_on c s' with
           | [] => [String a EmptyString]
           | t :: ts => String a t :: ts
           end
  end.

(** Whitespace removed by str.strip: space, tab, newline, VT, FF, CR *)
Definition is_space (a : ascii) : bool :=
  let n := nat_of_ascii a in
  Nat.eqb n 32 || (Nat.leb 9 n && Nat.leb n 13).

(** s.lstrip(), s.rstrip(), s.strip() *)
Fixpoint lstrip (s : string) : string :=
  match s with
  | EmptyString => EmptyString
  | String a s' => if is_space a then lstrip s' else s
  end.
Fixpoint rstrip (s : string) : string :=
  match s with
  | EmptyString => EmptyString
  | String a s' =>
      match rstrip s' with
      | EmptyString => if is_space a then EmptyString else String a EmptyString
      | t => String a t
      end
  end.
Definition strip (s : string) : string := rstrip (lstrip s).

(** sep.join(l) *)
Definition join (sep : string) (l : list string) : string := String.concat sep l.

(** ** Lemmas *)

Lemma sapp_nil_r s : s ++ "" = s.
Proof. induction s; simpl; congruence. Qed.

Lemma sapp_assoc a b c : (a ++ b) ++ c = a ++ (b ++ c).
Proof. induction a; simpl; congruence. Qed.

Lemma slen_app a b : slen (a ++ b) = slen a + slen b.
Proof. induction a; simpl; auto. Qed.

Lemma sapp_inv_head a b c : a ++ b = a ++ c -> b = c.
Proof. induction a; simpl; intros H; auto. inversion H; auto. Qed.

Lemma sapp_inv_tail a b c : a ++ c = b ++ c -> a = b.
Proof.
  revert b. induction a as [|x a IH]; intros b H.
  - destruct b; auto. exfalso. apply (f_equal slen) in H. rewrite !slen_app in H. simpl in H. lia.
  - destruct b as [|y b].
    + exfalso. apply (f_equal slen) in H. rewrite !slen_app in H. simpl in H. lia.
    + simpl in H. inversion H. f_equal. eauto.
Qed.

Lemma sapp_eq_nil a b : a ++ b = "" -> a = "" /\ b = "".
Proof. destruct a; simpl; [auto|discriminate]. Qed.

Lemma prefix_app p s : String.prefix p (p ++ s) = true.
Proof.
  induction p as [|a p IH]; simpl.
  - destruct s; reflexivity.
  - destruct (ascii_dec a a); [auto|congruence].
Qed.

Lemma prefix_true p s : String.prefix p s = true <-> exists t, s = p ++ t.
Proof.
  split.
  - revert s. induction p as [|a p IH]; intros s H; simpl.
    + eauto.
    + destruct s as [|b s]; simpl in H; [discriminate|].
      destruct (ascii_dec a b); [|discriminate]. subst.
      destruct (IH _ H) as (t & ->). eauto.
  - intros (t & ->). apply prefix_app.
Qed.

Lemma contains_char_app c a b : contains_char c (a ++ b) = contains_char c a || contains_char c b.
Proof. induction a; simpl; auto. rewrite IHa. now rewrite orb_assoc. Qed.

Lemma drop_app a b : drop (slen a) (a ++ b) = b.
Proof. induction a; simpl; auto. Qed.

Lemma take_app a b : take (slen a) (a ++ b) = a.
Proof. induction a; simpl; [destruct b; reflexivity | congruence]. Qed.

Lemma drop_drop_len a b n : n = slen a -> drop n (a ++ b) = b.
Proof. intros ->. apply drop_app. Qed.

Lemma ends_with_app a p : ends_with p (a ++ p) = true.
Proof.
  unfold ends_with. rewrite slen_app.
  replace (slen a + slen p - slen p) with (slen a) by lia.
  rewrite drop_app, String.eqb_refl, andb_true_r. apply Nat.leb_le. lia.
Qed.

Lemma take_drop n s : take n s ++ drop n s = s.
Proof.
  revert s. induction n; intros s; simpl; auto. destruct s; simpl; auto. now rewrite IHn.
Qed.

Lemma ends_with_spec p s : ends_with p s = true <-> exists t, s = t ++ p.
Proof.
  split.
  - unfold ends_with. rewrite andb_true_iff. intros [_ H]. apply String.eqb_eq in H.
    exists (take (slen s - slen p) s). rewrite <- H at 2. now rewrite take_drop.
  - intros (t & ->). apply ends_with_app.
Qed.

Lemma contains_spec p s : contains p s = true <-> exists a b, s = a ++ p ++ b.
Proof.
  split.
  - induction s as [|c s IH]; simpl.
    + rewrite orb_false_r. destruct p; [|discriminate]. intros _. exists "", "". reflexivity.
    + change (match p with "" => true | String a s' => if ascii_dec a c then prefix s' s else false end)
        with (String.prefix p (String c s)).
      destruct (String.prefix p (String c s)) eqn:E.
      * intros _. apply prefix_true in E as (t & E). exists "", t. exact E.
      * simpl. intros H. destruct (IH H) as (a & b & ->). exists (String c a), b. reflexivity.
  - intros (a & b & ->). induction a as [|c a IH].
    + simpl. assert (H := prefix_app p b). destruct (p ++ b); simpl in *; rewrite H; reflexivity.
    + simpl. rewrite IH. apply orb_true_r.
Qed.

Lemma replace_go_skip pat rep a s : replace_go pat rep (a ++ s) (slen a) = replace_go pat rep s 0.
Proof. induction a; simpl; auto. Qed.

(** A match at the head is replaced. *)
Lemma str_replace_match pat rep s :
  pat <> "" -> str_replace pat rep (pat ++ s) = rep ++ str_replace pat rep s.
Proof.
  intros Hp. destruct pat as [|c p]; [congruence|]. unfold str_replace.
  change (String c p ++ s) with (String c (p ++ s)).
  cbn [replace_go]. change (String c (p ++ s)) with (String c p ++ s).
  rewrite prefix_app. f_equal. simpl. rewrite Nat.sub_0_r. apply replace_go_skip.
Qed.

Lemma str_replace_nomatch pat rep c s :
  String.prefix pat (String c s) = false ->
  str_replace pat rep (String c s) = String c (str_replace pat rep s).
Proof. intros H. unfold str_replace. cbn [replace_go]. rewrite H. reflexivity. Qed.

(** Text without the first character of the pattern is copied. *)
Lemma str_replace_lit c p rep a s :
  contains_char c a = false ->
  str_replace (String c p) rep (a ++ s) = a ++ str_replace (String c p) rep s.
Proof.
  induction a as [|x a IH]; simpl; intros H; auto.
  apply orb_false_iff in H as (Hx & Ha).
  rewrite str_replace_nomatch.
  - now rewrite IH.
  - simpl. destruct (ascii_dec c x) as [->|]; [|reflexivity].
    rewrite Ascii.eqb_refl in Hx. discriminate.
Qed.

Lemma str_replace_absent c p rep s :
  contains_char c s = false -> str_replace (String c p) rep s = s.
Proof.
  intros H. rewrite <- (sapp_nil_r s) at 1. rewrite str_replace_lit by auto.
  unfold str_replace; simpl. apply sapp_nil_r.
Qed.

Lemma prefix_delim a b c s t :
  contains_char c a = false -> contains_char c b = false ->
  a ++ String c s = b ++ String c t -> a = b /\ s = t.
Proof.
  revert b. induction a as [|x a IH]; intros b Ha Hb H; destruct b as [|y b]; simpl in *.
  - inversion H; auto.
  - inversion H; subst. rewrite Ascii.eqb_refl in Hb. discriminate.
  - inversion H; subst. rewrite Ascii.eqb_refl in Ha. discriminate.
  - apply orb_false_iff in Ha as (_ & Ha). apply orb_false_iff in Hb as (_ & Hb).
    inversion H; subst. destruct (IH b Ha Hb H2) as (-> & ->). auto.
Qed.

Lemma split_on_nonempty c s : split_on c s <> [].
Proof.
  destruct s; simpl; [discriminate|]. destruct (Ascii.eqb a c); [discriminate|].
  destruct (split_on c s); discriminate.
Qed.

Lemma split_on_lit c a : contains_char c a = false -> split_on c a = [a].
Proof.
  induction a as [|x a IH]; simpl; intros H; auto.
  apply orb_false_iff in H as (Hx & Ha). rewrite Hx, IH; auto.
Qed.

Lemma split_on_app c a s :
  contains_char c a = false -> split_on c (a ++ String c s) = a :: split_on c s.
Proof.
  induction a as [|x a IH]; simpl; intros H.
  - now rewrite Ascii.eqb_refl.
  - apply orb_false_iff in H as (Hx & Ha). rewrite Hx, IH; auto.
Qed.

Definition all_space (s : string) : Prop := lstrip s = "".

Lemma lstrip_app_space a s : all_space a -> lstrip (a ++ s) = lstrip s.
Proof.
  unfold all_space. induction a as [|x a IH]; simpl; intros H; auto.
  destruct (is_space x); [auto|discriminate].
Qed.

Lemma all_space_tail x a : all_space (String x a) -> is_space x = true /\ all_space a.
Proof. unfold all_space. simpl. destruct (is_space x); [auto|discriminate]. Qed.

Lemma rstrip_all_space a : all_space a -> rstrip a = "".
Proof.
  induction a as [|x a IH]; simpl; intros H; auto.
  apply all_space_tail in H as (Hx & Ha). rewrite IH by auto. now rewrite Hx.
Qed.

Lemma rstrip_app_space s a : all_space a -> rstrip (s ++ a) = rstrip s.
Proof.
  intros H. induction s as [|x s IH]; simpl.
  - now apply rstrip_all_space.
  - now rewrite IH.
Qed.

(** A token has no surrounding whitespace. *)
Definition stripped (s : string) : Prop := strip s = s.

Lemma rstrip_len s : slen (rstrip s) <= slen s.
Proof. induction s; simpl; auto. destruct (rstrip s); simpl in *; destruct (is_space a); simpl; lia. Qed.

Lemma lstrip_len s : slen (lstrip s) <= slen s.
Proof. induction s; simpl; auto. destruct (is_space a); simpl; lia. Qed.

Lemma stripped_lstrip s : stripped s -> lstrip s = s.
Proof.
  unfold stripped, strip. destruct s as [|x s]; simpl; auto.
  destruct (is_space x) eqn:E; auto. intros H.
  apply (f_equal slen) in H. assert (A := rstrip_len (lstrip s)). assert (B := lstrip_len s).
  simpl in H. lia.
Qed.

Lemma stripped_rstrip s : stripped s -> rstrip s = s.
Proof.
  intros H. assert (A := stripped_lstrip H). unfold stripped, strip in H. now rewrite A in H.
Qed.

Lemma strip_pad a s b : all_space a -> all_space b -> stripped s -> strip (a ++ s ++ b) = s.
Proof.
  intros Ha Hb Hs. unfold strip. rewrite lstrip_app_space by auto.
  destruct s as [|x s].
  - simpl. rewrite Hb. reflexivity.
  - assert (L := stripped_lstrip Hs). simpl in L.
    destruct (is_space x) eqn:E.
    + exfalso. assert (B := lstrip_len s). apply (f_equal slen) in L. simpl in L. lia.
    + simpl. rewrite E. change (String x (s ++ b)) with (String x s ++ b).
      rewrite rstrip_app_space by auto. now apply stripped_rstrip.
Qed.

Lemma str_of_Z_inj a b : str_of_Z a = str_of_Z b -> a = b.
Proof.
  unfold str_of_Z. intros H.
  apply (f_equal NilEmpty.int_of_string) in H.
  rewrite !NilEmpty.isi in H. injection H as H. rewrite <- (DecimalZ.of_to a), <- (DecimalZ.of_to b).
  now rewrite H.
Qed.

Lemma str_of_nat_inj a b : str_of_nat a = str_of_nat b -> a = b.
Proof. unfold str_of_nat. intros H. apply str_of_Z_inj in H. lia. Qed.
