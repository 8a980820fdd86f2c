(** Lemmas for C28-C31. *)
From Coq Require Import DecimalString DecimalPos DecimalFacts.
From Verif Require Import Py PyStr M_Results.
Local Open Scope string_scope.
Local Arguments String.prefix _ _ : simpl never.

(** ** Decimal numerals *)
Lemma str_of_nat_digits n :
  exists u, str_of_nat n = NilEmpty.string_of_uint u /\ N.to_nat (Pos.of_uint u) = n /\ u <> Decimal.Nil.
Proof.
  unfold str_of_nat, str_of_Z. destruct n as [|n].
  - exists (Decimal.D0 Decimal.Nil). repeat split; discriminate.
  - exists (Pos.to_uint (Pos.of_succ_nat n)). split; [reflexivity|]. split.
    + rewrite DecimalPos.Unsigned.of_to. simpl. now rewrite SuccNat2Pos.id_succ.
    + apply DecimalPos.Unsigned.to_uint_nonnil.
Qed.

Lemma string_of_uint_nonempty u : u <> Decimal.Nil -> NilEmpty.string_of_uint u <> "".
Proof. destruct u; simpl; congruence. Qed.

Lemma digits_value_str n : digits_value (str_of_nat n) = Some n.
Proof.
  destruct (str_of_nat_digits n) as (u & -> & V & N). pose proof (string_of_uint_nonempty N) as E.
  unfold digits_value. destruct (NilEmpty.string_of_uint u) eqn:Es; [congruence|].
  rewrite <- Es, NilEmpty.usu. simpl. now rewrite V.
Qed.

Lemma str_of_nat_inj n m : str_of_nat n = str_of_nat m -> n = m.
Proof. intros H. apply (f_equal digits_value) in H. rewrite !digits_value_str in H. congruence. Qed.

(** ** File names *)
Lemma last_dot_ext f : last_dot (f ++ ".pkl") = Some (f, ".pkl").
Proof. induction f as [|a f IH]; [reflexivity|]. simpl. rewrite IH. reflexivity. Qed.

Lemma splitext_pkl f : splitext (f ++ ".pkl") = if all_dots f then (f ++ ".pkl", "") else (f, ".pkl").
Proof. unfold splitext. rewrite last_dot_ext. reflexivity. Qed.

Lemma splitext_join s b e : splitext s = (b, e) -> b ++ e = s.
Proof.
  unfold splitext.
  assert (L : forall s r e, last_dot s = Some (r, e) -> r ++ e = s).
  { induction s0 as [|a s0 IH]; simpl; intros r e0 H; [discriminate|].
    destruct (last_dot s0) as [[r' e']|]; [injection H as <- <-; simpl; f_equal; auto|].
    destruct (Ascii.eqb a "."); [injection H as <- <-; reflexivity|discriminate]. }
  destruct (last_dot s) as [[r' e']|] eqn:E.
  - destruct (all_dots r'); intros H; injection H as <- <-; [apply sapp_nil_r|auto].
  - intros H; injection H as <- <-. apply sapp_nil_r.
Qed.

(** The names tried by write_results, in order. *)
Definition attempt (base ext : string) (k : nat) : string :=
  match k with 0 => base ++ ext | S _ => numbered base ext k end.

Lemma attempt_inj base ext i j : attempt base ext i = attempt base ext j -> i = j.
Proof.
  assert (X : forall k, base ++ ext <> numbered base ext k).
  { intros k H. apply (f_equal slen) in H. unfold numbered in H. rewrite !slen_app in H. simpl in H. lia. }
  destruct i, j; simpl; intros H; auto.
  - exfalso. eapply X; eauto.
  - exfalso. symmetry in H. eapply X; eauto.
  - unfold numbered in H. apply sapp_inv_head in H. simpl in H. injection H as H.
    change (str_of_nat (S i) ++ (")" ++ ext) = str_of_nat (S j) ++ (")" ++ ext)) in H.
    apply sapp_inv_tail in H. now apply str_of_nat_inj in H.
Qed.

Section Lemmas.
Context {R : Type}.
Implicit Types (d : dir R) (r : R).

Lemma free_name_spec d base ext fuel : forall k,
  (forall j, j < k -> dmem (attempt base ext j) d = true) ->
  match free_name fuel d base ext (attempt base ext k) (S k) with
  | Some n => exists m, n = attempt base ext m /\ dmem n d = false /\ (forall j, j < m -> dmem (attempt base ext j) d = true)
  | None => forall j, j < k + fuel -> dmem (attempt base ext j) d = true
  end.
Proof.
  induction fuel as [|f IH]; intros k Hk; simpl.
  - intros j Hj. apply Hk. lia.
  - destruct (dmem (attempt base ext k) d) eqn:E.
    + assert (Hk' : forall j, j < S k -> dmem (attempt base ext j) d = true).
      { intros j Hj. destruct (Nat.eq_dec j k); [subst; auto|apply Hk; lia]. }
      specialize (IH (S k) Hk'). cbn [attempt] in IH. rewrite Nat.add_1_r. 
      destruct (free_name f d base ext (numbered base ext (S k)) (S (S k))); auto.
      intros j Hj. apply IH. lia.
    + exists k. auto.
Qed.

Lemma pigeon d base ext : ~ (forall j, j < S (length d) -> dmem (attempt base ext j) d = true).
Proof.
  intros H.
  assert (N : NoDup (map (attempt base ext) (seq 0 (S (length d))))).
  { apply FinFun.Injective_map_NoDup; [intros i j; apply attempt_inj|apply seq_NoDup]. }
  assert (I : incl (map (attempt base ext) (seq 0 (S (length d)))) (dkeys d)).
  { intros x Hx. apply in_map_iff in Hx as (j & <- & Hj). apply in_seq in Hj.
    assert (Hm : dmem (attempt base ext j) d = true) by (apply H; lia). unfold dmem in Hm. now apply mem_str_In. }
  pose proof (NoDup_incl_length N I) as L. rewrite map_length, seq_length in L. unfold dkeys in L. rewrite map_length in L. lia.
Qed.

Lemma free_name_found d base ext fuel : length d < fuel ->
  exists m, free_name fuel d base ext (base ++ ext) 1 = Some (attempt base ext m) /\
            dmem (attempt base ext m) d = false /\ (forall j, j < m -> dmem (attempt base ext j) d = true).
Proof.
  intros Hf. pose proof (@free_name_spec d base ext fuel 0) as H. cbn [attempt] in H.
  destruct (free_name fuel d base ext (base ++ ext) 1) as [n|] eqn:E.
  - destruct H as (m & -> & H1 & H2); [intros; lia|]. exists m. auto.
  - exfalso. apply (@pigeon d base ext). intros j Hj. apply H; lia.
Qed.

(** The target splits into base and ext. *)
Lemma output_name_ok date d fn :
  exists base ext m, splitext (target_name date fn) = (base, ext) /\
    output_name date d fn false = Ok (attempt base ext m) /\
    dmem (attempt base ext m) d = false /\ (forall j, j < m -> dmem (attempt base ext j) d = true).
Proof.
  unfold output_name. destruct (splitext (target_name date fn)) as [base ext] eqn:E.
  destruct (@free_name_found d base ext (S (length d)) (Nat.lt_succ_diag_r _)) as (m & F & H).
  exists base, ext, m. rewrite F. auto.
Qed.

Lemma output_name_overwrite date d fn : output_name date d fn true = Ok (target_name date fn).
Proof.
  unfold output_name. destruct (splitext (target_name date fn)) as [base ext] eqn:E.
  now rewrite (splitext_join _ E).
Qed.
End Lemmas.

Lemma c29_terminates__p :
  forall (R : Type) (d : dir R) (base ext : string) (fuel : nat),
  length d < fuel ->
  exists n, free_name fuel d base ext (base ++ ext) 1 = Some n /\
            free_name (S (length d)) d base ext (base ++ ext) 1 = Some n.
Proof.
  intros R d base ext fuel H.
  destruct (free_name_found d base ext H) as (m & F & H1 & H2).
  destruct (free_name_found d base ext (Nat.lt_succ_diag_r (length d))) as (m' & F' & H1' & H2').
  assert (m = m').
  { destruct (Nat.lt_trichotomy m m') as [X|[X|X]]; auto.
    - rewrite H2' in H1 by auto. discriminate.
    - rewrite H2 in H1' by auto. discriminate. }
  subst. eauto.
Qed.

Lemma c29_no_overwrite__p :
  forall (R : Type) (date : string) (d : dir R) (r : R) (filename : option string) (stem : string),
  let asked := match filename with None => date ++ ".pkl" | Some f => f end in
  (asked = stem ++ ".pkl" \/ asked = stem /\ forall t, stem <> t ++ ".pkl") ->
  (exists a b c, stem = a ++ String c b /\ c <> "."%char) ->
  let name k := match k with 0 => stem ++ ".pkl" | S _ => stem ++ "(" ++ str_of_nat k ++ ").pkl" end in
  exists d' k,
    write_results date d r filename false = Ok d' /\
    dget (name k) d = None /\ (forall j, j < k -> dget (name j) d <> None) /\
    dget (name k) d' = Some (Whole r) /\
    (forall n, n <> name k -> dget n d' = dget n d).
Proof.
  intros R date d r filename stem asked Hf Hd name.
  assert (T : target_name date filename = stem ++ ".pkl").
  { unfold target_name. fold asked. destruct Hf as [->|(-> & Hf)]; [now rewrite ends_with_app|].
    destruct (ends_with ".pkl" stem) eqn:He; [|reflexivity].
    apply ends_with_spec in He as (t & He). now apply Hf in He. }
  assert (A : all_dots stem = false).
  { destruct Hd as (a & b & c & -> & Hc). clear -Hc. induction a as [|x a IH]; simpl.
    - destruct (Ascii.eqb_spec c "."); [congruence|reflexivity].
    - rewrite IH. apply andb_false_r. }
  destruct (output_name_ok date d filename) as (base & ext & m & E & O & H1 & H2).
  rewrite T, splitext_pkl, A in E. injection E as <- <-.
  assert (N : forall k, attempt stem ".pkl" k = name k) by (intros [|k]; reflexivity).
  exists (dset (name m) (Whole r) d), m. unfold write_results. rewrite O, N. split; [reflexivity|].
  split; [apply dmem_false; rewrite <- N; exact H1|]. split.
  { intros j Hj. rewrite <- N. apply H2 in Hj. apply dmem_true in Hj as (v & ->). discriminate. }
  split; [apply dget_dset_same|]. intros n Hn. now apply dget_dset_other.
Qed.

(** Whatever the name: no existing file is touched and the result is stored
    in a new one. *)
Lemma c29_existing_files_kept__p :
  forall (R : Type) (date : string) (d : dir R) (r : R) (filename : option string),
  exists d' n, write_results date d r filename false = Ok d' /\
    dget n d = None /\ dget n d' = Some (Whole r) /\ (forall k, k <> n -> dget k d' = dget k d).
Proof.
  intros R date d r filename.
  destruct (output_name_ok date d filename) as (base & ext & m & E & O & H1 & _).
  exists (dset (attempt base ext m) (Whole r) d), (attempt base ext m).
  unfold write_results. rewrite O. split; [reflexivity|]. split; [now apply dmem_false|].
  split; [apply dget_dset_same|]. intros n Hn. now apply dget_dset_other.
Qed.
