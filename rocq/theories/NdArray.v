(** numpy arrays: shape and data in C (row-major) order.

    Models the numpy operations used by cge_modeling: np.prod of a shape,
    ravel, reshape, slicing of 1-d arrays, indexing. The element type is
    arbitrary. Views, dtypes and memory order are not modelled: an array is
    its logical contents. *)
From Verif Require Import Py.

Section Arrays.
Context {V : Type}.

(** np.prod(shape); the empty product is 1. *)
Definition prodn (shape : list nat) : nat := fold_right Nat.mul 1 shape.

(** An ndarray. *)
Record arr : Type := mkArr { ashape : list nat; adata : list V }.

(** Invariant of every numpy array. *)
Definition arr_wf (a : arr) : Prop := length (adata a) = prodn (ashape a).

(** a.ravel() : C order. *)
Definition ravel (a : arr) : list V := adata a.

(** x.reshape(shape) on a 1-d array: ValueError when sizes differ. *)
Definition reshape (x : list V) (shape : list nat) : res arr :=
  if Nat.eqb (length x) (prodn shape) then Ok (mkArr shape x) else Err ValueError.

(** x[a : a + n] on a 1-d array: Python slices clamp at the end. *)
Definition slice (x : list V) (a n : nat) : list V := firstn n (skipn a x).

(** Row-major offset of a multi-index. *)
Fixpoint offset (shape idx : list nat) : nat :=
  match shape, idx with
  | _ :: ns, i :: is' => i * prodn ns + offset ns is'
  | _, _ => 0
  end.

(** In-range multi-index. *)
Definition in_range (shape idx : list nat) : Prop := Forall2 lt idx shape.

(** a[idx] for a full integer multi-index: IndexError out of range. *)
Definition in_rangeb (shape idx : list nat) : bool :=
  Nat.eqb (length idx) (length shape) &&
  forallb (fun p => Nat.ltb (fst p) (snd p)) (combine idx shape).
Definition aget (a : arr) (idx : list nat) : res V :=
  if in_rangeb (ashape a) idx
  then match nth_error (adata a) (offset (ashape a) idx) with
       | Some v => Ok v | None => Err IndexError end
  else Err IndexError.

(** np.ndindex(shape): all multi-indices in row-major order. *)
Definition ndindex (shape : list nat) : list (list nat) := product (map (seq 0) shape).

End Arrays.
Arguments arr V : clear implicits.

Section Lemmas.
Context {V : Type}.

Lemma in_rangeb_spec shape idx : in_rangeb shape idx = true <-> in_range shape idx.
Proof.
  unfold in_rangeb, in_range. rewrite andb_true_iff, Nat.eqb_eq.
  revert shape. induction idx as [|i idx IH]; destruct shape as [|n shape]; simpl.
  - split; intros; [constructor|auto].
  - split; [intros [H _]; discriminate|intros H; inversion H].
  - split; [intros [H _]; discriminate|intros H; inversion H].
  - rewrite andb_true_iff, Nat.ltb_lt. split.
    + intros (Hl & Hi & Hf). constructor; auto. apply IH. split; auto.
    + intros H. inversion H; subst. apply IH in H5 as (? & ?). auto.
Qed.

Lemma offset_lt shape idx : in_range shape idx -> offset shape idx < prodn shape.
Proof.
  revert shape. induction idx as [|i idx IH]; intros shape H; inversion H; subst; simpl.
  - lia.
  - apply IH in H4. unfold prodn in *. simpl. nia.
Qed.

Lemma offset_inj shape i1 i2 :
  in_range shape i1 -> in_range shape i2 -> offset shape i1 = offset shape i2 -> i1 = i2.
Proof.
  revert i1 i2. induction shape as [|n shape IH]; intros i1 i2 H1 H2 E;
    inversion H1; subst; inversion H2; subst; auto.
  simpl in E.
  assert (A := offset_lt H5). assert (B := offset_lt H7).
  assert (x = x0) by nia. subst. f_equal. apply IH; auto. lia.
Qed.

Lemma nth_error_flat_map_uniform {A B} (f : A -> list B) l k n m :
  (forall x, In x l -> length (f x) = k) -> m < k ->
  nth_error (flat_map f l) (n * k + m) =
  match nth_error l n with Some x => nth_error (f x) m | None => None end.
Proof.
  revert n. induction l as [|a l IH]; intros n Hk Hm; simpl.
  - destruct (n * k + m); destruct n; reflexivity.
  - destruct n; simpl.
    + rewrite nth_error_app1; auto. rewrite (Hk a); simpl; auto.
    + rewrite nth_error_app2 by (rewrite (Hk a) by (simpl; auto); lia).
      rewrite (Hk a) by (simpl; auto).
      replace (k + n * k + m - k) with (n * k + m) by lia.
      apply IH; auto. intros; apply Hk; simpl; auto.
Qed.

Lemma ndindex_cons n shape :
  ndindex (n :: shape) = flat_map (fun i => map (cons i) (ndindex shape)) (seq 0 n).
Proof. reflexivity. Qed.

Lemma ndindex_length shape : length (ndindex shape) = prodn shape.
Proof.
  unfold ndindex. rewrite product_length. unfold prodn.
  induction shape; simpl; auto. rewrite seq_length, IHshape. reflexivity.
Qed.

Lemma in_ndindex shape idx : In idx (ndindex shape) <-> in_range shape idx.
Proof.
  unfold ndindex, in_range. rewrite in_product. revert idx.
  induction shape as [|n shape IH]; intros idx; split; intros H; inversion H; subst; simpl;
    constructor; auto.
  - match goal with h : In _ (seq _ _) |- _ => apply in_seq in h end. lia.
  - now apply IH.
  - apply in_seq. lia.
  - now apply IH.
Qed.

(** The row-major offset is the position in [ndindex]. *)
Lemma nth_ndindex_offset shape idx :
  in_range shape idx -> nth_error (ndindex shape) (offset shape idx) = Some idx.
Proof.
  revert idx. induction shape as [|n shape IH]; intros idx H; inversion H; subst.
  - reflexivity.
  - rewrite ndindex_cons. simpl.
    rewrite nth_error_flat_map_uniform with (k := prodn shape).
    + assert (Hs : nth_error (seq 0 n) x = Some x).
      { rewrite nth_error_nth' with (d := 0) by (rewrite seq_length; auto).
        now rewrite seq_nth. }
      rewrite Hs. rewrite nth_error_map, IH; auto.
    + intros; rewrite map_length; apply ndindex_length.
    + now apply offset_lt.
Qed.

Lemma offset_nth_ndindex shape idx k :
  nth_error (ndindex shape) k = Some idx -> in_range shape idx /\ offset shape idx = k.
Proof.
  intros H. assert (Hr : in_range shape idx) by (apply in_ndindex; eapply nth_error_In; eauto).
  split; auto.
  assert (Hk := nth_ndindex_offset Hr).
  assert (Hn : NoDup (ndindex shape)).
  { unfold ndindex. apply NoDup_product. rewrite Forall_map.
    apply Forall_forall. intros; apply seq_NoDup. }
  rewrite NoDup_nth_error in Hn. apply Hn.
  - apply nth_error_Some. congruence.
  - congruence.
Qed.

(** product over labels enumerates in row-major order of label positions *)
Lemma nth_product_offset {A} (ls : list (list A)) idx :
  in_range (map (@length A) ls) idx ->
  exists xs, nth_error (product ls) (offset (map (@length A) ls) idx) = Some xs /\
             Forall2 (fun x p => nth_error (fst p) (snd p) = Some x) xs (combine ls idx).
Proof.
  revert idx. induction ls as [|l ls IH]; intros idx H; inversion H; subst; simpl.
  - exists []. split; [reflexivity|constructor].
  - destruct (IH _ H4) as (xs & Hxs & HF).
    destruct (nth_error l x) as [a|] eqn:Ea.
    2:{ apply nth_error_None in Ea. lia. }
    exists (a :: xs). split.
    + rewrite nth_error_flat_map_uniform with (k := prodn (map (@length A) ls)).
      * rewrite Ea, nth_error_map, Hxs. reflexivity.
      * intros. rewrite map_length, product_length. unfold prodn.
        clear. induction ls; simpl; auto.
      * now apply offset_lt.
    + constructor; auto.
Qed.

Lemma slice_length (x : list V) a n : a + n <= length x -> length (slice x a n) = n.
Proof. intros H. unfold slice. rewrite firstn_length, skipn_length. lia. Qed.

Lemma reshape_ok (x : list V) shape a :
  reshape x shape = Ok a <-> a = mkArr shape x /\ length x = prodn shape.
Proof.
  unfold reshape. destruct (Nat.eqb_spec (length x) (prodn shape)); split; intros H.
  - inversion H; auto.
  - destruct H; subst; auto.
  - discriminate.
  - destruct H; congruence.
Qed.

End Lemmas.
