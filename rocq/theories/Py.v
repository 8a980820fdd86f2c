(** Python base layer shared by all model files.

    Nothing in this file models /repo code directly; it fixes the meaning of
    the Python built-ins the code uses: exceptions, insertion-ordered dicts
    (CPython >= 3.7), itertools.product, list.index, zip. *)
From Coq Require Export Ascii String.
From Coq Require Export List Arith ZArith Lia Bool Permutation.
Export ListNotations.
#[global] Set Implicit Arguments.
Open Scope list_scope.

(** ** Exceptions as values *)

(** Exceptions that the modelled code raises (built-in exception classes). *)
Inductive exn : Type :=
| ValueError | KeyError | TypeError | IndexError | AttributeError
| AssertionError | ZeroDivisionError | NotImplementedError
| FileNotFoundError | UnpicklingError | SyntaxError | NameError
| MissingInputError (* pytensor.graph.utils *).

(** Outcome of a Python call: a value or a raised exception. *)
Inductive res (A : Type) : Type :=
| Ok (a : A)
| Err (e : exn).
Arguments Ok {A} a.
Arguments Err {A} e.

(** Sequencing of calls: an exception propagates. *)
Definition bind {A B} (r : res A) (f : A -> res B) : res B :=
  match r with Ok a => f a | Err e => Err e end.
Notation "'let*' x ':=' r 'in' k" := (bind r (fun x => k))
  (at level 200, x pattern, r at level 100, k at level 200, right associativity).

(** List comprehension whose body may raise: left to right, first exception
    propagates. *)
Fixpoint map_res {A B} (f : A -> res B) (l : list A) : res (list B) :=
  match l with
  | [] => Ok []
  | a :: l' => let* b := f a in let* bs := map_res f l' in Ok (b :: bs)
  end.

(** A for loop over [l] threading a state; the first exception propagates. *)
Fixpoint fold_res {A S} (f : S -> A -> res S) (s : S) (l : list A) : res S :=
  match l with
  | [] => Ok s
  | a :: l' => let* s' := f s a in fold_res f s' l'
  end.

Definition is_ok {A} (r : res A) : bool := match r with Ok _ => true | Err _ => false end.

(** ** Strings as dictionary keys *)

Definition mem_str (s : string) (l : list string) : bool := existsb (String.eqb s) l.

(** Python dict with string keys: association list in insertion order. *)
Definition dict (V : Type) := list (string * V).

(** d.get(k) *)
Fixpoint dget {V} (k : string) (d : dict V) : option V :=
  match d with
  | [] => None
  | (k', v) :: d' => if String.eqb k k' then Some v else dget k d'
  end.

(** d[k] (KeyError when missing) *)
Definition dgetitem {V} (k : string) (d : dict V) : res V :=
  match dget k d with Some v => Ok v | None => Err KeyError end.

(** d[k] = v : an existing key keeps its position, a new key goes last. *)
Fixpoint dset {V} (k : string) (v : V) (d : dict V) : dict V :=
  match d with
  | [] => [(k, v)]
  | (k', v') :: d' => if String.eqb k k' then (k', v) :: d' else (k', v') :: dset k v d'
  end.

(** del d[k] (KeyError when missing) *)
Fixpoint ddel {V} (k : string) (d : dict V) : dict V :=
  match d with
  | [] => []
  | (k', v') :: d' => if String.eqb k k' then d' else (k', v') :: ddel k d'
  end.

Definition dkeys {V} (d : dict V) : list string := map fst d.
Definition dvals {V} (d : dict V) : list V := map snd d.
Definition dmem {V} (k : string) (d : dict V) : bool := mem_str k (dkeys d).

(** d1.update(d2), also d1 | d2 *)
Definition dupdate {V} (d1 d2 : dict V) : dict V :=
  fold_left (fun d kv => dset (fst kv) (snd kv) d) d2 d1.

(** dict(pairs) *)
Definition dict_of_list {V} (l : list (string * V)) : dict V := dupdate [] l.

(** ** itertools.product over a list of iterables, rightmost fastest *)
Fixpoint product {A} (ls : list (list A)) : list (list A) :=
  match ls with
  | [] => [[]]
  | l :: ls' => flat_map (fun x => map (cons x) (product ls')) l
  end.

(** l.index(x) (ValueError when missing) *)
Fixpoint index_of {A} (eqb : A -> A -> bool) (x : A) (l : list A) : res nat :=
  match l with
  | [] => Err ValueError
  | y :: l' => if eqb x y then Ok 0 else let* n := index_of eqb x l' in Ok (S n)
  end.

(** dict.fromkeys(l) as a list: first occurrences in order *)
Fixpoint dedup_acc (seen l : list string) : list string :=
  match l with
  | [] => []
  | x :: l' => if mem_str x seen then dedup_acc seen l' else x :: dedup_acc (x :: seen) l'
  end.
Definition dedup (l : list string) : list string := dedup_acc [] l.

(** ** Lemmas *)

Lemma mem_str_In s l : mem_str s l = true <-> In s l.
Proof.
  unfold mem_str. rewrite existsb_exists. split.
  - intros (x & Hx & He). apply String.eqb_eq in He. now subst.
  - intros H. exists s. split; auto. apply String.eqb_refl.
Qed.

Lemma mem_str_nIn s l : mem_str s l = false <-> ~ In s l.
Proof.
  rewrite <- mem_str_In. destruct (mem_str s l); split; congruence.
Qed.

Lemma bind_ok {A B} (r : res A) (f : A -> res B) b :
  bind r f = Ok b -> exists a, r = Ok a /\ f a = Ok b.
Proof. destruct r; simpl; intros H; [eauto | discriminate]. Qed.

Lemma bind_err {A B} (r : res A) (f : A -> res B) e :
  bind r f = Err e -> r = Err e \/ exists a, r = Ok a /\ f a = Err e.
Proof. destruct r; simpl; intros H; [eauto | left; congruence]. Qed.

Lemma map_res_ok_length {A B} (f : A -> res B) l bs :
  map_res f l = Ok bs -> length bs = length l.
Proof.
  revert bs. induction l as [|a l IH]; simpl; intros bs H.
  - inversion H; reflexivity.
  - apply bind_ok in H as (b & Hb & H). apply bind_ok in H as (bs' & Hbs & H).
    inversion H; subst. simpl. f_equal. now apply IH.
Qed.

Lemma map_res_ok_Forall2 {A B} (f : A -> res B) l bs :
  map_res f l = Ok bs <-> Forall2 (fun a b => f a = Ok b) l bs.
Proof.
  revert bs. induction l as [|a l IH]; simpl; intros bs; split; intros H.
  - inversion H; constructor.
  - inversion H; reflexivity.
  - apply bind_ok in H as (b & Hb & H). apply bind_ok in H as (bs' & Hbs & H).
    inversion H; subst. constructor; auto. now apply IH.
  - inversion H; subst. rewrite H2; simpl. apply IH in H4. rewrite H4. reflexivity.
Qed.

Lemma map_res_ext {A B} (f g : A -> res B) l :
  (forall a, In a l -> f a = g a) -> map_res f l = map_res g l.
Proof.
  induction l as [|a l IH]; simpl; intros H; auto.
  rewrite H by auto. rewrite IH by auto. reflexivity.
Qed.

Lemma map_res_total {A B} (f : A -> B) l : map_res (fun a => Ok (f a)) l = Ok (map f l).
Proof. induction l; simpl; auto. rewrite IHl. reflexivity. Qed.

Lemma dget_In {V} k (d : dict V) v : dget k d = Some v -> In (k, v) d.
Proof.
  induction d as [|[k' v'] d IH]; simpl; [discriminate|].
  destruct (String.eqb_spec k k'); intros H.
  - inversion H; subst; auto.
  - right; auto.
Qed.

Lemma dget_None {V} k (d : dict V) : dget k d = None <-> ~ In k (dkeys d).
Proof.
  induction d as [|[k' v'] d IH]; simpl.
  - tauto.
  - destruct (String.eqb_spec k k').
    + subst. split; [discriminate|]. intros H; exfalso; auto.
    + rewrite IH. split; intros H.
      * intros [E|E]; [congruence|auto].
      * auto.
Qed.

Lemma dget_Some_key {V} k (d : dict V) : In k (dkeys d) <-> exists v, dget k d = Some v.
Proof.
  destruct (dget k d) eqn:E.
  - split; [eauto|]. intros _. apply dget_In in E.
    apply in_map_iff. exists (k, v); auto.
  - apply dget_None in E. split; [tauto|]. intros (v & H); discriminate.
Qed.

Lemma dget_In_NoDup {V} k (d : dict V) v :
  NoDup (dkeys d) -> In (k, v) d -> dget k d = Some v.
Proof.
  induction d as [|[k' v'] d IH]; simpl; [tauto|].
  intros Hnd [H|H].
  - inversion H; subst. now rewrite String.eqb_refl.
  - inversion Hnd as [|? ? Hni Hnd']; subst.
    destruct (String.eqb_spec k k').
    + subst. exfalso. apply Hni. apply in_map_iff. exists (k', v); auto.
    + auto.
Qed.

Lemma dmem_true {V} k (d : dict V) : dmem k d = true <-> exists v, dget k d = Some v.
Proof. unfold dmem. rewrite mem_str_In. apply dget_Some_key. Qed.

Lemma dmem_false {V} k (d : dict V) : dmem k d = false <-> dget k d = None.
Proof. unfold dmem. rewrite mem_str_nIn. symmetry. apply dget_None. Qed.

Lemma dget_dset_same {V} k v (d : dict V) : dget k (dset k v d) = Some v.
Proof.
  induction d as [|[k' v'] d IH]; simpl.
  - now rewrite String.eqb_refl.
  - destruct (String.eqb_spec k k'); simpl.
    + subst. now rewrite String.eqb_refl.
    + destruct (String.eqb_spec k k'); [congruence|auto].
Qed.

Lemma dget_dset_other {V} k k' v (d : dict V) : k <> k' -> dget k (dset k' v d) = dget k d.
Proof.
  intros Hne. induction d as [|[k0 v0] d IH]; simpl.
  - destruct (String.eqb_spec k k'); [congruence|reflexivity].
  - destruct (String.eqb_spec k' k0); simpl.
    + subst. destruct (String.eqb_spec k k0); [congruence|reflexivity].
    + destruct (String.eqb_spec k k0); auto.
Qed.

Lemma dget_dset {V} k k' v (d : dict V) :
  dget k (dset k' v d) = if String.eqb k k' then Some v else dget k d.
Proof.
  destruct (String.eqb_spec k k').
  - subst. apply dget_dset_same.
  - now apply dget_dset_other.
Qed.

Lemma dkeys_dset {V} k v (d : dict V) :
  dkeys (dset k v d) = if mem_str k (dkeys d) then dkeys d else dkeys d ++ [k].
Proof.
  induction d as [|[k' v'] d IH]; simpl; auto.
  destruct (String.eqb_spec k k'); simpl; auto.
  fold (dkeys (dset k v d)). rewrite IH. unfold mem_str.
  destruct (existsb (String.eqb k) (dkeys d)); reflexivity.
Qed.

Lemma NoDup_app_single {A} (l : list A) x : NoDup l -> ~ In x l -> NoDup (l ++ [x]).
Proof.
  intros Hn Hx. apply NoDup_rev in Hn. rewrite <- (rev_involutive (l ++ [x])).
  apply NoDup_rev. rewrite rev_app_distr. simpl. constructor; auto.
  now rewrite <- in_rev.
Qed.

Lemma NoDup_dset {V} k v (d : dict V) : NoDup (dkeys d) -> NoDup (dkeys (dset k v d)).
Proof.
  intros H. rewrite dkeys_dset. destruct (mem_str k (dkeys d)) eqn:E; auto.
  apply mem_str_nIn in E. now apply NoDup_app_single.
Qed.

Lemma NoDup_dupdate {V} (d2 d1 : dict V) : NoDup (dkeys d1) -> NoDup (dkeys (dupdate d1 d2)).
Proof.
  unfold dupdate. revert d1. induction d2 as [|[k v] d2 IH]; simpl; intros d1 H; auto.
  apply IH. now apply NoDup_dset.
Qed.

Lemma NoDup_dict_of_list {V} (l : list (string * V)) : NoDup (dkeys (dict_of_list l)).
Proof. apply NoDup_dupdate. constructor. Qed.

Lemma dget_app {V} k (d1 d2 : dict V) :
  dget k (d1 ++ d2) = match dget k d1 with Some v => Some v | None => dget k d2 end.
Proof.
  induction d1 as [|[k' v'] d1 IH]; simpl; auto. destruct (String.eqb k k'); auto.
Qed.

(** Lookup in an updated dict: the last binding in the update wins. *)
Lemma dget_dupdate {V} k (d2 d1 : dict V) :
  dget k (dupdate d1 d2) = match dget k (rev d2) with Some v => Some v | None => dget k d1 end.
Proof.
  unfold dupdate. revert d1. induction d2 as [|[k' v'] d2 IH]; simpl; intros d1; auto.
  rewrite IH. rewrite dget_app. simpl. rewrite dget_dset.
  destruct (dget k (rev d2)); auto. destruct (String.eqb k k'); auto.
Qed.

Lemma dget_rev_NoDup {V} k (d : dict V) : NoDup (dkeys d) -> dget k (rev d) = dget k d.
Proof.
  intros Hn. assert (Hn' : NoDup (dkeys (rev d))).
  { unfold dkeys. rewrite map_rev. now apply NoDup_rev. }
  destruct (dget k d) as [v|] eqn:E.
  - apply dget_In in E. apply dget_In_NoDup; auto. now apply -> in_rev.
  - apply dget_None in E. apply dget_None. unfold dkeys. rewrite map_rev.
    now rewrite <- in_rev.
Qed.

Lemma dget_dict_of_list {V} k (l : list (string * V)) : dget k (dict_of_list l) = dget k (rev l).
Proof.
  unfold dict_of_list. rewrite dget_dupdate. destruct (dget k (rev l)); reflexivity.
Qed.

Lemma dset_new {V} k v (d : dict V) : ~ In k (dkeys d) -> dset k v d = d ++ [(k, v)].
Proof.
  induction d as [|[k' v'] d IH]; simpl; intros H; auto.
  destruct (String.eqb_spec k k'); [exfalso; apply H; auto|].
  rewrite IH; auto.
Qed.

Lemma dupdate_disjoint {V} (d2 d1 : dict V) :
  NoDup (dkeys (d1 ++ d2)) -> dupdate d1 d2 = d1 ++ d2.
Proof.
  unfold dupdate. revert d1. induction d2 as [|[k v] d2 IH]; simpl; intros d1 H.
  - now rewrite app_nil_r.
  - assert (Hk : ~ In k (dkeys d1)).
    { unfold dkeys in H. rewrite map_app in H. simpl in H. apply NoDup_remove_2 in H.
      intros Hi. apply H. apply in_or_app. now left. }
    rewrite dset_new by auto. rewrite IH.
    + now rewrite <- app_assoc.
    + now rewrite <- app_assoc.
Qed.

Lemma dict_of_list_NoDup {V} (l : list (string * V)) : NoDup (map fst l) -> dict_of_list l = l.
Proof. intros H. unfold dict_of_list. now rewrite dupdate_disjoint. Qed.

Lemma product_length {A} (ls : list (list A)) :
  length (product ls) = fold_right (fun l n => length l * n) 1 ls.
Proof.
  induction ls as [|l ls IH]; simpl; auto.
  rewrite <- IH. clear IH. induction l as [|x l IHl]; simpl; auto.
  rewrite app_length, map_length, IHl. reflexivity.
Qed.

Lemma in_product {A} (ls : list (list A)) xs :
  In xs (product ls) <-> Forall2 (fun x l => In x l) xs ls.
Proof.
  revert xs. induction ls as [|l ls IH]; simpl; intros xs.
  - split; intros H.
    + destruct H as [<-|[]]. constructor.
    + inversion H; auto.
  - rewrite in_flat_map. split.
    + intros (x & Hx & H). apply in_map_iff in H as (ys & <- & Hys).
      constructor; auto. now apply IH.
    + intros H. inversion H; subst. exists x. split; auto.
      apply in_map. now apply IH.
Qed.

Lemma NoDup_app {A} (l1 l2 : list A) :
  NoDup l1 -> NoDup l2 -> (forall x, In x l1 -> ~ In x l2) -> NoDup (l1 ++ l2).
Proof.
  intros H1 H2 Hd. induction l1 as [|a l1 IH]; simpl; auto.
  inversion H1; subst. constructor.
  - rewrite in_app_iff. intros [H|H]; [auto|]. apply (Hd a); simpl; auto.
  - apply IH; auto. intros x Hx. apply Hd; simpl; auto.
Qed.

Lemma NoDup_app_inv {A} (l1 l2 : list A) :
  NoDup (l1 ++ l2) -> NoDup l1 /\ NoDup l2 /\ (forall x, In x l1 -> ~ In x l2).
Proof.
  induction l1 as [|a l1 IH]; simpl; intros H.
  - repeat split; auto. constructor.
  - inversion H as [|? ? Hni Hnd]; subst. apply IH in Hnd as (H1 & H2 & H3).
    rewrite in_app_iff in Hni. repeat split; auto.
    + constructor; auto.
    + intros x [<-|Hx]; auto.
Qed.

Lemma NoDup_product {A} (ls : list (list A)) : Forall (@NoDup A) ls -> NoDup (product ls).
Proof.
  induction ls as [|l ls IH]; simpl; intros H.
  - constructor; [simpl; tauto|constructor].
  - inversion H as [|? ? Hl Hls]; subst. specialize (IH Hls). clear H Hls.
    induction l as [|x l IHl]; simpl; [constructor|].
    inversion Hl as [|? ? Hx Hl']; subst. apply NoDup_app.
    + apply FinFun.Injective_map_NoDup; auto. intros a b E; now inversion E.
    + auto.
    + intros y Hy Hy'. apply in_map_iff in Hy as (ys & <- & _).
      apply in_flat_map in Hy' as (z & Hz & Hin).
      apply in_map_iff in Hin as (zs & E & _). inversion E; subst. auto.
Qed.

Lemma product_map {A B} (f : A -> B) (ls : list (list A)) :
  product (map (map f) ls) = map (map f) (product ls).
Proof.
  induction ls as [|l ls IH]; simpl; auto.
  rewrite IH. clear IH. induction l as [|x l IHl]; simpl; auto.
  rewrite IHl, map_app, !map_map. reflexivity.
Qed.

Lemma dedup_acc_spec seen l x :
  In x (dedup_acc seen l) <-> In x l /\ ~ In x seen.
Proof.
  revert seen. induction l as [|y l IH]; simpl; intros seen; [tauto|].
  destruct (mem_str y seen) eqn:E.
  - apply mem_str_In in E. rewrite IH. split; [tauto|].
    intros [[->|H] Hn]; tauto.
  - apply mem_str_nIn in E. simpl. rewrite IH. simpl.
    destruct (string_dec y x) as [->|Hne]; [tauto|]. intuition.
Qed.

Lemma NoDup_dedup_acc seen l : NoDup (dedup_acc seen l).
Proof.
  revert seen. induction l as [|y l IH]; simpl; intros seen; [constructor|].
  destruct (mem_str y seen) eqn:E; auto. constructor; auto.
  rewrite dedup_acc_spec. simpl. tauto.
Qed.

Lemma in_dedup x l : In x (dedup l) <-> In x l.
Proof. unfold dedup. rewrite dedup_acc_spec. simpl. tauto. Qed.

Lemma NoDup_dedup l : NoDup (dedup l).
Proof. apply NoDup_dedup_acc. Qed.

Lemma dedup_acc_id seen l :
  NoDup l -> (forall x, In x l -> ~ In x seen) -> dedup_acc seen l = l.
Proof.
  revert seen. induction l as [|y l IH]; simpl; intros seen Hn Hd; auto.
  inversion Hn; subst.
  assert (E : mem_str y seen = false) by (apply mem_str_nIn; auto).
  rewrite E. f_equal. apply IH; auto.
  intros x Hx [->|Hs]; [auto|]. eapply Hd; eauto.
Qed.

Lemma dedup_id l : NoDup l -> dedup l = l.
Proof. intros H. apply dedup_acc_id; auto. Qed.

Lemma index_of_ok {A} (eqb : A -> A -> bool) (Heqb : forall x y, eqb x y = true <-> x = y) x l n :
  index_of eqb x l = Ok n ->
  nth_error l n = Some x /\ (forall m, m < n -> nth_error l m <> Some x).
Proof.
  revert n. induction l as [|y l IH]; simpl; intros n H; [discriminate|].
  destruct (eqb x y) eqn:E.
  - inversion H; subst. apply Heqb in E. subst. split; [reflexivity|]. intros; lia.
  - apply bind_ok in H as (m & Hm & H). inversion H; subst.
    apply IH in Hm as (H1 & H2). split; [exact H1|].
    intros [|m'] Hlt; simpl.
    + intros E'. inversion E'; subst.
      assert (eqb x x = true) by (apply Heqb; reflexivity). congruence.
    + apply H2. lia.
Qed.

Lemma index_of_total {A} (eqb : A -> A -> bool) (Heqb : forall x y, eqb x y = true <-> x = y) x l :
  In x l -> exists n, index_of eqb x l = Ok n.
Proof.
  induction l as [|y l IH]; simpl; [tauto|]. intros H.
  destruct (eqb x y) eqn:E; [eauto|].
  destruct H as [->|H].
  - assert (eqb x x = true) by (apply Heqb; reflexivity). congruence.
  - destruct (IH H) as (n & ->). simpl; eauto.
Qed.

Lemma index_of_nth_NoDup {A} (eqb : A -> A -> bool) (Heqb : forall x y, eqb x y = true <-> x = y)
      x l n : NoDup l -> nth_error l n = Some x -> index_of eqb x l = Ok n.
Proof.
  intros Hn Hx. destruct (index_of_total eqb Heqb x l) as (m & Hm).
  { eapply nth_error_In; eauto. }
  destruct (index_of_ok eqb Heqb _ _ Hm) as (H1 & _).
  rewrite Hm. f_equal.
  assert (Hlt : m < length l) by (apply nth_error_Some; congruence).
  rewrite NoDup_nth_error in Hn. symmetry. symmetry. apply Hn; congruence.
Qed.
