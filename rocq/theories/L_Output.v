(** Lemmas for C66. *)
From Coq Require Import ZArith.
From Verif Require Import Py PyStr M_Output S_Output L_Utilities.
Local Open Scope string_scope.
Local Open Scope list_scope.

Section H.
Variable V : Type.
Implicit Types (d : list (string * item V)) (n : node V).

Definition flat (ch : list (node V)) : Prop := Forall (fun c => nchildren c = []) ch.

Lemma flat_desc ch : flat ch -> (fix go (l : list (node V)) : nat := match l with [] => 0 | c :: l' => n_descendents c + go l' end) ch = 0.
Proof. induction 1 as [|[nm dt cc] l Hc F IH]; [reflexivity|]. simpl in Hc. subst cc. simpl. exact IH. Qed.
Lemma flat_all ch lv : flat ch ->
  (fix go (l : list (node V)) : list (nat * node V) := match l with [] => [] | c :: l' => all_descendents lv c ++ go l' end) ch = [].
Proof. induction 1 as [|[nm dt cc] l Hc F IH]; [reflexivity|]. simpl in Hc. subst cc. simpl. exact IH. Qed.

Lemma flat_padding nm dt ch : flat ch -> compute_padding (Node nm dt ch) = Z.of_nat (Nat.max 1 (length ch) - 1).
Proof.
  intros F. unfold compute_padding. cbn [n_descendents all_descendents]. rewrite (flat_desc F), (flat_all 1 F).
  rewrite app_nil_r, map_map.
  assert (E : fold_right Z.add 0%Z (map (fun x : node V => Z.max 0 (Z.of_nat (n_descendents (snd (1, x))) - 1)) ch) = 0%Z).
  { clear -F. induction F as [|[nm dt cc] l Hc F IH]; [reflexivity|]. simpl in Hc. subst cc. simpl in *. rewrite IH. reflexivity. }
  rewrite E. lia.
Qed.

Lemma leaf_heading n : nchildren n = [] -> heading n = [Some (nname n)].
Proof. destruct n as [nm dt ch]. simpl. intros ->. reflexivity. Qed.

Lemma flat_headings ch : flat ch -> flat_map (@heading V) ch = map (fun c => Some (nname c)) ch.
Proof. induction 1 as [|c l Hc F IH]; [reflexivity|]. cbn [flat_map map]. rewrite (leaf_heading _ Hc), IH. reflexivity. Qed.

Lemma get_nodes_children ch lv : get_nodes (map (fun c : node V => (lv, c)) ch) lv = ch.
Proof. unfold get_nodes. induction ch as [|c l IH]; [reflexivity|]. simpl. rewrite Nat.eqb_refl. simpl. now rewrite IH. Qed.
Lemma get_nodes_other ch lv l : lv <> l -> get_nodes (map (fun c : node V => (lv, c)) ch) l = [].
Proof.
  intros H. unfold get_nodes. induction ch as [|c ch' IH]; [reflexivity|]. simpl. apply Nat.eqb_neq in H. now rewrite H, IH. Qed.

Lemma flat_row nm dt ch lv : flat ch -> lv <= 1 ->
  heading_row lv (Node nm dt ch) =
  match lv with
  | 0 => Some nm :: repeat None (Nat.max 1 (length ch) - 1)
  | _ => match ch with [] => [None] | _ => map (fun c => Some (nname c)) ch end
  end.
Proof.
  intros F Hl. unfold heading_row. cbn [all_descendents]. rewrite (flat_all 1 F), app_nil_r. cbv zeta.
  destruct lv as [|[|lv]]; [| |lia].
  - unfold get_nodes. cbn [filter fst Nat.eqb map].
    assert (E : filter (fun p : nat * node V => Nat.eqb (fst p) 0) (map (fun c => (1, c)) ch) = []).
    { clear. induction ch as [|c l IH]; [reflexivity|]. exact IH. }
    rewrite E. cbn [map flat_map snd]. rewrite app_nil_r. unfold heading. rewrite (flat_padding nm dt F), Nat2Z.id. reflexivity.
  - unfold get_nodes. cbn [filter fst Nat.eqb].
    change (map snd (filter (fun p : nat * node V => Nat.eqb (fst p) 1) (map (fun c => (1, c)) ch))) with (get_nodes (map (fun c => (1, c)) ch) 1).
    rewrite get_nodes_children.
    change (map snd ((0, Node nm dt ch) :: filter (fun p : nat * node V => Nat.eqb (fst p) 0) (map (fun c => (1, c)) ch)))
      with (Node nm dt ch :: get_nodes (map (fun c => (1, c)) ch) 0).
    rewrite get_nodes_other by lia.
    destruct ch as [|c ch]; [reflexivity|]. cbn [flat_map nchildren]. rewrite app_nil_r.
    change (heading c ++ flat_map (@heading V) ch) with (flat_map (@heading V) (c :: ch)). now apply flat_headings.
Qed.

Lemma build_sub k d : build_node k (Sub d) = Node k None (build_tree d).
Proof. cbn [build_node]. f_equal. unfold build_tree. induction d as [|(k' & v') d IH]; [reflexivity|]. cbn [map fst snd]. now rewrite IH. Qed.

Lemma columns_flat d : (forall k' v', In (k', v') d -> exists l, v' = Data l) -> columns (Sub d) = Nat.max 1 (length d).
Proof.
  intros H. cbn [columns]. destruct d as [|p d]; [reflexivity|]. set (l := p :: d) in *.
  assert (E : (fix go (d : list (string * item V)) : nat := match d with [] => 0 | (_, v') :: d' => columns v' + go d' end) l = length l).
  { clear -H. induction l as [|(k & v) l IH]; [reflexivity|]. destruct (H k v (or_introl eq_refl)) as (x & ->).
    cbn [columns length Nat.add]. f_equal. apply IH. intros; eapply H; right; eauto. }
  transitivity (length l); [exact E|unfold l; simpl length; lia].
Qed.

Lemma flat_of d : (forall k' v', In (k', v') d -> exists l, v' = Data l) -> flat (build_tree d).
Proof.
  intros H. unfold flat, build_tree. apply Forall_forall. intros c Hc. apply in_map_iff in Hc as ((k & v) & <- & Hi).
  destruct (H _ _ Hi) as (l & ->). reflexivity.
Qed.

Lemma entry_row k (v : item V) lv : lv <= 1 -> (match v with Data _ => True | Sub d' => forall k' v', In (k', v') d' -> exists l, v' = Data l end) ->
  heading_row lv (build_node k v) = aligned lv k v.
Proof.
  intros Hl H. destruct v as [l|d].
  - cbn [build_node]. rewrite flat_row by (auto; constructor). destruct lv as [|[|]]; [reflexivity|reflexivity|lia].
  - rewrite build_sub, flat_row by (auto using flat_of). pose proof (columns_flat d H) as Ec.
    assert (El : length (build_tree d) = length d) by apply map_length.
    destruct lv as [|[|]]; [| |lia].
    + cbn [aligned]. rewrite Ec, El. reflexivity.
    + destruct d as [|p d]; [reflexivity|].
      assert (G : forall l, (forall k' v', In (k', v') l -> exists x : list V, v' = Data x) ->
                  map (fun c => Some (nname c)) (build_tree l) = flat_map (fun kv => aligned 0 (fst kv) (snd kv)) l).
      { clear. intros l H. unfold build_tree. induction l as [|(k & v) l IH]; [reflexivity|]. cbn [map flat_map fst snd].
        destruct (H k v (or_introl eq_refl)) as (x & ->). cbn [build_node nname aligned columns Nat.sub repeat app]. f_equal.
        apply IH. intros; eapply H; right; eauto. }
      exact (G _ H).
Qed.

Lemma flat_nodes ch lv : flat ch ->
  (fix go (l : list (node V)) : list (nat * node V) := match l with [] => [] | c :: l' => nodes_of lv c ++ go l' end) ch = map (fun c => (lv, c)) ch.
Proof. induction 1 as [|[nm dt cc] l Hc F IH]; [reflexivity|]. simpl in Hc. subst cc. simpl. now rewrite IH. Qed.

Lemma nodes_two d p : two_levels d -> In p (tree_nodes (build_tree d)) -> fst p <= 1.
Proof.
  intros T H. unfold tree_nodes, build_tree in H. apply in_flat_map in H as (n & Hn & Hp). apply in_map_iff in Hn as ((k & v) & <- & Hi).
  cbn [fst snd] in *. specialize (T _ _ Hi). destruct v as [l|d'].
  - simpl in Hp. destruct Hp as [<-|[]]. simpl. lia.
  - rewrite build_sub in Hp. cbn [nodes_of] in Hp. rewrite (flat_nodes 1 (flat_of _ T)) in Hp. destruct Hp as [<-|Hp]; [simpl; lia|].
    apply in_map_iff in Hp as (c & <- & _). simpl. lia.
Qed.
Lemma max_two d : two_levels d -> max_level (build_tree d) <= 2.
Proof.
  intros T. unfold max_level. assert (H : fold_right Nat.max 0 (map fst (tree_nodes (build_tree d))) <= 1); [|lia].
  assert (A : forall p, In p (tree_nodes (build_tree d)) -> fst p <= 1) by (intros; eapply nodes_two; eauto).
  induction (tree_nodes (build_tree d)) as [|p l IH]; [simpl; lia|]. simpl. apply Nat.max_lub; [apply A; now left|apply IH; intros; apply A; now right].
Qed.

Lemma leaves_data d : two_levels d -> (forall k v, In (k, v) d -> v <> Sub []) ->
  map (@ndata V) (get_leaves (tree_nodes (build_tree d))) = map Some (flat_map (fun kv => data_columns (snd kv)) d).
Proof.
  intros T NE. induction d as [|(k & v) d IH]; [reflexivity|].
  unfold get_leaves, tree_nodes, build_tree in *. cbn [map flat_map fst snd]. rewrite !map_app, filter_app, map_app.
  rewrite IH; [|intros k' v' Hi; apply (T k' v'); now right|intros k' v' Hi; apply (NE k' v'); now right].
  f_equal. specialize (T k v (or_introl eq_refl)). specialize (NE k v (or_introl eq_refl)). destruct v as [l|d']; [reflexivity|].
  rewrite build_sub. cbn [nodes_of]. rewrite (flat_nodes 1 (flat_of _ T)). cbn [map snd filter].
  assert (E : is_leaf (Node k None (build_tree d')) = false).
  { unfold is_leaf. cbn [nchildren]. destruct d'; [congruence|reflexivity]. }
  rewrite E. clear -T. cbn [data_columns]. induction d' as [|(k' & v') d' IH]; [reflexivity|].
  destruct (T k' v' (or_introl eq_refl)) as (l & ->). cbn [build_tree map build_node fst snd filter is_leaf nchildren data_columns ndata app].
  f_equal. apply IH. intros; eapply T; right; eauto.
Qed.
End H.

Lemma aligned_width_cols {V} : forall (lv : nat) (k : string) (v : item V), length (aligned lv k v) = columns v.
Proof.
  assert (P : forall v : item V, 1 <= columns v -> forall k, length (aligned 0 k v) = columns v).
  { intros v H k. simpl. rewrite repeat_length. lia. }
  induction lv as [|lv IH]; intros k v.
  - assert (H : 1 <= columns v).
    { clear. revert v. fix IHv 1. intros [l|d]; [simpl; lia|]. cbn [columns]. destruct d as [|(k & v) d]; [lia|].
      pose proof (IHv v). lia. }
    now apply P.
  - destruct v as [l|d]; [reflexivity|]. cbn [aligned columns]. destruct d as [|p d]; [reflexivity|].
    assert (G : forall l, length (flat_map (fun kv => aligned lv (fst kv) (snd kv)) l) =
      (fix go (d : list (string * item V)) : nat := match d with [] => 0 | (_, v') :: d' => columns v' + go d' end) l).
    { induction l as [|(k' & v') l IHl]; [reflexivity|]. cbn [flat_map fst snd]. rewrite app_length, IH, IHl. reflexivity. }
    exact (G (p :: d)).
Qed.

Lemma c66_headings__p :
  forall (V : Type) (d : list (string * item V)), two_levels d -> d <> [] ->
  exists depth, make_headings (build_tree d) = map (fun level => aligned_row level d) (seq 0 depth) /\
    1 <= depth <= 2 /\
    (* every row is as wide as the table *)
    (forall row, In row (make_headings (build_tree d)) -> length row = fold_right Nat.add 0 (map (fun kv => columns (snd kv)) d)).
Proof.
  intros V d T Hne. exists (max_level (build_tree d)).
  assert (E : make_headings (build_tree d) = map (fun level => aligned_row level d) (seq 0 (max_level (build_tree d)))).
  { unfold make_headings. destruct (build_tree d) as [|r rs] eqn:Eb; [destruct d; [congruence|discriminate]|].
    rewrite <- Eb. apply map_ext_in. intros lv Hlv. apply in_seq in Hlv. pose proof (max_two T) as M.
    unfold aligned_row. clear Eb Hne. unfold build_tree. rewrite flat_map_concat_map, map_map, flat_map_concat_map. f_equal.
    apply map_ext_in. intros (k & v) Hi. cbn [fst snd]. apply entry_row; [lia|]. exact (T _ _ Hi). }
  split; [exact E|]. split; [split; [unfold max_level; lia|now apply max_two]|].
  intros row Hr. rewrite E in Hr. apply in_map_iff in Hr as (lv & <- & _). unfold aligned_row. clear -d.
  induction d as [|(k & v) d IH]; [reflexivity|]. cbn [flat_map map fold_right fst snd]. rewrite app_length, IH, aligned_width_cols. reflexivity.
Qed.

Lemma map_res_some {A B} (f : A -> option B) e l : forall l', map f l = map Some l' ->
  map_res (fun x => match f x with Some y => Ok y | None => Err e end) l = Ok l'.
Proof.
  induction l as [|a l IH]; intros [|b l'] H; try discriminate; [reflexivity|]. simpl in H. injection H as H1 H2. simpl. rewrite H1, (IH _ H2).
  reflexivity.
Qed.

Lemma c66_table__p :
  forall (V : Type) (d : list (string * item V)) (n : nat), two_levels d -> d <> [] ->
  (forall k v, In (k, v) d -> v <> Sub []) ->
  (forall col, In col (flat_map (fun kv => data_columns (snd kv)) d) -> length col = n) ->
  exists headings, make_table d = Ok (headings, n, flat_map (fun kv => data_columns (snd kv)) d) /\
    forall row, In row headings -> length row = length (flat_map (fun kv => data_columns (snd kv)) d).
Proof.
  intros V d n T Hne NE Hn. exists (make_headings (build_tree d)).
  pose proof (leaves_data T NE) as L. unfold make_table. rewrite (@map_res_some _ _ _ TypeError _ _ L). cbn [bind].
  assert (W : fold_right Nat.add 0 (map (fun kv => columns (snd kv)) d) = length (flat_map (fun kv => data_columns (snd kv)) d)).
  { clear L Hn Hne. induction d as [|(k & v) d IH]; [reflexivity|]. cbn [map fold_right flat_map snd]. rewrite app_length, IH.
    - f_equal. specialize (T k v (or_introl eq_refl)). specialize (NE k v (or_introl eq_refl)). destruct v as [l|d']; [reflexivity|].
      rewrite (columns_flat d' T). assert (length (data_columns (Sub d')) = length d').
      { clear -T. cbn [data_columns]. induction d' as [|(k' & v') d' IH]; [reflexivity|]. destruct (T k' v' (or_introl eq_refl)) as (l & ->).
        cbn [data_columns app length]. f_equal. apply IH. intros; eapply T; right; eauto. }
      rewrite H. destruct d'; [congruence|simpl; lia].
    - intros k' v' Hi. apply (T k' v'). now right.
    - intros k' v' Hi. apply (NE k' v'). now right. }
  destruct (c66_headings__p T Hne) as (_ & _ & _ & Wd).
  destruct (flat_map (fun kv => data_columns (snd kv)) d) as [|d0 ds] eqn:Ed.
  - exfalso. simpl in W. destruct d as [|(k & v) d]; [congruence|]. cbn [map fold_right snd] in W.
    pose proof (@aligned_width_cols V 0 k v) as A. simpl in A. lia.
  - assert (F : forallb (fun l => Nat.eqb (length l) (length d0)) (d0 :: ds) = true).
    { apply forallb_forall. intros l Hl. apply Nat.eqb_eq. rewrite !Hn; [reflexivity|now left|exact Hl]. }
    rewrite F. rewrite (Hn d0 (or_introl eq_refl)). split; [reflexivity|]. intros row Hr. rewrite (Wd row Hr). exact W.
Qed.

(** Three levels: the heading A spans two columns of three. *)
Lemma c66_three_levels_refuted__p :
  exists d : list (string * item nat),
    make_headings (build_tree d) =
      [[Some "A"; None]; [Some "B"; None; None]; [Some "x"; Some "y"; Some "z"]] /\
    aligned_row 0 d = [Some "A"; None; None].
Proof.
  exists [("A", Sub [("B", Sub [("x", Data [1]); ("y", Data [2]); ("z", Data [3])])])]. split; reflexivity.
Qed.
(** A column that ends two levels above the deepest one is skipped. *)
Lemma c66_uneven_refuted__p :
  exists d : list (string * item nat),
    nth 3 (make_headings (build_tree d)) [] = [Some "y"; Some "z"] /\
    aligned_row 3 d = [None; Some "y"; Some "z"].
Proof.
  exists [("R", Sub [("x", Data [1]); ("P", Sub [("Q", Sub [("y", Data [2]); ("z", Data [3])])])])]. split; reflexivity.
Qed.
