(** C66 for tables of three levels. *)
From Coq Require Import ZArith.
From Verif Require Import Py PyStr M_Output S_Output L_Utilities L_Output.
Local Open Scope string_scope.
Local Open Scope list_scope.

Section H.
Variable V : Type.
Implicit Types (d : list (string * item V)) (n : node V).

Lemma list_sum_cons x l : list_sum (x :: l) = x + list_sum l. Proof. reflexivity. Qed.
Lemma list_sum_one x : list_sum [x] = x. Proof. cbn. lia. Qed.
Definition flat2 (ch : list (node V)) : Prop := Forall (fun c => flat (nchildren c)) ch.

Lemma desc2 ch : flat2 ch -> (fix go (l : list (node V)) : nat := match l with [] => 0 | c :: l' => n_descendents c + go l' end) ch =
  list_sum (map (fun c => length (nchildren c)) ch).
Proof.
  induction 1 as [|[nm dt cc] l Hc F IH]; [reflexivity|]. cbn [map nchildren] in *. rewrite list_sum_cons, <- IH. cbn [n_descendents]. rewrite (@flat_desc V cc Hc). lia.
Qed.
Lemma all2 ch lv : flat2 ch ->
  (fix go (l : list (node V)) : list (nat * node V) := match l with [] => [] | c :: l' => all_descendents lv c ++ go l' end) ch =
  map (fun c => (S lv, c)) (flat_map (@nchildren V) ch).
Proof.
  induction 1 as [|[nm dt cc] l Hc F IH]; [reflexivity|]. cbn [flat_map nchildren] in *. rewrite map_app, <- IH. f_equal. cbn [all_descendents]. rewrite (flat_all (S lv) Hc), app_nil_r. reflexivity.
Qed.
Definition wide (ch : list (node V)) : nat := length (filter (fun c => negb (is_leaf c)) ch).
Lemma padding2 nm dt ch : flat2 ch -> compute_padding (Node nm dt ch) = Z.of_nat (length ch + wide ch - 1).
Proof.
  intros F. unfold compute_padding. cbn [n_descendents all_descendents]. rewrite (desc2 F), (all2 1 F). rewrite map_app, !map_map, fold_right_app.
  assert (E : forall l z, Forall (fun c => nchildren c = []) l -> fold_right Z.add z (map (fun x : node V => Z.max 0 (Z.of_nat (n_descendents (snd (2%nat, x))) - 1)) l) = z).
  { intros l z H. induction H as [|[a b cc] l Hc H IH]; [reflexivity|]. cbn in Hc. subst cc. cbn in *. rewrite IH. reflexivity. }
  rewrite (E (flat_map (@nchildren V) ch)).
  2:{ apply Forall_forall. intros c Hc. apply in_flat_map in Hc as (p & P1 & P2). assert (F2 := proj1 (Forall_forall _ _) F p P1). exact (proj1 (Forall_forall _ _) F2 c P2). }
  assert (G : (fold_right Z.add 0 (map (fun x : node V => Z.max 0 (Z.of_nat (n_descendents (snd (1%nat, x))) - 1)) ch) =
     Z.of_nat (list_sum (map (fun c => length (nchildren c)) ch)) - Z.of_nat (wide ch))%Z).
  { clear -F. induction F as [|[a b cc] l Hc H IH]; [reflexivity|]. cbn [map fold_right]. rewrite IH. unfold wide. cbn [filter is_leaf nchildren]. cbn [snd n_descendents]. rewrite (@flat_desc V cc Hc).
    destruct cc; cbn [negb length map nchildren is_leaf]; rewrite list_sum_cons; fold (wide l); cbn [length]; lia. }
  rewrite G. assert (L : wide ch <= list_sum (map (fun c => length (nchildren c)) ch)).
  { clear. unfold wide. induction ch as [|[a b cc] l IH]; [cbn; lia|]. cbn [filter map]. rewrite list_sum_cons. unfold is_leaf at 1. cbn [nchildren]. destruct cc; cbn [negb length]; lia. }
  destruct ch as [|c0 ch0]; [reflexivity|]. cbn [length] in *. lia.
Qed.

Lemma nodes_at ch gc : get_nodes (map (fun c : node V => (1, c)) ch ++ map (fun c => (2, c)) gc) 1 = ch /\
  get_nodes (map (fun c : node V => (1, c)) ch ++ map (fun c => (2, c)) gc) 2 = gc /\
  get_nodes (map (fun c : node V => (1, c)) ch ++ map (fun c => (2, c)) gc) 0 = [].
Proof.
  unfold get_nodes. rewrite !filter_app, !map_app.
  change (get_nodes (map (fun c : node V => (1, c)) ch) 1 ++ get_nodes (map (fun c : node V => (2, c)) gc) 1 = ch /\
    get_nodes (map (fun c : node V => (1, c)) ch) 2 ++ get_nodes (map (fun c : node V => (2, c)) gc) 2 = gc /\
    get_nodes (map (fun c : node V => (1, c)) ch) 0 ++ get_nodes (map (fun c : node V => (2, c)) gc) 0 = []).
  rewrite !get_nodes_children, !get_nodes_other by lia. rewrite app_nil_r. auto.
Qed.

Lemma row2 nm dt ch lv : flat2 ch -> lv <= 2 ->
  heading_row lv (Node nm dt ch) =
  match lv with
  | 0 => Some nm :: repeat None (length ch + wide ch - 1)
  | 1 => match ch with [] => [None] | _ => flat_map (fun c => Some (nname c) :: repeat None (Nat.max 1 (length (nchildren c)) - 1)) ch end
  | _ => match ch with [] => [None] | _ => flat_map (fun c => match nchildren c with [] => [None] | gc => map (fun g => Some (nname g)) gc end) ch end
  end.
Proof.
  intros F Hl. unfold heading_row. cbn [all_descendents]. rewrite (all2 1 F). cbv zeta. set (gc := flat_map (@nchildren V) ch).
  destruct (nodes_at ch gc) as (A1 & A2 & A0).
  assert (B0 : forall r : node V, get_nodes ((0, r) :: map (fun c : node V => (1, c)) ch ++ map (fun c => (2, c)) gc) 0 = [r]) by (intros r; unfold get_nodes in *; cbn [filter fst Nat.eqb map]; now rewrite A0).
  assert (B1 : forall r : node V, get_nodes ((0, r) :: map (fun c : node V => (1, c)) ch ++ map (fun c => (2, c)) gc) 1 = ch) by (intros r; unfold get_nodes in *; cbn [filter fst Nat.eqb map]; exact A1).
  assert (B2 : forall r : node V, get_nodes ((0, r) :: map (fun c : node V => (1, c)) ch ++ map (fun c => (2, c)) gc) 2 = gc) by (intros r; unfold get_nodes in *; cbn [filter fst Nat.eqb map]; exact A2).
  destruct lv as [|[|[|lv]]]; [| | |lia].
  - rewrite B0. cbn [flat_map]. rewrite app_nil_r. unfold heading. rewrite (padding2 nm dt F), Nat2Z.id. reflexivity.
  - rewrite B1, B0. destruct ch as [|c0 ch0] eqn:E.
    + cbn. reflexivity.
    + rewrite <- E in *. cbn [flat_map]. rewrite app_nil_r. cbn [nchildren]. transitivity (flat_map (@heading V) ch); [rewrite E; reflexivity|].
      clear -F. induction F as [|[a b cc] l Hc H IH]; [reflexivity|]. cbn [flat_map]. rewrite IH. f_equal. unfold heading. rewrite (@flat_padding V a b cc Hc), Nat2Z.id. reflexivity.
  - rewrite B2, B1. destruct gc as [|g0 gc0] eqn:E.
    + (* no third level: every child is a leaf *)
      assert (FL : flat ch). { unfold flat. apply Forall_forall. intros c Hc. destruct (nchildren c) as [|g l] eqn:Ec; [reflexivity|]. exfalso.
        assert (I : In g gc) by (unfold gc; apply in_flat_map; exists c; split; [exact Hc|rewrite Ec; now left]). rewrite E in I. destruct I. }
      cbn [map app]. rewrite app_nil_r. unfold get_leaves. cbn [map snd filter is_leaf nchildren].
      assert (LV : filter (@is_leaf V) (map snd (map (fun c : node V => (1, c)) ch)) = ch).
      { clear -FL. induction FL as [|[a b cc] l Hc H IH]; [reflexivity|]. cbn in Hc. subst cc. cbn in *. now rewrite IH. }
      destruct ch as [|c0 ch0] eqn:Ech; [reflexivity|]. change (is_leaf (Node nm dt (c0 :: ch0))) with false. cbv iota. rewrite LV. rewrite <- Ech in *. clear -FL.
      induction FL as [|[a b cc] l Hc H IH]; [reflexivity|]. cbn in Hc. subst cc. cbn [length repeat flat_map nchildren app]. now rewrite IH.
    + destruct ch as [|c0 ch0] eqn:Ech; [discriminate|]. rewrite <- Ech in *. clear -F.
      induction F as [|[a b cc] l Hc H IH]; [reflexivity|]. cbn [flat_map nchildren] in *. rewrite IH. f_equal. destruct cc; [reflexivity|]. exact (@flat_headings V _ Hc).
Qed.

Lemma flat2_of d : two_levels d -> flat2 (build_tree d).
Proof.
  intros T. unfold flat2, build_tree. apply Forall_forall. intros c Hc. apply in_map_iff in Hc as ((k & v) & <- & Hi). specialize (T k v Hi). cbn [fst snd].
  destruct v as [l|d']; [constructor|]. rewrite build_sub. cbn [nchildren]. now apply flat_of.
Qed.
Lemma wide_groups d : two_levels d -> wide (build_tree d) = length (group_sizes (Sub d)).
Proof.
  intros T. unfold wide, group_sizes, build_tree. induction d as [|(k & v) d IH]; [reflexivity|]. cbn [map filter flat_map fst snd]. rewrite app_length, <- IH by (intros k' v' H; apply (T k' v'); now right).
  destruct v as [l|d']; [reflexivity|]. rewrite build_sub. destruct d' as [|(k1 & v1) d1]; reflexivity.
Qed.
Lemma columns_two d : two_levels d -> d <> [] -> columns (Sub d) + length (group_sizes (Sub d)) = length d + list_sum (group_sizes (Sub d)).
Proof.
  intros T NE. destruct d as [|p d]; [congruence|].
  enough (G : forall l, two_levels l -> (fix go (d : list (string * item V)) : nat := match d with [] => 0 | (_, v') :: d' => columns v' + go d' end) l + length (group_sizes (Sub l)) = length l + list_sum (group_sizes (Sub l))) by exact (G (p :: d) T).
  clear. induction l as [|(k & v) l IH]; intros T; [reflexivity|]. cbn [group_sizes flat_map length] in *. rewrite app_length, list_sum_app.
  specialize (IH (fun k' v' H => T k' v' (or_intror H))). cbn [snd]. destruct v as [x|d'].
  - cbn [columns length app]. change (list_sum []) with 0. lia.
  - specialize (T k (Sub d') (or_introl eq_refl)). cbn beta iota in T. rewrite (columns_flat d' T). destruct d' as [|q d']; cbn [length Nat.max]; [change (list_sum []) with 0|rewrite list_sum_one]; lia.
Qed.

(** the rows of one entry *)
Lemma entry_rows k (v : item V) lv : match v with Data _ => True | Sub d' => two_levels d' end -> 1 <= lv <= 2 -> heading_row lv (build_node k v) = aligned lv k v.
Proof.
  intros T Hl. destruct v as [l|d].
  - cbn [build_node]. rewrite row2 by (try apply Forall_nil; lia). destruct lv as [|[|[|]]]; try lia; reflexivity.
  - rewrite build_sub, row2 by (auto using flat2_of; lia). destruct lv as [|[|[|]]]; try lia.
    + cbn [aligned]. destruct d as [|p d]; [reflexivity|]. set (l := p :: d) in *. change (build_tree l) with (build_tree l). transitivity (flat_map (fun c : node V => Some (nname c) :: repeat None (Nat.max 1 (length (nchildren c)) - 1)) (build_tree l)); [reflexivity|].
      clearbody l. clear p d Hl. unfold build_tree. induction l as [|(k' & v') l IH]; [reflexivity|]. cbn [map flat_map fst snd]. rewrite IH by (intros k0 v0 H; apply (T k0 v0); now right). f_equal.
      specialize (T k' v' (or_introl eq_refl)). destruct v' as [x|d']; [reflexivity|]. rewrite build_sub. cbn [nname nchildren aligned]. rewrite (columns_flat d' T). unfold build_tree. now rewrite map_length.
    + cbn [aligned]. destruct d as [|p d]; [reflexivity|]. set (l := p :: d) in *. set (h := fun c : node V => match nchildren c with [] => [None] | gc => map (fun g => Some (nname g)) gc end). transitivity (flat_map h (build_tree l)); [reflexivity|].
      clearbody l. clear p d Hl. unfold build_tree. induction l as [|(k' & v') l IH]; [reflexivity|]. cbn [map flat_map fst snd]. rewrite IH by (intros k0 v0 H; apply (T k0 v0); now right). f_equal.
      specialize (T k' v' (or_introl eq_refl)). destruct v' as [x|d']; [reflexivity|]. transitivity (aligned 1 k' (Sub d')); [|reflexivity]. rewrite <- (@entry_row V k' (Sub d') 1) by (auto; lia). rewrite build_sub, flat_row by (auto using flat_of). unfold h. cbn [nchildren]. destruct (build_tree d'); reflexivity.
Qed.
Lemma entry_top k (v : item V) : match v with Data _ => True | Sub d' => two_levels d' end ->
  heading_row 0 (build_node k v) = Some k :: repeat None (match v with Data _ => 0 | Sub d => length d + length (group_sizes v) - 1 end).
Proof.
  intros T. destruct v as [l|d].
  - cbn [build_node]. rewrite row2 by (try apply Forall_nil; lia). reflexivity.
  - rewrite build_sub, row2 by (auto using flat2_of; lia). rewrite (wide_groups T). unfold build_tree. now rewrite map_length.
Qed.
Lemma entry_top_aligned k (v : item V) : match v with Data _ => True | Sub d' => two_levels d' end ->
  (heading_row 0 (build_node k v) = aligned 0 k v <-> list_sum (group_sizes v) = 2 * length (group_sizes v)).
Proof.
  intros T. rewrite (entry_top k v T). cbn [aligned]. assert (G : forall a b (x : option string), repeat x a = repeat x b <-> a = b).
  { intros a b x. split; [|now intros ->]. intros H. apply (f_equal (@length _)) in H. now rewrite !repeat_length in H. }
  transitivity (match v with Data _ => 0 | Sub d => length d + length (group_sizes v) - 1 end = columns v - 1).
  - rewrite <- (G _ _ None). split; [intros H; now injection H|now intros ->].
  - destruct v as [l|d]; [cbn; split; reflexivity|]. destruct d as [|p d]; [cbn; split; reflexivity|].
    assert (C := columns_two T ltac:(discriminate)). assert (1 <= columns (Sub (p :: d))) by (rewrite <- (aligned_width_cols 0 k (Sub (p :: d))); cbn [aligned length]; lia).
    cbn [length] in *. lia.
Qed.

(** rows made of blocks that start with a name and continue with blanks *)
Lemma blocks_eq (l : list (string * item V)) (f g : string * item V -> nat) :
  flat_map (fun kv => Some (fst kv) :: repeat None (f kv)) l = flat_map (fun kv => Some (fst kv) :: repeat None (g kv)) l -> forall kv, In kv l -> f kv = g kv.
Proof.
  assert (R : forall a b (x y : list (option string)), (forall z l, x = z :: l -> z <> None) -> (forall z l, y = z :: l -> z <> None) ->
     repeat None a ++ x = repeat None b ++ y -> a = b /\ x = y).
  { induction a as [|a IH]; intros [|b] x y Hx Hy H; cbn in H; auto.
    - exfalso. eapply Hx; eauto. - exfalso. symmetry in H. eapply Hy; eauto. - injection H as H. destruct (IH b x y Hx Hy H). auto. }
  assert (S : forall (h : string * item V -> nat) l z r, flat_map (fun kv => Some (fst kv) :: repeat None (h kv)) l = z :: r -> z <> None).
  { intros h [|kv l0] z r E; cbn in E; [discriminate|]. injection E as <- _. discriminate. }
  induction l as [|kv l IH]; intros H p Hp; [destruct Hp|]. cbn [flat_map] in H. cbn [app] in H. injection H as H. apply R in H as (H1 & H2); [|apply S..].
  destruct Hp as [<-|Hp]; [exact H1|]. now apply IH.
Qed.

Lemma nodes2 ch lv : flat2 ch -> forall p, In p ((fix go (l : list (node V)) : list (nat * node V) := match l with [] => [] | c :: l' => nodes_of lv c ++ go l' end) ch) -> fst p <= S lv.
Proof.
  induction 1 as [|[nm dt cc] l Hc F IH]; intros p H; [destruct H|]. cbn [nodes_of] in H. rewrite (@flat_nodes V cc (S lv) Hc) in H. apply in_app_or in H as [[<-|H]|H]; [cbn; lia| |auto].
  apply in_map_iff in H as (c & <- & _). cbn. lia.
Qed.
Lemma max_three d : three_levels d -> max_level (build_tree d) <= 3.
Proof.
  intros T. unfold max_level. assert (H : fold_right Nat.max 0 (map fst (tree_nodes (build_tree d))) <= 2); [|lia].
  assert (A : forall p, In p (tree_nodes (build_tree d)) -> fst p <= 2).
  { intros p H. unfold tree_nodes, build_tree in H. apply in_flat_map in H as (n & Hn & Hp). apply in_map_iff in Hn as ((k & v) & <- & Hi). cbn [fst snd] in *. specialize (T _ _ Hi).
    destruct v as [l|d']; [cbn in Hp; destruct Hp as [<-|[]]; cbn; lia|]. rewrite build_sub in Hp. cbn [nodes_of] in Hp. destruct Hp as [<-|Hp]; [cbn; lia|].
    eapply nodes2; [|exact Hp]. now apply flat2_of. }
  induction (tree_nodes (build_tree d)) as [|p l IH]; [cbn; lia|]. cbn. apply Nat.max_lub; [apply A; now left|apply IH; intros; apply A; now right].
Qed.
End H.

Lemma c66_three_levels__p :
  forall (V : Type) (d : list (string * item V)), three_levels d -> d <> [] ->
  exists depth, 1 <= depth <= 3 /\ length (make_headings (build_tree d)) = depth /\
    (* below the first row everything is over its own columns *)
    (forall level row, 1 <= level -> nth_error (make_headings (build_tree d)) level = Some row -> row = aligned_row level d) /\
    (* the first row exactly if groups two levels down have two columns on average *)
    (nth_error (make_headings (build_tree d)) 0 = Some (aligned_row 0 d) <->
     forall k v, In (k, v) d -> list_sum (group_sizes v) = 2 * length (group_sizes v)).
Proof.
  intros V d T NE. exists (max_level (build_tree d)).
  assert (E : make_headings (build_tree d) = map (fun level => flat_map (heading_row level) (build_tree d)) (seq 0 (max_level (build_tree d)))).
  { unfold make_headings. destruct (build_tree d) as [|r rs] eqn:Eb; [destruct d; [congruence|discriminate]|reflexivity]. }
  assert (M := max_three T). assert (M1 : 1 <= max_level (build_tree d)) by (unfold max_level; lia).
  assert (FM : forall lv, flat_map (heading_row lv) (build_tree d) = flat_map (fun kv => heading_row lv (build_node (fst kv) (snd kv))) d).
  { intros lv. unfold build_tree. now rewrite flat_map_concat_map, map_map, <- flat_map_concat_map. }
  split; [lia|]. rewrite E. split; [now rewrite map_length, seq_length|]. split.
  - intros lv row Hl Hr. rewrite nth_error_map in Hr. destruct (nth_error (seq 0 (max_level (build_tree d))) lv) as [lv'|] eqn:El; [|discriminate].
    assert (lv < max_level (build_tree d)) by (rewrite <- (seq_length (max_level (build_tree d)) 0); apply nth_error_Some; congruence).
    assert (lv' = lv) as -> by (apply nth_error_nth with (d := 0) in El; rewrite seq_nth in El by lia; cbn in El; congruence).
    injection Hr as <-. rewrite FM. unfold aligned_row. rewrite !flat_map_concat_map. f_equal. apply map_ext_in. intros (k & v) Hi. cbn [fst snd]. apply entry_rows; [exact (T _ _ Hi)|lia].
  - destruct (max_level (build_tree d)) as [|m] eqn:Em; [lia|]. cbn [seq map nth_error]. rewrite FM. unfold aligned_row.
    set (f := fun kv : string * item V => match snd kv with Data _ => 0 | Sub d0 => length d0 + length (group_sizes (snd kv)) - 1 end).
    assert (FR : flat_map (fun kv : string * item V => heading_row 0 (build_node (fst kv) (snd kv))) d = flat_map (fun kv => Some (fst kv) :: repeat None (f kv)) d).
    { rewrite !flat_map_concat_map. f_equal. apply map_ext_in. intros (k & v) Hi. cbn [fst snd]. rewrite (entry_top k v (T _ _ Hi)). reflexivity. }
    rewrite FR. change (flat_map (fun kv : string * item V => aligned 0 (fst kv) (snd kv)) d) with (flat_map (fun kv : string * item V => Some (fst kv) :: repeat None (columns (snd kv) - 1)) d).
    split.
    + intros H k v Hi. injection H as H. apply (entry_top_aligned k v (T _ _ Hi)). rewrite (entry_top k v (T _ _ Hi)). cbn [aligned]. do 2 f_equal.
      exact (blocks_eq _ _ (fun kv => columns (snd kv) - 1) H (k, v) Hi).
    + intros H. f_equal. rewrite !flat_map_concat_map. f_equal. apply map_ext_in. intros (k & v) Hi. specialize (H k v Hi). apply (entry_top_aligned k v (T _ _ Hi)) in H.
      rewrite (entry_top k v (T _ _ Hi)) in H. cbn [aligned] in H. exact H.
Qed.
