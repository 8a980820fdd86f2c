(** C98: the nodes and trees of tables, with their references. *)
From Coq Require Import Sorting.Permutation Sorting.Sorted.
From Verif Require Import Py PyStr M_Output M_Nodes S_Nodes L_Nodes.
Local Open Scope string_scope.
Local Open Scope list_scope.

(** A table with two headings, the first with two subheadings, one of them
    divided again; the nodes in an order in which the families are mixed. *)
Definition nd_ops : list (string * option (list nat) * option nat) :=
  [("firms", None, None); ("households", None, None); ("inputs", None, Some 0); ("income", Some [7; 8], Some 1); ("output", Some [3; 4], Some 0);
   ("labour", Some [1; 2], Some 2); ("capital", Some [5; 6], Some 2)].
Lemma nd_valid : valid nd_ops.
Proof.
  intros i o p E P. do 7 (destruct i as [|i]; [cbn in E; injection E as <-; try discriminate; cbn in P; injection P as <-; lia|]). destruct i; discriminate.
Qed.
Lemma nd_line : line nd_ops 6 [2; 0].
Proof. eapply line_child; [reflexivity | reflexivity|]. eapply line_child; [reflexivity | reflexivity|]. eapply line_root; reflexivity. Qed.

Theorem c98_lines :
  forall (V : Type) (ops : list (string * option (list V) * option nat)) n o,
    valid ops -> nth_error ops n = Some o ->
    exists c l, nth_error (create ops) n = Some c /\ c_name c = fst (fst o) /\ c_data c = snd (fst o) /\ c_parent c = snd o /\
      line ops n l /\ c_level c = length l /\ get_all_ancestors (length (create ops)) (create ops) n = l /\
      StronglySorted lt (c_children c) /\ forall m, In m (c_children c) <-> exists o', nth_error ops m = Some o' /\ snd o' = Some n.
Proof. exact @c98_lines__p. Qed.
Print Assumptions c98_lines.
Example c98_lines_ex : exists c, nth_error (create nd_ops) 2 = Some c /\ c_level c = 1 /\ c_children c = [5; 6] /\ line nd_ops 2 [0] /\ get_all_ancestors 7 (create nd_ops) 2 = [0].
Proof.
  destruct (@c98_lines nat nd_ops 2 _ nd_valid eq_refl) as (c & l & C & _ & _ & _ & L & Lv & A & _).
  exists c. vm_compute in C. injection C as <-. split; [vm_compute; reflexivity|]. split; [reflexivity|]. split; [reflexivity|]. vm_compute in A. subst l.
  split; [exact L | vm_compute; reflexivity].
Qed.

Theorem c98_descendents :
  forall (V : Type) (ops : list (string * option (list V) * option nat)) n,
    valid ops -> n < length ops ->
    NoDup (get_all_descendents (length (create ops)) (create ops) n) /\
    (forall m, In m (get_all_descendents (length (create ops)) (create ops) n) <-> below ops n m) /\
    get_n_descendents (length (create ops)) (create ops) n = length (get_all_descendents (length (create ops)) (create ops) n).
Proof. exact @c98_descendents__p. Qed.
Print Assumptions c98_descendents.
Example c98_descendents_ex : get_all_descendents 7 (create nd_ops) 0 = [2; 4; 5; 6] /\ get_n_descendents 7 (create nd_ops) 0 = 4 /\ below nd_ops 0 6.
Proof.
  assert (E : get_all_descendents 7 (create nd_ops) 0 = [2; 4; 5; 6]) by (vm_compute; reflexivity).
  split; [exact E|]. split; [vm_compute; reflexivity|].
  destruct (@c98_descendents nat nd_ops 0 nd_valid ltac:(cbn; lia)) as (_ & H & _).
  replace (length (create nd_ops)) with 7 in H by (vm_compute; reflexivity). rewrite E in H. apply H. cbn. tauto.
Qed.

Theorem c98_generations :
  forall (V : Type) (ops : list (string * option (list V) * option nat)) n,
    valid ops -> n < length ops ->
    exists l, NoDup l /\ (forall m, In m l <-> (m = n \/ below ops n m) /\ inner ops m) /\
      get_n_generations (length (create ops)) (create ops) n = length l.
Proof. exact @c98_generations__p. Qed.
Print Assumptions c98_generations.
Example c98_generations_ex : exists l, (forall m, In m l <-> (m = 0 \/ below nd_ops 0 m) /\ inner nd_ops m) /\ length l = 2.
Proof.
  destruct (@c98_generations nat nd_ops 0 nd_valid ltac:(cbn; lia)) as (l & _ & H & E). exists l. split; [exact H|]. rewrite <- E. vm_compute. reflexivity.
Qed.

Theorem c98_generations_refuted :
  exists (ops : list (string * option (list nat) * option nat)) n,
    valid ops /\ generations ops n 2 /\ get_n_generations (length (create ops)) (create ops) n = 3.
Proof. exact @c98_generations_refuted__p. Qed.
Print Assumptions c98_generations_refuted.

Theorem c98_families :
  forall (V : Type) (ops : list (string * option (list V) * option nat)),
    valid ops ->
    Permutation (List.concat (get_family_trees (create ops) (seq 0 (length ops)))) (seq 0 (length ops)) /\
    forall f, In f (get_family_trees (create ops) (seq 0 (length ops))) -> exists r, line ops r nil /\ forall m, In m f <-> m = r \/ below ops r m.
Proof. exact @c98_families__p. Qed.
Print Assumptions c98_families.
Example c98_families_ex : get_family_trees (create nd_ops) (seq 0 7) = [[0; 2; 4; 5; 6]; [1; 3]] /\ Permutation [0; 2; 4; 5; 6; 1; 3] (seq 0 7).
Proof.
  assert (E : get_family_trees (create nd_ops) (seq 0 7) = [[0; 2; 4; 5; 6]; [1; 3]]) by (vm_compute; reflexivity).
  split; [exact E|]. destruct (@c98_families nat nd_ops nd_valid) as (H & _). change (length nd_ops) with 7 in H. rewrite E in H. exact H.
Qed.

Theorem c98_selections :
  forall (V : Type) (ops : list (string * option (list V) * option nat)) n,
    valid ops ->
    (In n (get_leaves (create ops) (seq 0 (length ops))) <-> n < length ops /\ ~ inner ops n) /\
    (In n (get_roots (create ops) (seq 0 (length ops))) <-> line ops n nil) /\
    forall lv, In n (get_nodes (create ops) (seq 0 (length ops)) lv) <-> exists l, line ops n l /\ length l = lv.
Proof. exact @c98_selections__p. Qed.
Print Assumptions c98_selections.
Example c98_selections_ex : get_leaves (create nd_ops) (seq 0 7) = [3; 4; 5; 6] /\ ~ inner nd_ops 3 /\ get_nodes (create nd_ops) (seq 0 7) 2 = [5; 6].
Proof.
  assert (E : get_leaves (create nd_ops) (seq 0 7) = [3; 4; 5; 6]) by (vm_compute; reflexivity). split; [exact E|]. split; [|vm_compute; reflexivity].
  destruct (@c98_selections nat nd_ops 3 nd_valid) as (H & _). change (length nd_ops) with 7 in H. rewrite E in H. exact (proj2 (proj1 H (or_introl eq_refl))).
Qed.

Theorem c98_split :
  forall (V : Type) (ops : list (string * option (list V) * option nat)) cut,
    valid ops -> ops <> nil ->
    exists olds new, split_tree (create ops) (seq 0 (length ops)) cut = Ok (create (ops ++ new), seq (length ops) (length olds)) /\
      valid (ops ++ new) /\ length new = length olds /\
      NoDup olds /\ (forall n, In n olds <-> exists l, line ops n l /\ cut <= length l) /\
      forall j n o l, nth_error olds j = Some n -> nth_error ops n = Some o -> line ops n l ->
        exists c, nth_error (create (ops ++ new)) (length ops + j) = Some c /\ c_name c = fst (fst o) /\ c_data c = None /\ c_level c = length l - cut /\
          (length l = cut -> c_parent c = None) /\
          (cut < length l -> exists p k, snd o = Some p /\ nth_error olds k = Some p /\ c_parent c = Some (length ops + k)).
Proof. exact @c98_split__p. Qed.
Print Assumptions c98_split.
(** The subheadings and what is below them, as a new tree. *)
Example c98_split_ex : exists h, split_tree (create nd_ops) (seq 0 7) 1 = Ok (h, [7; 8; 9; 10; 11]) /\
  map (fun c => (c_name c, c_parent c, c_children c, c_level c)) (skipn 7 h) =
    [("inputs", None, [10; 11], 0); ("income", None, [], 0); ("output", None, [], 0); ("labour", Some 7, [], 1); ("capital", Some 7, [], 1)] /\
  exists new, h = create (nd_ops ++ new) /\ valid (nd_ops ++ new).
Proof.
  exists (match split_tree (create nd_ops) (seq 0 7) 1 with Ok r => fst r | Err _ => [] end). split; [vm_compute; reflexivity|]. split; [vm_compute; reflexivity|].
  destruct (@c98_split nat nd_ops 1 nd_valid ltac:(discriminate)) as (olds & new & E & W & _). exists new. split; [|exact W].
  change (length nd_ops) with 7 in E. rewrite E. reflexivity.
Qed.

Theorem c98_split_data_refuted :
  exists (ops : list (string * option (list nat) * option nat)) h,
    valid ops /\ (forall o, In o ops -> snd (fst o) <> None) /\
    split_tree (create ops) (seq 0 (length ops)) 0 = Ok (h, length ops :: nil) /\ map (@c_data nat) h = (Some (1 :: nil) :: None :: nil).
Proof. exact @c98_split_data_refuted__p. Qed.
Print Assumptions c98_split_data_refuted.

Theorem c98_build :
  forall (V : Type) (d : list (string * item V)) h nodes,
    M_Nodes.build_tree d = (h, nodes) ->
    (exists ops, valid ops /\ h = create ops) /\ nodes = seq 0 (length h) /\
    Forall2 (fun x m => exists p, stored h p (fst x) (snd x) m) (tree_nodes (M_Output.build_tree d)) nodes /\
    Forall2 (fun t r => stored h None 0 t r /\
               Forall2 (fun x m => exists p, stored h p (fst x) (snd x) m) (all_descendents 0 t) (get_all_descendents (length h) h r) /\
               n_descendents t = get_n_descendents (length h) h r)
            (M_Output.build_tree d) (get_roots h nodes).
Proof. exact @c98_build__p. Qed.
Print Assumptions c98_build.
Definition nd_dict : list (string * item nat) :=
  [("firms", Sub [("inputs", Sub [("labour", Data [1; 2]); ("capital", Data [5; 6])]); ("output", Data [3; 4])]); ("households", Sub [("income", Data [7; 8])])].
Example c98_build_ex : exists h, M_Nodes.build_tree nd_dict = (h, seq 0 7) /\ map (@c_children nat) h = [[1; 4]; [2; 3]; []; []; []; [6]; []] /\
  Forall2 (fun t r => stored h None 0 t r) (M_Output.build_tree nd_dict) [0; 5].
Proof.
  exists (fst (M_Nodes.build_tree nd_dict)). split; [vm_compute; reflexivity|]. split; [vm_compute; reflexivity|].
  destruct (@c98_build nat nd_dict (fst (M_Nodes.build_tree nd_dict)) (snd (M_Nodes.build_tree nd_dict)) (surjective_pairing _)) as (_ & _ & _ & F).
  replace (get_roots (fst (M_Nodes.build_tree nd_dict)) (snd (M_Nodes.build_tree nd_dict))) with [0; 5] in F by (vm_compute; reflexivity).
  revert F. generalize (fst (M_Nodes.build_tree nd_dict)) as h. generalize (M_Output.build_tree nd_dict) as ts. intros ts h F.
  induction F as [|t r ts rs (A & _) _ IH]; [constructor | now constructor].
Qed.
