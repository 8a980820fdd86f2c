(** Proofs for C15: dimension markers. *)
From Verif Require Import Py PyStr NdArray M_Primitives M_Expand S_Layout S_Markers.
Local Open Scope string_scope.
Local Arguments String.prefix _ _ : simpl never.
Local Arguments marker _ : simpl never.

(** Replace the markers on which [g] is defined. *)
Definition subst_opt (g : string -> option string) (t : list seg) : list seg :=
  map (fun x => match x with
                | Lit s => Lit s
                | Mark e => match g e with Some v => Lit v | None => Mark e end
                end) t.

Lemma marker_prefix_inj d e w :
  contains_char ">" d = false -> contains_char ">" e = false ->
  String.prefix (marker d) (marker e ++ w) = true -> d = e.
Proof.
  intros Hd He H. apply prefix_true in H as (u & H). unfold marker in H.
  rewrite !sapp_assoc in H. apply sapp_inv_head in H. change (">" ++ w) with (String ">" w) in H.
  change (">" ++ u) with (String ">" u) in H.
  apply prefix_delim in H as (H & _); auto.
Qed.

Lemma marker_rest e : marker e = String "<" ("dim:" ++ e ++ ">").
Proof. reflexivity. Qed.

Lemma marker_rest_lit e : contains_char "<" e = false -> contains_char "<" ("dim:" ++ e ++ ">") = false.
Proof. intros H. rewrite !contains_char_app, H. reflexivity. Qed.

Lemma written_mark e t : written (Mark e :: t) = marker e ++ written t.
Proof. reflexivity. Qed.
Lemma written_lit a t : written (Lit a :: t) = a ++ written t.
Proof. reflexivity. Qed.

Lemma plain_text_cons x t : plain_text (x :: t) ->
  (match x with Lit s => contains_char "<" s = false | Mark d => plain_name d end) /\ plain_text t.
Proof.
  intros H. split.
  - apply (H x). simpl; auto.
  - intros y Hy. apply H. simpl; auto.
Qed.

Lemma replace_written d v t :
  plain_text t -> plain_name d ->
  str_replace (marker d) v (written t) =
  written (subst_opt (fun e => if String.eqb e d then Some v else None) t).
Proof.
  intros Ht (Hd1 & Hd2). induction t as [|[s|e] t IH].
  - reflexivity.
  - apply plain_text_cons in Ht as (Hs & Ht). cbn [subst_opt map]. rewrite !written_lit.
    rewrite marker_rest, str_replace_lit by auto.
    rewrite <- marker_rest. now rewrite IH.
  - apply plain_text_cons in Ht as ((He1 & He2) & Ht). cbn [subst_opt map]. rewrite written_mark.
    destruct (String.eqb_spec e d) as [->|Hne].
    + rewrite str_replace_match by discriminate. rewrite IH by auto. reflexivity.
    + change (marker e ++ written t) with (String "<" (("dim:" ++ e ++ ">") ++ written t)).
      rewrite str_replace_nomatch.
      * rewrite marker_rest with (e := d). rewrite str_replace_lit by (now apply marker_rest_lit).
        rewrite <- marker_rest, IH by auto. reflexivity.
      * destruct (String.prefix _ _) eqn:E; auto. exfalso. apply Hne. symmetry.
        apply (@marker_prefix_inj d e (written t)); auto.
Qed.

Lemma plain_subst g t :
  plain_text t -> (forall d v, g d = Some v -> contains_char "<" v = false) ->
  plain_text (subst_opt g t).
Proof.
  intros Ht Hg x Hx. unfold subst_opt in Hx. apply in_map_iff in Hx as (y & <- & Hy).
  specialize (Ht y Hy). destruct y as [s|e]; auto. destruct (g e) eqn:E; eauto.
Qed.

Lemma subst_subst g1 g2 t :
  subst_opt g2 (subst_opt g1 t) =
  subst_opt (fun e => match g1 e with Some v => Some v | None => g2 e end) t.
Proof.
  unfold subst_opt. rewrite map_map. apply map_ext. intros [s|e]; auto.
  destruct (g1 e); auto.
Qed.

Lemma subst_ext g1 g2 t : (forall d, g1 d = g2 d) -> subst_opt g1 t = subst_opt g2 t.
Proof. intros H. apply map_ext. intros [s|e]; auto. now rewrite H. Qed.

Lemma subst_ext_in g1 g2 t : (forall d, In d (marks t) -> g1 d = g2 d) -> subst_opt g1 t = subst_opt g2 t.
Proof.
  induction t as [|[s|e] t IH]; simpl; intros H; auto.
  - now rewrite IH.
  - rewrite (H e) by auto. now rewrite IH by auto.
Qed.

(** pretty-printing replaces the markers whose dim is listed and has a label *)
Lemma pretty_print_written t D dv :
  plain_text t -> (forall d, In d D -> plain_name d) ->
  (forall d l, dget d dv = Some l -> plain_label l) ->
  pretty_print_dim_flags (written t) D dv =
  written (subst_opt (fun e => if mem_str e D then option_map str_label (dget e dv) else None) t).
Proof.
  unfold pretty_print_dim_flags. revert t. induction D as [|d D IH]; intros t Ht HD Hdv; simpl.
  - f_equal. clear. induction t as [|[s|e] t IH]; simpl; f_equal; auto.
  - destruct (dget d dv) as [l|] eqn:E.
    + rewrite replace_written by (auto; apply HD; simpl; auto).
      rewrite IH.
      * rewrite subst_subst. f_equal. apply subst_ext. intros e. 
        destruct (String.eqb_spec e d) as [->|]; auto. now rewrite E.
      * apply plain_subst; auto. intros d' v. destruct (String.eqb d' d); [|discriminate].
        intros H; inversion H; subst. apply (Hdv d l E).
      * intros; apply HD; simpl; auto.
      * exact Hdv.
    + rewrite IH by (auto; intros; apply HD; simpl; auto). f_equal. apply subst_ext. intros e.
      destruct (String.eqb_spec e d) as [->|]; auto. rewrite E. now destruct (mem_str d D).
Qed.

Lemma written_filled f t : written (subst_opt (fun e => Some (f e)) t) = filled f t.
Proof. induction t as [|[s|e] t IH]; simpl; congruence. Qed.

Lemma find_go_skip dims a s : find_tags_go dims (a ++ s) (slen a) = find_tags_go dims s 0.
Proof. induction a; simpl; auto. Qed.

Lemma find_none {A} (p : A -> bool) l : (forall x, In x l -> p x = false) -> find p l = None.
Proof.
  induction l as [|a l IH]; simpl; intros H; auto. rewrite H by auto. auto.
Qed.

Lemma prefix_head_ne c p x s : Ascii.eqb x c = false -> String.prefix (String c p) (String x s) = false.
Proof.
  intros H. destruct (String.prefix _ _) eqn:E; auto. apply prefix_true in E as (t & E).
  simpl in E. inversion E; subst. rewrite Ascii.eqb_refl in H. discriminate.
Qed.

Lemma find_go_lit dims a s :
  contains_char "<" a = false -> find_tags_go dims (a ++ s) 0 = find_tags_go dims s 0.
Proof.
  induction a as [|x a IH]; intros H; auto. simpl in H. apply orb_false_iff in H as (Hx & Ha).
  change (String x a ++ s) with (String x (a ++ s)). cbn [find_tags_go].
  rewrite find_none.
  - now apply IH.
  - intros d _. now apply prefix_head_ne.
Qed.

Lemma find_go_written dims t :
  plain_text t -> (forall d, In d dims -> plain_name d) ->
  find_tags_go dims (written t) 0 = filter (fun d => mem_str d dims) (marks t).
Proof.
  intros Ht HD. induction t as [|[s|e] t IH]; auto.
  - apply plain_text_cons in Ht as (Hs & Ht). rewrite written_lit, find_go_lit by auto. auto.
  - apply plain_text_cons in Ht as ((He1 & He2) & Ht). cbn [marks filter]. rewrite written_mark.
    change (marker e ++ written t) with (String "<" (("dim:" ++ e ++ ">") ++ written t)).
    cbn [find_tags_go].
    change (String "<" (("dim:" ++ e ++ ">") ++ written t)) with (marker e ++ written t).
    destruct (mem_str e dims) eqn:E.
    + assert (F : find (fun d => String.prefix (marker d) (marker e ++ written t)) dims = Some e).
      { apply mem_str_In in E. clear -E HD He2. generalize (prefix_app (marker e) (written t)).
        assert (Inj := fun d Hd => @marker_prefix_inj d e (written t) Hd He2).
        generalize dependent (marker e ++ written t). intros w Inj Pe. induction dims as [|d dims IH]; simpl in *; [tauto|].
        destruct (String.prefix (marker d) w) eqn:P.
        - f_equal. apply Inj; auto. apply HD; auto.
        - destruct E as [->|E]; auto. congruence. }
      rewrite F. f_equal. rewrite <- IH by auto.
      replace (slen (marker e) - 1) with (slen ("dim:" ++ e ++ ">")) by (rewrite marker_rest; simpl; lia).
      apply find_go_skip.
    + rewrite find_none.
      * rewrite find_go_lit by (now apply marker_rest_lit). auto.
      * intros d Hd. destruct (String.prefix _ _) eqn:P; auto. apply marker_prefix_inj in P; auto.
        -- subst. apply mem_str_nIn in E. tauto.
        -- now apply HD.
Qed.

Lemma filter_all {A} (p : A -> bool) l : (forall x, In x l -> p x = true) -> filter p l = l.
Proof.
  induction l as [|a l IH]; simpl; intros H; auto. rewrite H by auto. f_equal; auto.
Qed.

Lemma find_tags_written (c : coords) t :
  plain_text t -> (forall d, In d (dkeys c) -> plain_name d) -> (forall d, In d (marks t) -> In d (dkeys c)) ->
  find_tags (dkeys c) (written t) = marks t.
Proof.
  intros Ht Hc Hm. unfold find_tags.
  destruct (marks t) as [|m ms] eqn:E.
  - set (D := match dkeys c with [] => [""] | _ => dkeys c end).
    change (find_tags_go D (written t) 0 = []). rewrite find_go_written; auto.
    + now rewrite E.
    + unfold D. destruct (dkeys c); auto. intros d [<-|[]]. split; reflexivity.
  - assert (Hne : dkeys c <> []).
    { intros H. rewrite H in Hm. apply (Hm m). simpl; auto. }
    destruct (dkeys c) as [|k ks] eqn:Ek; [congruence|].
    rewrite find_go_written by auto. rewrite filter_all; auto.
    intros x Hx. apply mem_str_In. apply Hm. now rewrite <- E.
Qed.

(** names without a recognised marker are kept *)
Lemma c15_no_marker__p :
  forall (c : coords) (name : string),
  c <> [] -> (forall d, In d (dkeys c) -> contains ("<dim:" ++ d ++ ">") name = false) ->
  unpack_equation_strings [name] c = Ok [name].
Proof.
  intros c name Hne H. unfold unpack_equation_strings, unpack_equation_name, find_tags. cbn [map_res].
  assert (E : find_tags_go (match dkeys c with [] => [""] | _ => dkeys c end) name 0 = []).
  { destruct c as [|[k v] c]; [congruence|].
    change (match dkeys ((k, v) :: c) with [] => [""] | _ => dkeys ((k, v) :: c) end) with (dkeys ((k, v) :: c)).
    set (D := dkeys ((k, v) :: c)) in *. clearbody D. clear -H. induction name as [|a s IH]; simpl; auto.
    rewrite find_none.
    - apply IH. intros d Hd. specialize (H d Hd).
      destruct (contains ("<dim:" ++ d ++ ">") s) eqn:E; auto.
      apply contains_spec in E as (x & y & ->).
      assert (X : contains ("<dim:" ++ d ++ ">") (String a (x ++ ("<dim:" ++ d ++ ">") ++ y)) = true); [|congruence].
      apply contains_spec. exists (String a x), y. reflexivity.
    - intros d Hd. change (String.prefix (marker d) (String a s) = false).
      destruct (String.prefix (marker d) (String a s)) eqn:P; auto.
      apply prefix_true in P as (u & P). specialize (H d Hd).
      assert (X : contains (marker d) (String a s) = true).
      { apply contains_spec. exists "", u. exact P. }
      unfold marker in X. congruence. }
  rewrite E. reflexivity.
Qed.

Lemma dget_combine_in {V} d ds (ls : list V) : length ds = length ls -> In d ds -> exists l, dget d (combine ds ls) = Some l.
Proof.
  revert ls. induction ds as [|e ds IH]; intros ls Hl Hin; simpl in *; [tauto|].
  destruct ls as [|l ls]; simpl in *; [discriminate|].
  destruct (String.eqb_spec d e); [eauto|]. destruct Hin as [->|Hin]; [congruence|]. apply IH; auto.
Qed.

Lemma dkeys_combine {V} ds (ls : list V) : length ds = length ls -> dkeys (combine ds ls) = ds.
Proof.
  revert ls. induction ds as [|e ds IH]; intros ls Hl; destruct ls; simpl in *; auto; try discriminate.
  f_equal. apply IH. lia.
Qed.

Lemma labels_of_dims (c : coords) ds : (forall d, In d ds -> In d (dkeys c)) ->
  exists lss, map_res (fun d => dgetitem d c) ds = Ok lss /\
              Forall2 (fun d ls => dget d c = Some ls) ds lss.
Proof.
  induction ds as [|d ds IH]; simpl; intros H.
  - exists []. split; auto.
  - destruct IH as (lss & E & F); auto. destruct (dget_Some_key d c) as (A & _).
    destruct (A (H d (or_introl eq_refl))) as (ls & Hls).
    exists (ls :: lss). unfold dgetitem at 1. rewrite Hls. simpl. rewrite E. simpl. split; auto.
Qed.

Lemma labels_at_nth (c : coords) ds lss idx ls :
  Forall2 (fun d l => dget d c = Some l) ds lss ->
  length ds = length idx ->
  Forall2 (fun x p => nth_error (fst p) (snd p) = Some x) ls (combine lss idx) ->
  labels_at c ds idx ls.
Proof.
  intros HF Hl H. split; auto. revert idx ls Hl H.
  induction HF as [|d l ds lss Hd HF IH]; intros idx ls Hl H; destruct idx as [|i idx]; simpl in *; try discriminate.
  - inversion H; constructor.
  - inversion H; subst. constructor.
    + exists l. simpl in *. auto.
    + apply IH; auto.
Qed.

Lemma shape_lengths (c : coords) ds lss shape :
  Forall2 (fun d ls => dget d c = Some ls) ds lss ->
  Forall2 (fun d n => exists ls, dget d c = Some ls /\ length ls = n) ds shape ->
  shape = map (@length label) lss.
Proof.
  intros H. revert shape. induction H; intros shape HS; inversion HS; subst; simpl; auto.
  match goal with h : exists _, _ |- _ => destruct h as (ls & A & <-) end.
  f_equal; [congruence|auto].
Qed.

Lemma Forall2_length {A B} (R : A -> B -> Prop) l1 l2 : Forall2 R l1 l2 -> length l1 = length l2.
Proof. induction 1; simpl; auto. Qed.

Lemma in_range_len shape idx : in_range shape idx -> length idx = length shape.
Proof. apply Forall2_length. Qed.

Lemma labels_at_fun (c : coords) ds idx ls1 ls2 :
  labels_at c ds idx ls1 -> labels_at c ds idx ls2 -> ls1 = ls2.
Proof.
  intros (H1 & _) (H2 & _). revert ls2 H2. induction H1 as [|p l ps ls (a & A & B) H IH]; intros ls2 H2; inversion H2; subst; auto.
  match goal with h : exists _, _ |- _ => destruct h as (a' & A' & B') end.
  f_equal; [congruence|auto].
Qed.

(** C15, one name: one result per combination of labels, at its row-major
    position, every marker replaced by its label. *)
Lemma c15_markers_replaced__p :
  forall (c : coords) (t : list seg) (shape : list nat),
  plain_text t -> NoDup (marks t) ->
  (forall d, In d (dkeys c) -> plain_name d) ->
  (forall d ls l, In (d, ls) c -> In l ls -> plain_label l) ->
  Forall2 (fun d n => exists ls, dget d c = Some ls /\ length ls = n) (marks t) shape ->
  exists names,
    unpack_equation_strings [written t] c = Ok names /\
    length names = prodn shape /\
    (forall idx, in_range shape idx ->
       exists ls, labels_at c (marks t) idx ls /\
                  nth_error names (offset shape idx) = Some (filled (label_of (marks t) ls) t)).
Proof.
  intros c t shape Ht Hnd Hc Hl HS.
  assert (Hm : forall d, In d (marks t) -> In d (dkeys c)).
  { intros d Hd. clear -HS Hd. induction HS as [|d0 n ms ns (ls & A & _) HS IH]; simpl in *; [tauto|].
    destruct Hd as [<-|Hd]; auto. apply dget_Some_key. eauto. }
  destruct (labels_of_dims c (marks t) Hm) as (lss & E & F).
  assert (Es := shape_lengths _ F HS).
  assert (U : unpack_equation_name c (written t) =
              match marks t with
              | [] => Ok [written t]
              | _ => Ok (map (fun ls => pretty_print_dim_flags (written t) (marks t)
                                          (dict_of_list (combine (marks t) ls))) (product lss))
              end).
  { unfold unpack_equation_name. rewrite find_tags_written by auto.
    destruct (marks t) eqn:Em; auto. now rewrite E. }
  unfold unpack_equation_strings. cbn [map_res]. rewrite U.
  assert (D : marks t = [] \/ marks t <> []) by (destruct (marks t); [left|right]; congruence).
  destruct D as [Em|Em].
  - rewrite Em in *. inversion HS; subst. simpl. eexists. split; [reflexivity|]. split; auto.
    intros idx Hi. inversion Hi; subst. exists []. split; [split; constructor|].
    simpl. f_equal. clear -Em. revert Em. induction t as [|[s|e] t IH]; simpl; intros Em; try discriminate; auto.
    f_equal. auto.
  - match goal with |- context [bind (bind ?x _) _] =>
      replace x with (Ok (map (fun ls => pretty_print_dim_flags (written t) (marks t)
                                          (dict_of_list (combine (marks t) ls))) (product lss)))
        by (destruct (marks t); [congruence|reflexivity]) end.
    cbn [bind List.concat]. rewrite app_nil_r.
    eexists. split; [reflexivity|]. split.
    + rewrite map_length, product_length, Es. unfold prodn. clear. induction lss; simpl; auto.
    + intros idx Hi. rewrite Es in *. destruct (nth_product_offset _ Hi) as (ls & Hn & HF).
      exists ls.
      assert (Hlen : length (marks t) = length idx).
      { apply in_range_len in Hi. rewrite map_length in Hi. apply Forall2_length in F. congruence. }
      assert (LA := labels_at_nth _ _ F Hlen HF). split; auto.
      rewrite nth_error_map, Hn. simpl. f_equal.
      assert (Hll : length (marks t) = length ls).
      { destruct LA as (LA & _). apply Forall2_length in LA. rewrite combine_length in LA. lia. }
      rewrite pretty_print_written.
      * rewrite <- written_filled. f_equal. apply subst_ext_in. intros d Hd.
        assert (Md : mem_str d (marks t) = true) by (now apply mem_str_In). rewrite Md.
        rewrite dict_of_list_NoDup by (fold (dkeys (combine (marks t) ls)); rewrite dkeys_combine; auto).
        unfold label_of. destruct (dget_combine_in d (marks t) ls Hll Hd) as (l & ->). reflexivity.
      * exact Ht.
      * intros d Hd. now apply Hc, Hm.
      * intros d l Hdl. rewrite dict_of_list_NoDup in Hdl
          by (fold (dkeys (combine (marks t) ls)); rewrite dkeys_combine; auto).
        apply dget_In in Hdl. apply in_combine_r in Hdl.
        destruct LA as (LA & _). clear -LA Hdl Hl. induction LA as [|p l0 ps ls (all & A & B) LA IH]; simpl in *; [tauto|].
        destruct Hdl as [->|Hdl]; auto. apply dget_In in A. apply nth_error_In in B. eapply Hl; eauto.
Qed.

(** Several equations: the names of each, in order. *)
Lemma c15_equations_in_order__p :
  forall (c : coords) (names : list string),
  unpack_equation_strings names c =
  fold_right (fun n acc => let* a := unpack_equation_strings [n] c in let* b := acc in Ok (a ++ b)%list)
             (Ok []) names.
Proof.
  intros c names. induction names as [|n names IH]; simpl.
  - reflexivity.
  - rewrite <- IH. unfold unpack_equation_strings. simpl.
    destruct (unpack_equation_name c n) as [a|e]; simpl; auto.
    destruct (map_res (unpack_equation_name c) names); simpl; auto. now rewrite app_nil_r.
Qed.

(** A repeated marker is enumerated once per occurrence. *)
Lemma c15_repeated_marker_refuted__p :
  exists (c : coords) (t : list seg) (names : list string),
    marks t = ["i"; "i"] /\ unpack_equation_strings [written t] c = Ok names /\
    names = ["A:A"; "B:B"; "A:A"; "B:B"].
Proof.
  exists [("i", [LStr "A"; LStr "B"])], [Mark "i"; Lit ":"; Mark "i"]. eexists.
  repeat split; reflexivity.
Qed.

(** Descriptions: _replace_dim_marker_with_dim_name. *)
Lemma lazy_group_eq a s' :
  lazy_group (String a s') =
  if Ascii.eqb a "010" then None
  else match s' with
       | String b _ => if Ascii.eqb b ">" then Some (String a "")
                       else match lazy_group s' with
                            | Some g => Some (String a g)
                            | None => None
                            end
       | EmptyString => None
       end.
Proof. reflexivity. Qed.

Lemma lazy_group_plain d s :
  d <> "" -> contains_char ">" d = false -> contains_char "010" d = false ->
  lazy_group (d ++ String ">" s) = Some d.
Proof.
  induction d as [|a d IH]; intros Hne H1 H2; [congruence|].
  cbn [contains_char] in H1, H2.
  apply orb_false_iff in H1 as (Ha1 & H1). apply orb_false_iff in H2 as (Ha2 & H2).
  change (String a d ++ String ">" s) with (String a (d ++ String ">" s)).
  rewrite lazy_group_eq, Ha2.
  destruct d as [|b d].
  - reflexivity.
  - rewrite IH by (auto; discriminate).
    change (String b d ++ String ">" s) with (String b (d ++ String ">" s)).
    cbn [contains_char] in H1. apply orb_false_iff in H1 as (Hb & H1). now rewrite Hb.
Qed.

Lemma strip_go_skip a s : strip_markers_go (a ++ s) (slen a) = strip_markers_go s 0.
Proof. induction a; simpl; auto. Qed.

Lemma c15_marker_names__p :
  forall (t : list seg),
  plain_text t -> (forall d, In d (marks t) -> d <> "" /\ contains_char "010" d = false) ->
  replace_dim_marker_with_dim_name (written t) = filled (fun d => d) t.
Proof.
  unfold replace_dim_marker_with_dim_name. intros t Ht Hm.
  induction t as [|[s|e] t IH].
  - reflexivity.
  - apply plain_text_cons in Ht as (Hs & Ht). simpl. rewrite <- IH by auto. clear IH Hm.
    induction s as [|a s IHs]; auto. simpl in Hs. apply orb_false_iff in Hs as (Ha & Hs).
    change (String a s ++ written t) with (String a (s ++ written t)). cbn [strip_markers_go].
    rewrite prefix_head_ne by auto. rewrite IHs by auto. reflexivity.
  - apply plain_text_cons in Ht as ((He1 & He2) & Ht). simpl filled. rewrite <- IH.
    2: auto. 2:{ intros d Hd. apply Hm. simpl; auto. }
    destruct (Hm e) as (Hne & Hnl); [simpl; auto|].
    rewrite written_mark.
    change (marker e ++ written t) with (String "<" (("dim:" ++ e ++ ">") ++ written t)).
    cbn [strip_markers_go].
    assert (P : String.prefix "<dim:" (String "<" (("dim:" ++ e ++ ">") ++ written t)) = true).
    { apply prefix_true. exists (e ++ ">" ++ written t). simpl. rewrite !sapp_assoc. reflexivity. }
    rewrite P.
    assert (D : drop 5 (String "<" (("dim:" ++ e ++ ">") ++ written t)) = e ++ String ">" (written t)).
    { simpl. rewrite sapp_assoc. reflexivity. }
    rewrite D, lazy_group_plain by auto. f_equal.
    replace (slen e + 5) with (slen ("dim:" ++ e ++ ">")) by (rewrite !slen_app; simpl; lia).
    apply strip_go_skip.
Qed.
