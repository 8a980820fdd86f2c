(** Lemmas for C11 (object identity), C12, C13, C14. *)
From Verif Require Import Py PyStr NdArray M_Primitives M_Utilities M_Expand M_ExpandHeap.
From Verif Require Import S_Layout S_Markers S_Expand L_Utilities L_Layout L_Markers L_Expand.
Local Open Scope string_scope.
Local Arguments String.prefix _ _ : simpl never.
Local Arguments initialize_full_latex_name _ _ _ _ : simpl never.
Local Arguments pretty_print_dim_flags _ _ _ : simpl never.

Lemma lset_end {A} (l : list A) x y : lset (l ++ [x])%list (length l) y = (l ++ [y])%list.
Proof. induction l; simpl; congruence. Qed.

Lemma nth_end {A} (l : list A) x : nth_error (l ++ [x]) (length l) = Some x.
Proof. rewrite nth_error_app2, Nat.sub_diag by lia. reflexivity. Qed.

(** Updates of the last object touch nothing else and agree with the
    functional model. *)
Lemma update_last objs dicts f d dims_ls :
  match fold_res (fun h dl => update_heap h (length objs) (fst dl) (snd dl))
                 (MkHeap (objs ++ [MkHobj f (length dicts)]) (dicts ++ [d])) dims_ls with
  | Ok h' => exists f' d', h' = MkHeap (objs ++ [MkHobj f' (length dicts)]) (dicts ++ [d']) /\
                           fold_res (fun o dl => update_dim_value o (fst dl) (snd dl))
                                    (with_dim_vals f d) dims_ls = Ok (with_dim_vals f' d')
  | Err e => fold_res (fun o dl => update_dim_value o (fst dl) (snd dl))
                      (with_dim_vals f d) dims_ls = Err e
  end.
Proof.
  revert f d. induction dims_ls as [|[dim l] rest IH]; intros f d.
  - cbn. eauto.
  - cbn [fold_res fst snd]. unfold update_heap at 1, update_dim_value at 1 3. cbn [h_objs h_dicts].
    rewrite nth_end. cbn [ho_dv ho_fields]. rewrite nth_end.
    change (o_dims (with_dim_vals f d)) with (o_dims f).
    destruct (mem_str dim (o_dims f)); cbn [bind]; [|reflexivity].
    rewrite !lset_end.
    match goal with |- context [MkHobj ?f1 (length dicts)] => specialize (IH f1 (dset dim l d)) end.
    exact IH.
Qed.

Lemma view_app h ho d loc o :
  view h loc = Some o -> view (MkHeap (h_objs h ++ ho) (h_dicts h ++ d)) loc = Some o.
Proof.
  unfold view. simpl. intros H. destruct (nth_error (h_objs h) loc) as [x|] eqn:E; [|discriminate].
  rewrite (nth_error_app1 (h_objs h)) by (apply nth_error_Some; congruence). rewrite E.
  destruct (nth_error (h_dicts h) (ho_dv x)) eqn:G; [|discriminate].
  rewrite nth_error_app1 by (apply nth_error_Some; congruence). now rewrite G.
Qed.

Lemma expand_heap_loop src o dims prods h0 :
  view h0 src = Some o ->
  forall h ls0 ho hd, h = MkHeap (h_objs h0 ++ ho) (h_dicts h0 ++ hd) ->
  match fold_res (one_copy_heap src dims) (h, ls0) prods with
  | Ok (h', ls) => exists objs ho' hd' new,
      map_res (set_labels o dims) prods = Ok objs /\
      h' = MkHeap (h_objs h ++ ho') (h_dicts h ++ hd') /\
      ls = (ls0 ++ new)%list /\
      new = seq (length (h_objs h)) (length prods) /\
      map (view h') new = map Some objs
  | Err e => map_res (set_labels o dims) prods = Err e
  end.
Proof.
  intros Hv. induction prods as [|p prods IH]; intros h ls0 ho hd ->.
  - cbn. exists [], [], [], []. rewrite !app_nil_r. simpl. auto.
  - cbn [fold_res]. unfold one_copy_heap at 1. cbn [fst].
    set (h := MkHeap (h_objs h0 ++ ho) (h_dicts h0 ++ hd)) in *.
    assert (Hv' : view h src = Some o) by (unfold h; now apply view_app).
    unfold view in Hv'. unfold copy_heap at 1.
    destruct (nth_error (h_objs h) src) as [x|] eqn:E; [|discriminate].
    destruct (nth_error (h_dicts h) (ho_dv x)) as [d|] eqn:G; [|discriminate].
    injection Hv' as Ho. cbn [bind fst snd].
    assert (U := update_last (h_objs h) (h_dicts h) (ho_fields x) d (combine dims p)).
    cbn [map_res]. unfold set_labels at 1 3. rewrite Ho in U.
    match goal with |- match bind (bind ?t _) _ with _ => _ end => destruct t as [h1|e] end.
    2:{ cbn [bind]. rewrite U. reflexivity. }
    destruct U as (f' & d' & -> & U). cbn [bind]. rewrite U. cbn [bind].
    specialize (IH (MkHeap (h_objs h ++ [MkHobj f' (length (h_dicts h))]) (h_dicts h ++ [d']))
                   (ls0 ++ [length (h_objs h)])%list (ho ++ [MkHobj f' (length (h_dicts h))])%list (hd ++ [d'])%list).
    destruct (fold_res (one_copy_heap src dims) _ prods) as [[h' ls]|e].
    + destruct IH as (objs & ho' & hd' & new & A & B & C & D & F).
      { unfold h; simpl. now rewrite !app_assoc. }
      simpl in B. rewrite A. cbn [bind].
      exists (with_dim_vals f' d' :: objs), (MkHobj f' (length (h_dicts h)) :: ho'), (d' :: hd'), (length (h_objs h) :: new).
      split; [reflexivity|]. split; [rewrite B; simpl; rewrite <- !app_assoc; reflexivity|].
      split; [rewrite C, <- app_assoc; reflexivity|]. split.
      * simpl. f_equal. rewrite D. simpl. rewrite app_length. simpl. f_equal. lia.
      * simpl. rewrite F. f_equal. rewrite B.
        apply (@view_app (MkHeap (h_objs h ++ [MkHobj f' (length (h_dicts h))]) (h_dicts h ++ [d']))).
        unfold view. cbn [h_objs h_dicts]. rewrite nth_end. cbn [ho_dv]. rewrite nth_end. reflexivity.
    + rewrite IH; [reflexivity|]. unfold h; simpl. now rewrite !app_assoc.
Qed.

(** C11: the results are new objects; every object and dictionary that existed
    before is as it was. *)
Lemma c11_original_unchanged__p :
  forall (order : list string -> list string) (h : oheap) (src : nat) (o : mobj) (c : coords)
         (dims : option (list string)) (mode : unused_mode),
  view h src = Some o ->
  match expand_heap order h src c dims mode with
  | Ok (h', locs) =>
      (exists objs, expand_obj_by_indices order o c dims mode = Ok objs /\ map (view h') locs = map Some objs) /\
      NoDup locs /\
      (forall loc, In loc locs -> ~ loc < length (h_objs h)) /\
      (forall loc, loc < length (h_objs h) -> nth_error (h_objs h') loc = nth_error (h_objs h) loc) /\
      (forall loc, loc < length (h_dicts h) -> nth_error (h_dicts h') loc = nth_error (h_dicts h) loc)
  | Err e => expand_obj_by_indices order o c dims mode = Err e
  end.
Proof.
  intros order h src o c dims mode Hv. unfold expand_heap, expand_obj_by_indices. rewrite Hv.
  set (ds := match dims with None => o_dims o | Some ds => ds end).
  destruct (validate_dims order o ds mode) as [ds'|e]; cbn [bind]; [|reflexivity].
  destruct (map_res (fun d => dgetitem d c) ds') as [lss|e]; cbn [bind]; [|reflexivity].
  assert (L := @expand_heap_loop src o ds' (product lss) h Hv h [] [] []).
  rewrite !app_nil_r in L. specialize (L (match h with MkHeap a b => eq_refl end)).
  destruct (fold_res (one_copy_heap src ds') (h, []) (product lss)) as [[h' locs]|e]; auto.
  destruct L as (objs & ho & hd & new & A & -> & -> & -> & F). simpl app in *.
  split; [eauto|]. split; [apply seq_NoDup|]. split; [intros loc H; apply in_seq in H; lia|].
  split; intros loc Hloc; simpl; now rewrite nth_error_app1.
Qed.

(** C12 *)
Definition rebuilt (greek : string -> string) (k : kind) (o1 : mobj) (d : string) (l : label) : mobj :=
  let dv := dset d l (o_dim_vals o1) in
  let full := initialize_full_latex_name (o_dims o1) dv (greek (o_name o1)) 0 in
  MkObj k (o_name o1) (o_dims o1) dv (greek (o_name o1)) full
        (pretty_print_dim_flags (o_description o1) (o_dims o1) dv) (o_name o1) true true 0.

Definition rebuild_all greek k (o1 : mobj) (dls : list (string * label)) : mobj :=
  fold_left (fun o dl => rebuilt greek k o (fst dl) (snd dl)) dls o1.

Lemma map_res_some (l : list string) :
  map_res (fun o => match o with Some s => Ok s | None => Err ValueError end) (map Some l) = Ok l.
Proof. induction l; simpl; auto. now rewrite IHl. Qed.

Definition dv_ok (o1 : mobj) : Prop := forall k, In k (dkeys (o_dim_vals o1)) -> In k (o_dims o1).

Lemma mk_object_rebuilt greek k o1 d l :
  dv_ok o1 -> In d (o_dims o1) ->
  mk_object greek k (o_name o1) (DSeq (map Some (o_dims o1)))
            (Some (dset d l (o_dim_vals o1))) None (Some (o_description o1)) true true 0
  = Ok (rebuilt greek k o1 d l).
Proof.
  intros Hok Hd. unfold mk_object, initialize_index. rewrite map_res_some. cbn [bind].
  unfold initialize_dim_vals.
  assert (E : forallb (fun k0 => mem_str k0 (o_dims o1)) (dkeys (dset d l (o_dim_vals o1))) = true).
  { apply forallb_forall. intros x Hx. apply mem_str_In. rewrite dkeys_dset in Hx.
    destruct (mem_str d (dkeys (o_dim_vals o1))); [now apply Hok|].
    apply in_app_or in Hx as [Hx|[<-|[]]]; auto. }
  rewrite E. reflexivity.
Qed.

Lemma rebuilt_ok greek k o1 d l : dv_ok o1 -> In d (o_dims o1) -> dv_ok (rebuilt greek k o1 d l).
Proof.
  intros Hok Hd x Hx. simpl in *. rewrite dkeys_dset in Hx.
  destruct (mem_str d (dkeys (o_dim_vals o1))); [now apply Hok|].
  apply in_app_or in Hx as [Hx|[<-|[]]]; auto.
Qed.

Lemma map_res_Ok_map {A B} (f : A -> res B) (g : A -> B) l :
  (forall a, In a l -> f a = Ok (g a)) -> map_res f l = Ok (map g l).
Proof. intros H. rewrite (map_res_ext f (fun a => Ok (g a)) l H). apply map_res_total. Qed.

Lemma expand_var_fold greek k dims (c : coords) out :
  (forall o1, In o1 out -> o_dims o1 = dims /\ dv_ok o1) ->
  (forall d, In d (dkeys c) -> In d dims) ->
  fold_res (fun out dl =>
      let '(dim, all_labels) := dl in
      let* news := map_res (fun o1 =>
        let labels := if mem_str dim (o_dims o1) then all_labels else [] in
        map_res (fun l =>
          mk_object greek k (o_name o1) (DSeq (map Some (o_dims o1)))
                    (Some (dset dim l (o_dim_vals o1))) None (Some (o_description o1)) true true 0)
          labels) out in
      Ok (List.concat news)) out c
  = Ok (flat_map (fun o1 => map (fun ls => rebuild_all greek k o1 (combine (dkeys c) ls)) (product (dvals c))) out).
Proof.
  revert out. induction c as [|[d all] c IH]; intros out Hout Hc.
  - simpl. unfold rebuild_all. simpl. f_equal. induction out; simpl; auto. rewrite <- IHout; auto.
    intros; apply Hout; simpl; auto.
  - cbn [fold_res].
    rewrite (map_res_Ok_map _ (fun o1 => map (rebuilt greek k o1 d) all)).
    2:{ intros o1 H1. destruct (Hout _ H1) as (A & B).
        assert (M : mem_str d (o_dims o1) = true) by (rewrite A; apply mem_str_In, Hc; simpl; auto).
        cbv zeta. rewrite M. apply map_res_Ok_map. intros l _. apply mk_object_rebuilt; auto.
        rewrite A. apply Hc; simpl; auto. }
    cbn [bind]. rewrite <- flat_map_concat_map.
    rewrite IH.
    + f_equal. simpl. clear. induction out as [|o1 out IH]; simpl; auto.
      rewrite flat_map_app, IH. f_equal. clear.
      induction all as [|l all IH]; simpl; auto.
      rewrite map_app, IH, map_map. reflexivity.
    + intros o2 H2. apply in_flat_map in H2 as (o1 & H1 & H2). apply in_map_iff in H2 as (l & <- & _).
      destruct (Hout _ H1) as (A & B). split; auto. apply rebuilt_ok; auto. rewrite A. apply Hc; simpl; auto.
    + intros; apply Hc; simpl; auto.
Qed.

Lemma rebuild_all_attrs greek k o1 dls :
  let o' := rebuild_all greek k o1 dls in
  o_name o' = o_name o1 /\ o_dims o' = o_dims o1 /\
  o_dim_vals o' = dupdate (o_dim_vals o1) dls /\
  (dls <> [] -> o_kind o' = k /\ o_latex_name o' = greek (o_name o1) /\ o_base_name o' = o_name o1 /\
                o_real o' = true /\ o_positive o' = true /\ o_extend o' = 0).
Proof.
  unfold rebuild_all, dupdate. revert o1. induction dls as [|[d l] dls IH]; intros o1; simpl.
  - repeat split; auto; congruence.
  - specialize (IH (rebuilt greek k o1 d l)). simpl in IH. destruct IH as (A & B & C & D).
    rewrite A, B, C. repeat split; auto; destruct dls as [|x dls]; try reflexivity;
      destruct D as (D1 & D2 & D3 & D4 & D5 & D6); try discriminate; auto.
Qed.

Lemma self_labels_of (c : coords) : NoDup (dkeys c) -> Forall2 (fun d ls => dget d c = Some ls) (dkeys c) (dvals c).
Proof.
  intros H.
  assert (X : forall c' : coords, (forall p, In p c' -> In p c) -> Forall2 (fun d ls => dget d c = Some ls) (dkeys c') (dvals c')).
  { induction c' as [|[d ls] c' IH]; simpl; intros Hs; constructor.
    - apply dget_In_NoDup; auto.
    - apply IH. auto. }
  now apply X.
Qed.

Lemma c12_enumerates__p :
  forall (greek : string -> string) (o : mobj) (c : coords),
  NoDup (dkeys c) -> (forall d, In d (dkeys c) -> In d (o_dims o)) -> o_dim_vals o = [] ->
  let shape := map (@length label) (dvals c) in
  exists objs,
    expand_var_by_index greek o c = Ok objs /\
    length objs = prodn shape /\
    (forall idx, in_range shape idx -> exists ls o',
        labels_at c (dkeys c) idx ls /\
        nth_error objs (offset shape idx) = Some o' /\
        o_kind o' = o_kind o /\ o_name o' = o_name o /\ o_dims o' = o_dims o /\
        o_dim_vals o' = combine (dkeys c) ls).
Proof.
  intros greek o c Hnd Hc Hdv shape. unfold expand_var_by_index.
  assert (E : existsb (fun d => negb (mem_str d (o_dims o))) (dkeys c) = false).
  { apply not_true_is_false. intros H. apply existsb_exists in H as (d & Hd & H).
    apply negb_true_iff, mem_str_nIn in H. auto. }
  rewrite E. rewrite expand_var_fold with (dims := o_dims o); auto.
  2:{ intros o1 [<-|[]]. split; auto. intros k. rewrite Hdv. simpl. tauto. }
  simpl flat_map. rewrite app_nil_r. eexists. split; [reflexivity|]. split.
  - rewrite map_length. apply prodn_lengths.
  - intros idx Hi. destruct (nth_product_offset _ Hi) as (ls & Hn & HF).
    assert (F := self_labels_of c Hnd).
    assert (Hlen : length (dkeys c) = length idx).
    { apply in_range_len in Hi. unfold shape in Hi. rewrite map_length in Hi. apply Forall2_length in F. congruence. }
    assert (LA := labels_at_nth _ _ F Hlen HF).
    assert (Hll : length (dkeys c) = length ls).
    { destruct LA as (LA & _). apply Forall2_length in LA. rewrite combine_length in LA. lia. }
    exists ls, (rebuild_all greek (o_kind o) o (combine (dkeys c) ls)).
    split; auto. rewrite nth_error_map. unfold shape. rewrite Hn. split; [reflexivity|].
    destruct (rebuild_all_attrs greek (o_kind o) o (combine (dkeys c) ls)) as (A & B & C & D).
    split; [|repeat split; auto].
    + destruct (combine (dkeys c) ls) eqn:G; [reflexivity|]. apply D. discriminate.
    + rewrite C, Hdv. now apply nodup_combine_keys.
Qed.

(** Attributes survive for an object made with the default options. *)
Lemma c12_default_attributes_kept__p :
  forall (greek : string -> string) (o : mobj) (c : coords) (objs : list mobj) (o' : mobj),
  (forall d, In d (dkeys c) -> In d (o_dims o)) -> o_dim_vals o = [] ->
  o_latex_name o = greek (o_name o) -> o_base_name o = o_name o ->
  o_real o = true -> o_positive o = true -> o_extend o = 0 ->
  expand_var_by_index greek o c = Ok objs -> In o' objs -> same_attributes o o'.
Proof.
  intros greek o c objs o' Hc Hdv H1 H2 H3 H4 H5 H Hin. unfold expand_var_by_index in H.
  destruct (existsb _ (dkeys c)); [discriminate|].
  rewrite expand_var_fold with (dims := o_dims o) in H; auto.
  2:{ intros o1 [<-|[]]. split; auto. intros k. rewrite Hdv. simpl. tauto. }
  injection H as <-. simpl in Hin. rewrite app_nil_r in Hin. apply in_map_iff in Hin as (ls & <- & _).
  destruct (rebuild_all_attrs greek (o_kind o) o (combine (dkeys c) ls)) as (A & B & C & D).
  unfold same_attributes. destruct (combine (dkeys c) ls) as [|x xs] eqn:G.
  - repeat split.
  - destruct D as (D1 & D2 & D3 & D4 & D5 & D6); [discriminate|].
    rewrite A, B, D1, D2, D3, D4, D5, D6. repeat split; congruence.
Qed.

Lemma c12_foreign_dim_rejected__p :
  forall (greek : string -> string) (o : mobj) (c : coords) (d : string),
  In d (dkeys c) -> ~ In d (o_dims o) -> expand_var_by_index greek o c = Err ValueError.
Proof.
  intros greek o c d Hd Hno. unfold expand_var_by_index.
  assert (E : existsb (fun d => negb (mem_str d (o_dims o))) (dkeys c) = true).
  { apply existsb_exists. exists d. split; auto. apply negb_true_iff, mem_str_nIn. auto. }
  now rewrite E.
Qed.

(** In general they do not: the options of the object are lost. *)
Lemma c12_attributes_refuted__p :
  forall (greek : string -> string),
  exists (o : mobj) (c : coords) (o' : mobj),
    mk_object greek KVar "x" (DStr "i") None (Some "X") None true false 1 = Ok o /\
    expand_var_by_index greek o c = Ok [o'] /\
    o_positive o = false /\ o_positive o' = true /\ o_extend o' <> o_extend o /\
    o_latex_name o = greek "X" /\ o_latex_name o' = greek "x".
Proof.
  intros greek. eexists. exists [("i", [LStr "A"])]. eexists.
  split; [reflexivity|]. split; [reflexivity|]. simpl. repeat split; auto.
Qed.
