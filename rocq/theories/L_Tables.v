(** Lemmas for C87 *)
From Coq Require Import Reals.
From Verif Require Import Py PyStr NdArray M_Primitives M_Expand M_SymExpr M_Calibrate M_Output M_Tables.
From Verif Require Import S_Markers S_Output S_Tables L_Output L_Markers L_Calibrate.
Local Open Scope string_scope.
Local Open Scope list_scope.

Lemma digit_iff a : is_digit a = true <-> In a (list_ascii_of_string "0123456789").
Proof.
  split.
  - destruct a as [b0 b1 b2 b3 b4 b5 b6 b7]. destruct b0, b1, b2, b3, b4, b5, b6, b7; vm_compute; intros H; try discriminate H; tauto.
  - cbn [list_ascii_of_string In]. intros H. repeat destruct H as [<-|H]; try reflexivity. destruct H.
Qed.
Lemma all_digits_iff s : all_digits s = true <-> forall a, In a (list_ascii_of_string s) -> In a (list_ascii_of_string "0123456789").
Proof.
  induction s as [|a s IH]; cbn [all_digits]; [split; [intros _ a []|reflexivity]|]. change (list_ascii_of_string (String a s)) with (a :: list_ascii_of_string s).
  rewrite Bool.andb_true_iff, IH, digit_iff. split; [intros (H1 & H2) b [<-|H]; auto|]. intros H. split; [apply H; now left|intros b Hb; apply H; now right].
Qed.
Lemma digits_iff s : isnumeric s = true <-> digits s.
Proof.
  unfold isnumeric, digits. destruct s as [|a s]; [split; [discriminate|intros (H & _); congruence]|]. rewrite all_digits_iff. split; [intros H; split; [discriminate|exact H]|tauto].
Qed.
(** The cell of a description *)
Definition text_cell (s : string) : string := if isnumeric s then s else ("\text{" ++ s ++ "}")%string.
Lemma text_described s : described s (text_cell (replace_dim_marker_with_dim_name s)).
Proof.
  intros t P M ->. rewrite (c15_marker_names__p P M). unfold text_cell. split; intros H.
  - now rewrite (proj2 (digits_iff _) H).
  - destruct (isnumeric _) eqn:E; [exfalso; now apply H, digits_iff|reflexivity].
Qed.
Lemma map_res_in {A B} (f : A -> res B) (P : A -> B -> Prop) l : (forall a, In a l -> exists b, f a = Ok b /\ P a b) ->
  exists bs, map_res f l = Ok bs /\ Forall2 P l bs.
Proof.
  induction l as [|a l IH]; intros H; [exists []; split; [reflexivity|constructor]|]. destruct (H a (or_introl eq_refl)) as (b & E & Pb).
  destruct IH as (bs & E' & F); [intros; apply H; now right|]. exists (b :: bs). cbn [map_res]. rewrite E. cbn [bind]. rewrite E'. cbn [bind]. split; [reflexivity|now constructor].
Qed.
Lemma registered_item vars params o : registered vars params -> In o (map snd vars ++ map snd params) -> summary_item vars params (o_name o) = Ok o.
Proof.
  intros (K & ND) H. rewrite map_app in ND. apply in_app_iff in H as [H|H]; apply in_map_iff in H as ((n & o') & E & H); cbn [snd] in E; subst o'.
  - assert (Kn : o_name o = n) by (apply K, in_app_iff; auto). rewrite Kn. unfold summary_item.
    destruct (dget n params) as [o'|] eqn:D.
    + exfalso. apply dget_In in D. apply (in_map fst) in D, H. cbn [fst] in D, H. clear - ND D H.
      induction (map fst vars) as [|a l IH]; [destruct H|]. cbn [app] in ND. inversion ND; subst. destruct H as [->|H]; [apply H2, in_app_iff; auto|auto].
    + rewrite (@dget_In_NoDup _ n vars o); [reflexivity| |exact H]. clear - ND. induction (map fst vars) eqn:E in vars, ND |- *; destruct vars; cbn in *; try discriminate; [constructor|].
      injection E as <- E. inversion ND; subst. constructor; [intros X; apply H1, in_app_iff; auto|]. apply IHl; auto.
  - assert (Kn : o_name o = n) by (apply K, in_app_iff; auto). rewrite Kn. unfold summary_item.
    rewrite (@dget_In_NoDup _ n params o); [reflexivity| |exact H]. clear - ND. induction (map fst vars) as [|a l IH]; [exact ND|]. cbn [app] in ND. inversion ND; auto.
Qed.
Lemma asked_names vars params q objs : registered vars params -> asked vars params q objs ->
  summary_names vars params q = map o_name objs /\ forall o, In o objs -> In o (map snd vars ++ map snd params).
Proof.
  intros G. destruct q as [| | |l]; cbn [asked summary_names].
  - intros ->. unfold dvals. rewrite map_app. auto.
  - intros ->. split; [reflexivity|]. intros o H. apply in_app_iff. auto.
  - intros ->. split; [reflexivity|]. intros o H. apply in_app_iff. auto.
  - induction 1 as [|n o l objs (H1 & H2) F (IH1 & IH2)]; [split; [reflexivity|intros ? []]|]. subst n. cbn [map]. split; [now rewrite IH1 at 1|]. intros o' [<-|H]; auto.
Qed.
Arguments asked_names {vars params q objs}.
Lemma items_ok vars params q objs : registered vars params -> asked vars params q objs ->
  map_res (summary_item vars params) (summary_names vars params q) = Ok objs.
Proof.
  intros G A. destruct (asked_names G A) as (-> & H). clear A. induction objs as [|o objs IH]; [reflexivity|]. cbn [map map_res].
  rewrite (@registered_item vars params o G) by (apply H; now left). cbn [bind]. rewrite IH by (intros; apply H; now right). reflexivity.
Qed.

Arguments items_ok {vars params q objs}.
(** The columns of a result *)
Definition result_entry (names : list string) (r : result) : item cell :=
  Sub [("Initial", Data (map (fun n => CFloat (match dget n (initial_dict r) with Some f => f | None => None end)) names));
       ("Final", Data (map (fun n => CFloat (match dget n (fitted_dict r) with Some f => f | None => None end)) names))].
Lemma get_all {V} (d : dict V) dflt names : (forall n, In n names -> dget n d <> None) ->
  map_res (fun n => dgetitem n d) names = Ok (map (fun n => match dget n d with Some f => f | None => dflt end) names).
Proof.
  induction names as [|n names IH]; intros H; [reflexivity|]. cbn [map_res map]. unfold dgetitem at 1. destruct (dget n d) as [f|] eqn:E; [|exfalso; apply (H n); auto; now left].
  cbn [bind]. rewrite IH by (intros; apply H; now right). reflexivity.
Qed.
Lemma fold_results names results : (forall k r n, In (k, r) results -> In n names -> dget n (initial_dict r) <> None /\ dget n (fitted_dict r) <> None) ->
  forall info, NoDup (map fst info ++ map fst results) ->
  fold_res (fun info nr => let* c := result_columns (snd nr) names in
     Ok (dset (fst nr) (Sub [("Initial", Data (map CFloat (fst c))); ("Final", Data (map CFloat (snd c)))]) info)) info results =
  Ok (info ++ map (fun nr => (fst nr, result_entry names (snd nr))) results).
Proof.
  induction results as [|(k & r) results IH]; intros H info ND; [cbn; now rewrite app_nil_r|]. cbn [fold_res fst snd]. unfold result_columns.
  rewrite (@get_all _ (initial_dict r) None) by (intros n Hn; apply (H k r n); auto; now left). cbn [bind].
  rewrite (@get_all _ (fitted_dict r) None) by (intros n Hn; apply (H k r n); auto; now left). cbn [bind fst snd]. rewrite !map_map.
  fold (result_entry names r).
  assert (N : ~ In k (map fst info)) by (cbn [map fst] in ND; apply NoDup_remove_2 in ND; intros X; apply ND, in_app_iff; auto).
  assert (D : dset k (result_entry names r) info = info ++ [(k, result_entry names r)]).
  { clear - N. induction info as [|(k' & v) info IH]; [reflexivity|]. cbn [dset app]. destruct (String.eqb_spec k k') as [->|X]; [exfalso; apply N; now left|]. rewrite IH; [reflexivity|]. intros Y. apply N. now right. }
  rewrite D, IH.
  - rewrite <- app_assoc. reflexivity.
  - intros k' r' n Hr. apply (H k' r' n). now right.
  - rewrite map_app, <- app_assoc. exact ND.
Qed.

Section Summary.
Context (doprint : sexpr -> sexpr -> string) (vars params : dict mobj) (q : summary_request) (results : list (string * result)) (objs : list mobj).
Context (G : registered vars params) (A : asked vars params q objs).
Context (NR : NoDup ("Symbol" :: "Description" :: map fst results)).
Context (HR : forall k r o, In (k, r) results -> In o objs -> dget (o_name o) (initial_dict r) <> None /\ dget (o_name o) (fitted_dict r) <> None).
Notation names := (map o_name objs).
Definition info : dict (item cell) :=
  [("Symbol", Data (map CObj objs)); ("Description", Data (map (fun o => CStr (replace_dim_marker_with_dim_name (o_description o))) objs))] ++
  map (fun nr => (fst nr, result_entry names (snd nr))) results.
Lemma summary_info : summary vars params q results = Ok info.
Proof.
  unfold summary. cbn zeta. rewrite (items_ok G A). cbn [bind]. rewrite (proj1 (asked_names G A)). apply fold_results.
  - intros k r n Hr Hn. apply in_map_iff in Hn as (o & <- & Ho). eapply HR; eauto.
  - exact NR.
Qed.
Lemma info_two : two_levels info.
Proof.
  intros k v H. unfold info in H. apply in_app_iff in H as [[H|[H|[]]]|H]; try (injection H as <- <-; exact I).
  apply in_map_iff in H as ((k' & r) & E & _). injection E as <- <-. cbn [snd]. unfold result_entry. intros k'' v' [H|[H|[]]]; injection H as <- <-; eexists; reflexivity.
Qed.
Lemma info_cols : flat_map (fun kv => data_columns (snd kv)) info =
  map CObj objs :: map (fun o => CStr (replace_dim_marker_with_dim_name (o_description o))) objs ::
  flat_map (fun nr => [map (fun n => CFloat (match dget n (initial_dict (snd nr)) with Some f => f | None => None end)) names;
                       map (fun n => CFloat (match dget n (fitted_dict (snd nr)) with Some f => f | None => None end)) names]) results.
Proof.
  unfold info. cbn [app flat_map data_columns snd]. do 2 f_equal. clear. induction results as [|(k & r) l IH]; [reflexivity|]. cbn [map flat_map fst snd]. rewrite IH. reflexivity.
Qed.
Lemma info_table : exists headings, make_table info = Ok (headings, length objs, flat_map (fun kv => data_columns (snd kv)) info) /\
  hd [] headings = Some "Symbol" :: Some "Description" :: flat_map (fun nr => [Some (fst nr); None]) results /\
  forall row, In row headings -> length row = 2 + 2 * length results.
Proof.
  destruct (@c66_table__p _ info (length objs) info_two) as (h & E & W).
  - discriminate.
  - intros k v H. unfold info in H. apply in_app_iff in H as [[H|[H|[]]]|H]; try (injection H as <- <-; discriminate).
    apply in_map_iff in H as ((k' & r) & E & _). injection E as <- <-. discriminate.
  - rewrite info_cols. intros col [<-|[<-|H]]; try (now rewrite map_length). apply in_flat_map in H as (nr & _ & [<-|[<-|[]]]); now rewrite !map_length.
  - exists h. split; [exact E|]. split.
    + destruct (@c66_headings__p _ info info_two ltac:(discriminate)) as (depth & Eh & Dp & _).
      assert (X : h = make_headings (build_tree info)).
      { unfold make_table in E. cbn zeta in E. destruct (map_res _ _) as [[|d0 ds]|]; cbn [bind] in E; try discriminate. destruct (forallb _ _); [|discriminate]. injection E as E _ _. symmetry. exact E. }
      rewrite X, Eh. destruct depth as [|depth]; [lia|]. cbn [seq map hd]. unfold aligned_row, info. cbn [app flat_map fst snd aligned columns Nat.sub repeat].
      do 2 f_equal. clear. induction results as [|(k & r) l IH]; [reflexivity|]. cbn [map flat_map fst snd app]. rewrite IH. reflexivity.
    + intros row Hr. rewrite (W row Hr), info_cols. cbn [length]. clear. induction results as [|(k & r) l IH]; [reflexivity|]. cbn [flat_map app length] in *. lia.
Qed.
End Summary.

Lemma nth_map_In {A B} (f : A -> B) l i a : nth_error l i = Some a -> nth_error (map f l) i = Some (f a).
Proof. intros H. rewrite nth_error_map, H. reflexivity. Qed.
Lemma rows_by_index {A} (l : list A) {B} (P : A -> B -> Prop) (rows : list B) :
  Forall2 (fun i row => exists a, nth_error l i = Some a /\ P a row) (seq 0 (length l)) rows -> Forall2 P l rows.
Proof.
  intros H. assert (L : length rows = length l) by (apply forall2_length in H; rewrite seq_length in H; auto).
  assert (Q : forall pre, pre ++ l = l \/ True) by auto. clear Q.
  assert (K : forall l2 pre, l = pre ++ l2 -> forall rows, Forall2 (fun i row => exists a, nth_error l i = Some a /\ P a row) (seq (length pre) (length l2)) rows -> Forall2 P l2 rows).
  { induction l2 as [|a l2 IH]; intros pre E rws F; cbn [length seq] in F; inversion F; subst; constructor.
    - destruct H2 as (b & Hb & Pb). rewrite nth_error_app2, Nat.sub_diag in Hb by lia. cbn in Hb. now injection Hb as ->.
    - apply (IH (pre ++ [a])); [now rewrite <- app_assoc|]. rewrite app_length. cbn [length]. rewrite Nat.add_1_r. assumption. }
  now apply (K l []).
Qed.

Lemma c87_summary__p :
  forall doprint vars params q results objs,
    registered vars params -> asked vars params q objs -> NoDup ("Symbol"%string :: "Description"%string :: map fst results) ->
    (forall k r o, In (k, r) results -> In o objs -> dget (o_name o) (initial_dict r) <> None /\ dget (o_name o) (fitted_dict r) <> None) ->
    exists info headings rows, summary vars params q results = Ok info /\ print_table doprint info = Ok (headings, rows) /\
      Forall2 (fun o row => row_of o results row) objs rows /\
      hd [] headings = ("\textbf{Symbol}" :: "\textbf{Description}" :: flat_map (fun nr => [("\textbf{" ++ fst nr ++ "}"); ""]) results)%string /\
      forall row, In row headings -> length row = 2 + 2 * length results.
Proof.
  intros doprint vars params q results objs G A NR HR. exists (info results objs).
  destruct (@info_table results objs) as (h & E & Hd & W).
  exists (map (map (fun s => match s with Some s => heading_to_latex s | None => "" end)) h).
  assert (R : exists rows, map_res (fun row => map_res (fun col => match nth_error col row with Some x => parse_data doprint x | None => Err IndexError end) (flat_map (fun kv => data_columns (snd kv)) (info results objs))) (seq 0 (length objs)) = Ok rows /\
     Forall2 (fun i row => exists o, nth_error objs i = Some o /\ row_of o results row) (seq 0 (length objs)) rows).
  { apply map_res_in. intros i Hi. apply in_seq in Hi. rewrite info_cols. destruct (nth_error objs i) as [o|] eqn:En; [|apply nth_error_None in En; lia].
    assert (Io : In o objs) by (eapply nth_error_In; eauto).
    assert (X : exists values, map_res (fun col => match nth_error col i with Some x => parse_data doprint x | None => Err IndexError end)
       (flat_map (fun nr => [map (fun n => CFloat (match dget n (initial_dict (snd nr)) with Some f => f | None => None end)) (map o_name objs);
                       map (fun n => CFloat (match dget n (fitted_dict (snd nr)) with Some f => f | None => None end)) (map o_name objs)]) results) = Ok (List.concat values) /\
       Forall2 (fun r v => exists a b, v = [a; b] /\ entry (o_name o) (initial_dict (snd r)) a /\ entry (o_name o) (fitted_dict (snd r)) b) results values).
    { clear - HR En Io. induction results as [|(k & r) l IH]; [exists []; split; [reflexivity|constructor]|].
      destruct IH as (vs & E & F); [intros k' r' o' H1 H2; apply (HR k' r' o'); auto; now right|].
      destruct (HR k r o (or_introl eq_refl) Io) as (H1 & H2).
      destruct (dget (o_name o) (initial_dict r)) as [a|] eqn:D1; [|congruence]. destruct (dget (o_name o) (fitted_dict r)) as [b|] eqn:D2; [|congruence].
      exists ([Number a; Number b] :: vs). split.
      - cbn [flat_map app map_res fst snd]. rewrite !map_map. rewrite (@nth_map_In _ _ (fun x => CFloat (match dget (o_name x) (initial_dict r) with Some f => f | None => None end)) objs i o En).
        rewrite D1. cbn [parse_data bind]. rewrite (@nth_map_In _ _ (fun x => CFloat (match dget (o_name x) (fitted_dict r) with Some f => f | None => None end)) objs i o En).
        rewrite D2. cbn [parse_data bind]. rewrite E. reflexivity.
      - constructor; [|exact F]. exists (Number a), (Number b). cbn [snd]. unfold entry. eauto 10. }
    destruct X as (values & Ev & Fv). eexists. split.
    - cbn [map_res]. rewrite (@nth_map_In _ _ CObj _ _ _ En). cbn [parse_data bind].
      rewrite (@nth_map_In _ _ (fun o => CStr (replace_dim_marker_with_dim_name (o_description o))) _ _ _ En). cbn [parse_data bind]. rewrite Ev. cbn [bind]. reflexivity.
    - exists o. split; [reflexivity|]. exists (text_cell (replace_dim_marker_with_dim_name (o_description o))), values. split; [reflexivity|]. split; [apply text_described|exact Fv]. }
  destruct R as (rows & Er & Fr). exists rows. split; [now apply (@summary_info vars params q results objs)|]. split.
  - unfold print_table. rewrite E. cbn [bind]. rewrite Er. reflexivity.
  - split; [now apply rows_by_index|]. split.
    + destruct h as [|h0 h]; [discriminate|]. cbn [map hd] in *. rewrite Hd. cbn [map]. unfold heading_to_latex at 1 2. cbn [append]. do 2 f_equal. clear.
      induction results as [|(k & r) l IH]; [reflexivity|]. cbn [flat_map app map fst]. rewrite IH. reflexivity.
    + intros row Hr. apply in_map_iff in Hr as (row0 & <- & Hr). rewrite map_length. auto.
Qed.

Lemma c87_unknown__p :
  forall vars params l results n, In n l -> ~ In n (map fst (vars ++ params)) -> summary vars params (Names l) results = Err ValueError.
Proof.
  intros vars params l results n H N. unfold summary. cbn [summary_names].
  assert (E : map_res (summary_item vars params) l = Err ValueError).
  { induction l as [|m l IH]; [destruct H|]. cbn [map_res]. unfold summary_item at 1. destruct H as [->|H].
    - rewrite map_app in N. destruct (dget n params) as [o|] eqn:D; [exfalso; apply N, in_app_iff; right; apply dget_In in D; now apply (in_map fst) in D|].
      destruct (dget n vars) as [o|] eqn:D'; [exfalso; apply N, in_app_iff; left; apply dget_In in D'; now apply (in_map fst) in D'|]. reflexivity.
    - destruct (dget m params); cbn [bind]; [|destruct (dget m vars); cbn [bind]; [|reflexivity]]; now rewrite IH. }
  now rewrite E.
Qed.

Lemma dict_keys_sub n r : dget n (initial_dict r) <> None -> In n (r_variables r ++ r_parameters r).
Proof.
  unfold initial_dict. rewrite dget_dict_of_list. intros H. destruct (dget n _) as [x|] eqn:D; [|congruence]. apply dget_In in D. apply in_rev in D. now apply in_combine_l in D.
Qed.
Lemma c87_dims_refuted__p :
  forall vars params q objs k r results o,
    registered vars params -> asked vars params q objs -> In o objs -> ~ In (o_name o) (r_variables r ++ r_parameters r) ->
    summary vars params q ((k, r) :: results) = Err KeyError.
Proof.
  intros vars params q objs k r results o G A Io N. unfold summary. cbn zeta. rewrite (items_ok G A). cbn [bind fold_res fst snd]. rewrite (proj1 (asked_names G A)).
  unfold result_columns. assert (E : map_res (fun n => dgetitem n (initial_dict r)) (map o_name objs) = Err KeyError).
  { clear - Io N. induction objs as [|o' objs IH]; [destruct Io|]. cbn [map map_res]. unfold dgetitem at 1. destruct (dget (o_name o') (initial_dict r)) as [f|] eqn:D; [|reflexivity]. cbn [bind].
    destruct Io as [->|Io]; [exfalso; apply N, dict_keys_sub; congruence|]. now rewrite (IH Io). }
  rewrite E. reflexivity.
Qed.

Lemma c87_shared_refuted__p :
  forall v p, o_name v = o_name p ->
    exists d, summary [(o_name v, v)] [(o_name p, p)] AllObjects [] =
      Ok (("Symbol"%string, Data [CObj p; CObj p]) :: d).
Proof.
  intros v p E. unfold summary. cbn [summary_names dvals map snd app map_res]. unfold summary_item. cbn [dget]. rewrite E, String.eqb_refl. cbn [bind fold_res map]. eexists. reflexivity.
Qed.

Lemma c87_equations__p :
  forall doprint equations,
    exists rows, equation_table doprint (map (fun e => SympyEquation (fst e) (fst (snd e)) (snd (snd e))) equations) =
      Ok ([["\textbf{}"; "\textbf{Name}"; "\textbf{Equation}"]]%string, rows) /\ length rows = length equations /\
      forall i name lhs rhs, nth_error equations i = Some (name, (lhs, rhs)) ->
        exists text, nth_error rows i = Some [Whole (i + 1); Latex text; Latex (doprint lhs rhs)] /\ described name text.
Proof.
  intros doprint equations. unfold equation_table, equation_info.
  assert (E : map_res (fun e => match e with SympyEquation n l r => Ok (n, (l, r)) | PlainEquation _ => Err AttributeError end)
     (map (fun e : string * (sexpr * sexpr) => SympyEquation (fst e) (fst (snd e)) (snd (snd e))) equations) = Ok equations).
  { clear. induction equations as [|(n & (l & r)) eqs IH]; [reflexivity|]. cbn [map map_res fst snd bind]. rewrite IH. reflexivity. }
  rewrite E. cbn [bind]. unfold print_table, make_table.
  cbn [build_tree map fst snd build_node tree_nodes flat_map nodes_of app get_leaves filter is_leaf nchildren map_res ndata bind length forallb].
  rewrite !map_length, !seq_length, !Nat.eqb_refl. cbn [andb bind].
  replace (make_headings _) with [[Some ""; Some "Name"; Some "Equation"]] by reflexivity. cbn [map heading_to_latex append].
  assert (R : map_res (fun row => map_res (fun col => match nth_error col row with Some x => parse_data doprint x | None => Err IndexError end)
     [map CInt (seq 1 (length equations)); map (fun d => CStr (replace_dim_marker_with_dim_name (fst d))) equations; map (fun d => CEq (fst (snd d)) (snd (snd d))) equations]) (seq 0 (length equations)) =
     Ok (map (fun ie => [Whole (S (fst ie)); Latex (text_cell (replace_dim_marker_with_dim_name (fst (snd ie)))); Latex (doprint (fst (snd (snd ie))) (snd (snd (snd ie))))]) (combine (seq 0 (length equations)) equations))).
  { set (F := fun row => map_res _ _).
    assert (FE : forall i e, nth_error equations i = Some e -> F i = Ok [Whole (S i); Latex (text_cell (replace_dim_marker_with_dim_name (fst e))); Latex (doprint (fst (snd e)) (snd (snd e)))]).
    { intros i e N. unfold F. cbn [map_res]. rewrite (@nth_map_In _ _ CInt _ _ (S i)).
      2:{ assert (i < length equations) by (apply nth_error_Some; congruence). rewrite (@nth_error_nth' _ _ _ 0) by (now rewrite seq_length). now rewrite seq_nth. }
      cbn [parse_data bind]. rewrite (@nth_map_In _ _ (fun d => CStr (replace_dim_marker_with_dim_name (fst d))) _ _ _ N). cbn [parse_data bind].
      rewrite (@nth_map_In _ _ (fun d => CEq (fst (snd d)) (snd (snd d))) _ _ _ N). reflexivity. }
    clearbody F.
    assert (K : forall l2 pre, equations = pre ++ l2 -> map_res F (seq (length pre) (length l2)) =
      Ok (map (fun ie => [Whole (S (fst ie)); Latex (text_cell (replace_dim_marker_with_dim_name (fst (snd ie)))); Latex (doprint (fst (snd (snd ie))) (snd (snd (snd ie))))]) (combine (seq (length pre) (length l2)) l2))).
    { induction l2 as [|e l2 IH]; intros pre Eq; [reflexivity|]. cbn [length seq map_res combine map].
      rewrite (FE (length pre) e) by (rewrite Eq, nth_error_app2, Nat.sub_diag by lia; reflexivity).
      specialize (IH (pre ++ [e])). rewrite app_length in IH. cbn [length] in IH. rewrite Nat.add_1_r in IH. rewrite IH by (now rewrite <- app_assoc). reflexivity. }
    now apply (K equations []). }
  rewrite R. cbn [bind]. eexists. split; [reflexivity|]. rewrite map_length, combine_length, seq_length, Nat.min_id. split; [reflexivity|].
  intros i name lhs rhs H. exists (text_cell (replace_dim_marker_with_dim_name name)). split; [|apply text_described].
  assert (L : i < length equations) by (apply nth_error_Some; congruence).
  rewrite (@nth_map_In _ _ _ _ i (i, (name, (lhs, rhs)))); [cbn [fst snd]; rewrite Nat.add_1_r; reflexivity|].
  assert (C : forall (l : list (string * (sexpr * sexpr))) s k e, nth_error l k = Some e -> nth_error (combine (seq s (length l)) l) k = Some (s + k, e)).
  { clear. induction l as [|x l IH]; intros s [|k] e H; cbn in *; try discriminate; [injection H as ->; now rewrite Nat.add_0_r|]. rewrite (IH (S s) k e H). f_equal. f_equal. lia. }
  now rewrite (C equations 0 i _ H).
Qed.
Lemma c87_plain_refuted__p :
  forall doprint equations n, In (PlainEquation n) equations -> equation_table doprint equations = Err AttributeError.
Proof.
  intros doprint equations n H. unfold equation_table, equation_info.
  assert (E : map_res (fun e => match e with SympyEquation n l r => Ok (n, (l, r)) | PlainEquation _ => Err AttributeError end) equations = Err AttributeError).
  { induction equations as [|e eqs IH]; [destruct H|]. cbn [map_res]. destruct H as [->|H]; [reflexivity|]. destruct e; cbn [bind]; [now rewrite IH|reflexivity]. }
  now rewrite E.
Qed.
Lemma c87_short_values_refuted__p :
  forall v vs, length v < length vs -> length (make_summary_table vs (Some v)) = S (length v) /\ length (make_summary_table vs None) = S (length vs).
Proof.
  intros v vs H. unfold make_summary_table. cbn [length]. rewrite !map_length, combine_length. split; [|reflexivity]. f_equal. lia.
Qed.

Lemma nth_error_combine {A B} (l : list A) (m : list B) : forall i a b, nth_error l i = Some a -> nth_error m i = Some b -> nth_error (combine l m) i = Some (a, b).
Proof.
  revert m. induction l as [|x l IH]; intros m i a b Ha Hb; [destruct i; discriminate|].
  destruct m as [|y m]; [destruct i; discriminate|]. destruct i as [|i]; cbn in *; [congruence|]. now apply IH.
Qed.
(** The rows of the plain tables. *)
Lemma c87_plain_rows__p :
  forall doprint vs values equations, length values = length vs ->
    (exists h rows, make_summary_table vs None = h :: rows /\ h = [Latex "\text{Symbol}"; Latex "\text{Description}"] /\ length rows = length vs /\
       forall i symbol description, nth_error vs i = Some (symbol, description) ->
         nth_error rows i = Some [Latex symbol; Latex ("\text{" ++ description ++ "}")]%string) /\
    (exists h rows, make_summary_table vs (Some values) = h :: rows /\ h = [Latex "\text{Symbol}"; Latex "\text{Description}"; Latex "\text{Calibrated Value}"] /\ length rows = length vs /\
       forall i symbol description x, nth_error vs i = Some (symbol, description) -> nth_error values i = Some x ->
         nth_error rows i = Some [Latex symbol; Latex ("\text{" ++ description ++ "}"); Number x]%string) /\
    (exists h rows, make_equation_table doprint equations = h :: rows /\ h = [Latex ""; Latex "\text{Equation}"; Latex "\text{Equation}"] /\ length rows = length equations /\
       forall i id name l r, nth_error equations i = Some (id, name, (l, r)) ->
         nth_error rows i = Some [Whole id; Latex ("\text{" ++ name ++ "}"); Latex (doprint l r)]%string).
Proof.
  intros doprint vs values equations L. unfold make_summary_table, make_equation_table. split; [|split].
  - eexists _, _. split; [reflexivity|]. split; [reflexivity|]. split; [apply map_length|].
    intros i s d H. exact (map_nth_error (fun d => [Latex (fst d); Latex ("\text{" ++ snd d ++ "}")]%string) i vs H).
  - eexists _, _. split; [reflexivity|]. split; [reflexivity|]. split; [rewrite map_length, combine_length; lia|].
    intros i s d x H Hx. exact (map_nth_error (fun dv => [Latex (fst (fst dv)); Latex ("\text{" ++ snd (fst dv) ++ "}"); Number (snd dv)]%string) i _ (@nth_error_combine _ _ vs values i _ _ H Hx)).
  - eexists _, _. split; [reflexivity|]. split; [reflexivity|]. split; [apply map_length|].
    intros i id name l r H. rewrite (map_nth_error _ i equations H). reflexivity.
Qed.

Lemma c87_unsupported__p :
  forall doprint (heading : string) cells, In COther cells -> print_table doprint [(heading, Data cells)] = Err ValueError.
Proof.
  intros doprint heading cells I. unfold print_table. cbn [make_table].
  assert (E : make_table [(heading, Data cells)] = Ok (make_headings (build_tree [(heading, Data cells)]), length cells, [cells])) by (unfold make_table; cbn; now rewrite Nat.eqb_refl).
  rewrite E. cbn [bind].
  assert (P : forall c, parse_data doprint c = Err ValueError \/ exists x, parse_data doprint c = Ok x) by (intros []; cbn; eauto).
  set (f := fun row => map_res (fun col => match nth_error col row with Some x => parse_data doprint x | None => Err IndexError end) [cells]).
  assert (F : forall j, j < length cells -> f j = Err ValueError \/ exists x, f j = Ok x).
  { intros j B. unfold f. cbn. destruct (nth_error cells j) as [c|] eqn:Ej; [|apply nth_error_None in Ej; lia]. destruct (P c) as [Ec|(x & Ec)]; rewrite Ec; cbn; eauto. }
  assert (M : forall l, (forall i, In i l -> i < length cells) -> (exists i, In i l /\ f i = Err ValueError) -> map_res f l = Err ValueError).
  { intros l B (i & Hi & Ei). induction l as [|j l IH]; [destruct Hi|]. cbn [map_res]. destruct (F j (B j (or_introl eq_refl))) as [Ec|(x & Ec)]; rewrite Ec; [reflexivity|].
    cbn [bind]. rewrite IH; [reflexivity|intros; apply B; now right|]. destruct Hi as [->|Hi]; [congruence|exact Hi]. }
  rewrite (M (seq 0 (length cells))); [reflexivity|intros i Hi; apply in_seq in Hi; lia|].
  destruct (In_nth_error _ _ I) as (i & Ei). exists i. split; [|unfold f; cbn; now rewrite Ei]. apply in_seq. assert (i < length cells) by (apply nth_error_Some; congruence). lia.
Qed.
