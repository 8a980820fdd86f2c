(** C11-C17: expansion of indexed objects, names, markers, dims. *)
From Verif Require Import Py PyStr NdArray M_Primitives M_Utilities M_Expand M_ExpandHeap M_Equations.
From Verif Require Import S_Layout S_Markers S_Expand.
From Verif Require Import L_Markers L_Expand L_Expand2 L_Unpacked L_Equations L_Dims.
Local Open Scope string_scope.

(** C11 *)
Theorem c11_enumerates :
  forall (order : list string -> list string) (c : coords) (o : mobj) (mode : unused_mode) (shape : list nat),
  NoDup (o_dims o) -> o_dim_vals o = [] -> has_shape c o shape ->
  exists objs,
    expand_obj_by_indices order o c None mode = Ok objs /\
    length objs = prodn shape /\
    (forall idx, in_range shape idx -> exists ls o',
        labels_at c (o_dims o) idx ls /\
        nth_error objs (offset shape idx) = Some o' /\
        o_dim_vals o' = combine (o_dims o) ls /\ same_attributes o o').
Proof. exact @c11_enumerates__p. Qed.
Print Assumptions c11_enumerates.

Theorem c11_requested_dims :
  forall (order : list string -> list string) (c : coords) (o : mobj) (ds : list string)
         (mode : unused_mode) (shape : list nat),
  NoDup ds -> (forall d, In d ds -> In d (o_dims o)) ->
  Forall2 (fun d n => exists ls, dget d c = Some ls /\ length ls = n) ds shape ->
  exists objs,
    expand_obj_by_indices order o c (Some ds) mode = Ok objs /\
    length objs = prodn shape /\
    (forall idx, in_range shape idx -> exists ls o',
        labels_at c ds idx ls /\
        nth_error objs (offset shape idx) = Some o' /\
        same_attributes o o' /\
        (forall d, ~ In d ds -> dget d (o_dim_vals o') = dget d (o_dim_vals o)) /\
        (forall k d l, nth_error ds k = Some d -> nth_error ls k = Some l ->
                       dget d (o_dim_vals o') = Some l)).
Proof. exact @c11_requested_dims__p. Qed.
Print Assumptions c11_requested_dims.

Theorem c11_unused_dims :
  forall (order : list string -> list string) (c : coords) (o : mobj) (ds : list string),
  (forall l, Permutation (order l) l) ->
  (exists d, In d ds /\ ~ In d (o_dims o)) ->
  expand_obj_by_indices order o c (Some ds) Raise = Err ValueError /\
  (exists ds',
    NoDup ds' /\ (forall d, In d ds' <-> In d ds /\ In d (o_dims o)) /\
    expand_obj_by_indices order o c (Some ds) Ignore = expand_obj_by_indices order o c (Some ds') Ignore).
Proof. exact @c11_unused_dims__p. Qed.
Print Assumptions c11_unused_dims.

Theorem c11_description :
  forall (order : list string -> list string) (c : coords) (o : mobj) (mode : unused_mode)
         (t : list seg) (objs : list mobj) (shape idx : list nat) (ls : list label) (o' : mobj),
  NoDup (o_dims o) -> o_dim_vals o = [] -> has_shape c o shape ->
  o_description o = written t -> plain_text t ->
  (forall d, In d (o_dims o) -> plain_name d) ->
  (forall d all l, In (d, all) c -> In l all -> plain_label l) ->
  (forall d, In d (marks t) -> In d (o_dims o)) ->
  expand_obj_by_indices order o c None mode = Ok objs ->
  in_range shape idx -> labels_at c (o_dims o) idx ls ->
  nth_error objs (offset shape idx) = Some o' ->
  o_description o' = filled (label_of (o_dims o) ls) t.
Proof. exact @c11_description__p. Qed.
Print Assumptions c11_description.

Theorem c11_original_unchanged :
  forall (order : list string -> list string) (h : oheap) (src : nat) (o : mobj) (c : coords)
         (dims : option (list string)) (mode : unused_mode),
  view h src = Some o ->
  match expand_heap order h src c dims mode with
  | Ok (h', locs) =>
      (exists objs, expand_obj_by_indices order o c dims mode = Ok objs /\ map (view h') locs = map Some objs) /\
      NoDup locs /\
      (forall loc, In loc locs -> ~ loc < length (h_objs h)) /\
      (forall loc, loc < length (h_objs h) -> nth_error (h_objs h') loc = nth_error (h_objs h) loc) /\
      (forall loc, loc < length (h_dicts h) -> nth_error (h_dicts h') loc = nth_error (h_dicts h) loc)
  | Err e => expand_obj_by_indices order o c dims mode = Err e
  end.
Proof. exact @c11_original_unchanged__p. Qed.
Print Assumptions c11_original_unchanged.
Example c11_requested_dims_ex :
  let o := MkObj KVar "x" ["i"; "j"] [("j", LStr "D")] "X" "X_{i, j}" "x" "x" true false 1 in
  let c := [("i", [LStr "A"; LStr "B"]); ("j", [LStr "C"; LStr "D"])] in
  exists objs, expand_obj_by_indices (fun l => l) o c (Some ["i"]) Raise = Ok objs /\ length objs = 2 /\
    forall idx, in_range [2] idx -> exists o', nth_error objs (offset [2] idx) = Some o' /\ dget "j" (o_dim_vals o') = Some (LStr "D").
Proof.
  intros o c. destruct (@c11_requested_dims (fun l => l) c o ["i"] Raise [2]) as (objs & E & L & H).
  - repeat constructor; simpl; intuition discriminate.
  - simpl. intuition.
  - repeat constructor; eexists; split; reflexivity.
  - exists objs. split; [exact E|]. split; [exact L|]. intros idx Hi. destruct (H idx Hi) as (ls & o' & _ & En & _ & K & _).
    exists o'. split; [exact En|]. rewrite K; [reflexivity|]. simpl. intuition discriminate.
Qed.

Definition ex_coords : coords := [("i", [LStr "A"; LStr "B"]); ("j", [LStr "C"; LStr "D"; LInt 3])].
Definition ex_obj : mobj :=
  MkObj KVar "x" ["i"; "j"] [] "X" "X_{i, j}" "x of <dim:i> in <dim:j>" "x" true false 1.
Example c11_enumerates_ex :
  NoDup (o_dims ex_obj) /\ o_dim_vals ex_obj = [] /\ has_shape ex_coords ex_obj [2; 3] /\
  in_range [2; 3] [1; 2] /\
  exists objs o', expand_obj_by_indices (fun l => l) ex_obj ex_coords None Raise = Ok objs /\ length objs = 6 /\
    nth_error objs 5 = Some o' /\ o_dim_vals o' = [("i", LStr "B"); ("j", LInt 3)] /\
    o_description o' = "x of B in 3" /\ o_full_latex o' = "X_{i=\text{B}, j=\text{3}}".
Proof.
  split; [repeat constructor; simpl; intuition discriminate|]. split; [reflexivity|].
  split; [repeat constructor; eexists; split; reflexivity|]. split; [repeat constructor|].
  eexists. eexists. repeat split; reflexivity.
Qed.
Example c11_unused_dims_ex :
  (exists d, In d ["k"; "j"] /\ ~ In d (o_dims ex_obj)) /\
  expand_obj_by_indices (fun l => l) ex_obj ex_coords (Some ["k"; "j"]) Raise = Err ValueError /\
  exists objs, expand_obj_by_indices (fun l => l) ex_obj ex_coords (Some ["k"; "j"]) Ignore = Ok objs /\
               map o_dim_vals objs = [[("j", LStr "C")]; [("j", LStr "D")]; [("j", LInt 3)]].
Proof.
  split; [exists "k"; simpl; intuition discriminate|]. split; [reflexivity|].
  eexists. split; reflexivity.
Qed.
Example c11_description_ex :
  o_description ex_obj = written [Lit "x of "; Mark "i"; Lit " in "; Mark "j"] /\
  plain_text [Lit "x of "; Mark "i"; Lit " in "; Mark "j"].
Proof.
  split; [reflexivity|]. intros x H. simpl in H. intuition; subst; simpl; auto; split; reflexivity.
Qed.
Example c11_original_unchanged_ex :
  let h := MkHeap [MkHobj ex_obj 0] [[]] in
  view h 0 = Some ex_obj /\
  match expand_heap (fun l => l) h 0 ex_coords None Raise with
  | Ok (h', locs) => length locs = 6 /\ view h' 0 = Some ex_obj
  | Err _ => False
  end.
Proof. vm_compute. repeat split; reflexivity. Qed.

(** C12 *)
Theorem c12_enumerates :
  forall (greek : string -> string) (o : mobj) (c : coords),
  NoDup (dkeys c) -> (forall d, In d (dkeys c) -> In d (o_dims o)) -> o_dim_vals o = [] ->
  let shape := map (@length label) (dvals c) in
  exists objs,
    expand_var_by_index greek o c = Ok objs /\
    length objs = prodn shape /\
    (forall idx, in_range shape idx -> exists ls o',
        labels_at c (dkeys c) idx ls /\
        nth_error objs (offset shape idx) = Some o' /\
        o_kind o' = o_kind o /\ o_name o' = o_name o /\ o_dims o' = o_dims o /\
        o_dim_vals o' = combine (dkeys c) ls).
Proof. exact @c12_enumerates__p. Qed.
Print Assumptions c12_enumerates.

Theorem c12_foreign_dim_rejected :
  forall (greek : string -> string) (o : mobj) (c : coords) (d : string),
  In d (dkeys c) -> ~ In d (o_dims o) -> expand_var_by_index greek o c = Err ValueError.
Proof. exact @c12_foreign_dim_rejected__p. Qed.
Print Assumptions c12_foreign_dim_rejected.

Theorem c12_default_attributes_kept :
  forall (greek : string -> string) (o : mobj) (c : coords) (objs : list mobj) (o' : mobj),
  (forall d, In d (dkeys c) -> In d (o_dims o)) -> o_dim_vals o = [] ->
  o_latex_name o = greek (o_name o) -> o_base_name o = o_name o ->
  o_real o = true -> o_positive o = true -> o_extend o = 0 ->
  expand_var_by_index greek o c = Ok objs -> In o' objs -> same_attributes o o'.
Proof. exact @c12_default_attributes_kept__p. Qed.
Print Assumptions c12_default_attributes_kept.
Example c12_foreign_dim_rejected_ex :
  expand_var_by_index (fun s => s) (exobj KPar "p" ["i"]) [("i", [LStr "A"]); ("k", [LStr "B"])] = Err ValueError.
Proof. apply c12_foreign_dim_rejected with "k"; simpl; intuition discriminate. Qed.

(** Latex name, assumptions and subscript options are otherwise lost. *)
Theorem c12_attributes_refuted :
  forall (greek : string -> string),
  exists (o : mobj) (c : coords) (o' : mobj),
    mk_object greek KVar "x" (DStr "i") None (Some "X") None true false 1 = Ok o /\
    expand_var_by_index greek o c = Ok [o'] /\
    o_positive o = false /\ o_positive o' = true /\ o_extend o' <> o_extend o /\
    o_latex_name o = greek "X" /\ o_latex_name o' = greek "x".
Proof. exact @c12_attributes_refuted__p. Qed.
Print Assumptions c12_attributes_refuted.

Example c12_ex :
  NoDup (dkeys ex_coords) /\ (forall d, In d (dkeys ex_coords) -> In d (o_dims ex_obj)) /\
  exists objs, expand_var_by_index (fun s => s) ex_obj ex_coords = Ok objs /\ length objs = 6.
Proof.
  split; [repeat constructor; simpl; intuition discriminate|]. split; [simpl; tauto|].
  eexists. split; reflexivity.
Qed.
Example c12_default_attributes_ex :
  let o := exobj KPar "p" ["i"] in
  exists objs o', expand_var_by_index (fun s => s) o [("i", [LStr "A"; LStr "B"])] = Ok objs /\ In o' objs /\
    o_latex_name o = "p" /\ same_attributes o o'.
Proof. simpl. eexists. eexists. split; [reflexivity|]. split; [left; reflexivity|]. repeat split. Qed.

(** C13 *)
Theorem c13_kth_name :
  forall {V : Type} (order : list string -> list string) (c : coords) (objs : list mobj)
         (d : dict (arr V)) (us : list mobj) (vec : list V),
  (forall o, In o objs -> NoDup (o_dims o) /\ o_dim_vals o = [] /\
                          exists a, dget (o_name o) d = Some a /\ fits c o a) ->
  unpack_objects order objs c = Ok us -> NoDup (map make_indexed_name us) ->
  concat_named d objs = Ok vec ->
  exists g,
    unpack_group order objs c = Ok g /\
    length g = length vec /\
    (forall k, k < length vec -> exists j o a idx ls o' val,
        nth_error objs j = Some o /\ dget (o_name o) d = Some a /\ in_range (ashape a) idx /\
        k = start_of d objs j + offset (ashape a) idx /\
        nth_error vec k = Some val /\ aget a idx = Ok val /\
        labels_at c (o_dims o) idx ls /\
        nth_error g k = Some (join "_" (o_name o :: map str_label ls), o') /\
        same_attributes o o' /\ o_dim_vals o' = combine (o_dims o) ls).
Proof. exact @c13_kth_name__p. Qed.
Print Assumptions c13_kth_name.

Example c13_ex :
  let objs := [exobj KVar "Y" ["i"]; exobj KVar "w" []] in
  let d := [("w", mkArr [] [7]); ("Y", mkArr [2] [5; 6])] in
  (forall o, In o objs -> NoDup (o_dims o) /\ o_dim_vals o = [] /\
                          exists a, dget (o_name o) d = Some a /\ fits ex_coords o a) /\
  exists us g, unpack_objects (fun l => l) objs ex_coords = Ok us /\ NoDup (map make_indexed_name us) /\
    concat_named d objs = Ok [5; 6; 7] /\ unpack_group (fun l => l) objs ex_coords = Ok g /\
    dkeys g = ["Y_A"; "Y_B"; "w"].
Proof.
  split.
  - intros o [<-|[<-|[]]]; simpl; (split; [repeat constructor; simpl; tauto|]); (split; [reflexivity|]);
      eexists; (split; [reflexivity|]); split; try reflexivity; repeat constructor. eexists. split; reflexivity.
  - eexists. eexists. split; [reflexivity|]. split; [|repeat split; reflexivity].
    simpl. repeat constructor; simpl; intuition discriminate.
Qed.

(** C14 *)
Theorem c14_distinct :
  forall (order : list string -> list string) (c : coords) (objs : list mobj) (shapes : list (list nat)),
  NoDup (map o_name objs) ->
  (forall o, In o objs -> NoDup (o_dims o) /\ o_dim_vals o = []) ->
  Forall2 (has_shape c) objs shapes ->
  (** no name is another name followed by an underscore and more *)
  (forall n1 n2 r, In n1 (map o_name objs) -> In n2 (map o_name objs) -> n2 <> n1 ++ "_" ++ r) ->
  (** the labels of a dim read differently *)
  (forall o d ls, In o objs -> In d (o_dims o) -> dget d c = Some ls -> NoDup (map str_label ls)) ->
  (** labels of objects with several dims have no underscore *)
  (forall o d ls l, In o objs -> 2 <= length (o_dims o) -> In d (o_dims o) -> dget d c = Some ls ->
                    In l ls -> contains_char "_" (str_label l) = false) ->
  exists g, unpack_group order objs c = Ok g /\ length g = total shapes.
Proof. exact @c14_distinct__p. Qed.
Print Assumptions c14_distinct.

Theorem c14_same_object_collision_refuted :
  exists (c : coords) (o : mobj) (shape : list nat) (g : dict mobj),
    NoDup (o_dims o) /\ o_dim_vals o = [] /\ has_shape c o shape /\
    (forall d ls, In (d, ls) c -> NoDup ls) /\
    unpack_group (fun l => l) [o] c = Ok g /\ length g < prodn shape.
Proof. exact @c14_same_object_collision_refuted__p. Qed.
Print Assumptions c14_same_object_collision_refuted.

Theorem c14_two_objects_collision_refuted :
  exists (c : coords) (o1 o2 : mobj) (g : dict mobj),
    o_name o1 <> o_name o2 /\ o_dims o1 = ["i"] /\ o_dims o2 = [] /\ dget "i" c = Some [LStr "a"; LStr "b"] /\
    unpack_group (fun l => l) [o1; o2] c = Ok g /\ length g = 2.
Proof. exact @c14_two_objects_collision_refuted__p. Qed.
Print Assumptions c14_two_objects_collision_refuted.

Example c14_ex :
  let objs := [exobj KVar "Y" ["i"; "j"]; exobj KVar "w" []] in
  NoDup (map o_name objs) /\ Forall2 (has_shape ex_coords) objs [[2; 3]; []] /\
  (forall n1 n2 r, In n1 (map o_name objs) -> In n2 (map o_name objs) -> n2 <> n1 ++ "_" ++ r) /\
  exists g, unpack_group (fun l => l) objs ex_coords = Ok g /\ length g = 7.
Proof.
  split; [repeat constructor; simpl; intuition discriminate|].
  split; [repeat constructor; eexists; split; reflexivity|].
  split; [|eexists; split; reflexivity].
  intros n1 n2 r [<-|[<-|[]]] [<-|[<-|[]]]; simpl; discriminate.
Qed.

(** C15 *)
Theorem c15_no_marker :
  forall (c : coords) (name : string),
  c <> [] -> (forall d, In d (dkeys c) -> contains ("<dim:" ++ d ++ ">") name = false) ->
  unpack_equation_strings [name] c = Ok [name].
Proof. exact @c15_no_marker__p. Qed.
Print Assumptions c15_no_marker.

Theorem c15_markers_replaced :
  forall (c : coords) (t : list seg) (shape : list nat),
  plain_text t -> NoDup (marks t) ->
  (forall d, In d (dkeys c) -> plain_name d) ->
  (forall d ls l, In (d, ls) c -> In l ls -> plain_label l) ->
  Forall2 (fun d n => exists ls, dget d c = Some ls /\ length ls = n) (marks t) shape ->
  exists names,
    unpack_equation_strings [written t] c = Ok names /\
    length names = prodn shape /\
    (forall idx, in_range shape idx ->
       exists ls, labels_at c (marks t) idx ls /\
                  nth_error names (offset shape idx) = Some (filled (label_of (marks t) ls) t)).
Proof. exact @c15_markers_replaced__p. Qed.
Print Assumptions c15_markers_replaced.

Theorem c15_equations_in_order :
  forall (c : coords) (names : list string),
  unpack_equation_strings names c =
  fold_right (fun n acc => let* a := unpack_equation_strings [n] c in let* b := acc in Ok (a ++ b)%list)
             (Ok []) names.
Proof. exact @c15_equations_in_order__p. Qed.
Print Assumptions c15_equations_in_order.

Theorem c15_marker_names :
  forall (t : list seg),
  plain_text t -> (forall d, In d (marks t) -> d <> "" /\ contains_char "010" d = false) ->
  replace_dim_marker_with_dim_name (written t) = filled (fun d => d) t.
Proof. exact @c15_marker_names__p. Qed.
Print Assumptions c15_marker_names.
Example c15_equations_in_order_ex : exists a b,
  unpack_equation_strings ["S <dim:i>"] [("i", [LStr "A"; LStr "B"])] = Ok a /\
  unpack_equation_strings ["W"; "T <dim:i>"] [("i", [LStr "A"; LStr "B"])] = Ok b /\
  unpack_equation_strings ["S <dim:i>"; "W"; "T <dim:i>"] [("i", [LStr "A"; LStr "B"])] = Ok (a ++ b)%list /\
  length a = 2 /\ length b = 3.
Proof. eexists. eexists. split; [reflexivity|]. split; [reflexivity|]. rewrite c15_equations_in_order. repeat split; reflexivity. Qed.

(** A marker written twice multiplies the names. *)
Theorem c15_repeated_marker_refuted :
  exists (c : coords) (t : list seg) (names : list string),
    marks t = ["i"; "i"] /\ unpack_equation_strings [written t] c = Ok names /\
    names = ["A:A"; "B:B"; "A:A"; "B:B"].
Proof. exact @c15_repeated_marker_refuted__p. Qed.
Print Assumptions c15_repeated_marker_refuted.

Example c15_ex :
  let t := [Lit "Demand of "; Mark "j"; Lit " for "; Mark "i"; Lit "!"] in
  plain_text t /\ NoDup (marks t) /\
  Forall2 (fun d n => exists ls, dget d ex_coords = Some ls /\ length ls = n) (marks t) [3; 2] /\
  unpack_equation_strings [written t] ex_coords =
    Ok ["Demand of C for A!"; "Demand of C for B!"; "Demand of D for A!"; "Demand of D for B!";
        "Demand of 3 for A!"; "Demand of 3 for B!"] /\
  replace_dim_marker_with_dim_name (written t) = "Demand of j for i!".
Proof.
  split; [intros x H; simpl in H; intuition; subst; simpl; auto; split; reflexivity|].
  split; [repeat constructor; simpl; intuition discriminate|].
  split; [repeat constructor; eexists; split; reflexivity|]. split; reflexivity.
Qed.
Example c15_no_marker_ex : unpack_equation_strings ["Walras <law>"; "b"] ex_coords = Ok ["Walras <law>"; "b"].
Proof. reflexivity. Qed.

(** C16 *)
Theorem c16_sympy_labels :
  forall {V : Type} (R : nat -> list (string * label) -> V) (c : coords) (eqs : list seqn)
         (shapes : list (list nat)) (us : list seqn),
  Forall2 (fun e => Forall2 (fun d n => exists ls, dget d c = Some ls /\ length ls = n) (se_dims e)) eqs shapes ->
  (forall d all l, In (d, all) c -> In l all -> plain_label l) ->
  (forall e, In e eqs -> NoDup (se_dims e) /\ se_subs e = [] /\ (forall d, In d (se_dims e) -> plain_name d)) ->
  unpack_eq_list eqs c = Ok us -> NoDup (map se_name us) ->
  exists g errors,
    unpack_equations_sympy eqs c = Ok g /\ residuals_sympy R g = Ok errors /\
    length errors = total shapes /\ length (dkeys g) = total shapes /\
    (forall j e shape idx t,
        nth_error eqs j = Some e -> nth_error shapes j = Some shape -> in_range shape idx ->
        se_name e = written t -> plain_text t -> (forall d, In d (marks t) -> In d (se_dims e)) ->
        exists ls,
          labels_at c (se_dims e) idx ls /\
          nth_error (residual_report (dkeys g) errors) (total (firstn j shapes) + offset shape idx) =
          Some (filled (label_of (se_dims e) ls) t, R (se_id e) (combine (se_dims e) ls))).
Proof. exact @c16_sympy_labels__p. Qed.
Print Assumptions c16_sympy_labels.

Theorem c16_unmarked_name_refuted :
  exists (c : coords) (e : seqn) (us : list seqn) (g : dict seqn),
    se_dims e = ["i"] /\ dget "i" c = Some [LStr "A"; LStr "B"] /\
    unpack_eq_list [e] c = Ok us /\ length us = 2 /\
    unpack_equations_sympy [e] c = Ok g /\ length g = 1 /\
    (forall (R : nat -> list (string * label) -> nat),
        residuals_sympy R g = Ok [R (se_id e) [("i", LStr "B")]]).
Proof. exact @c16_unmarked_name_refuted__p. Qed.
Print Assumptions c16_unmarked_name_refuted.

Theorem c16_pytensor_labels :
  forall {V : Type} (c : coords) (ts : list (list seg)) (arrays : list (arr V)) (names : list string),
  Forall2 (fun t a => arr_wf a /\ Forall2 (fun d n => exists ls, dget d c = Some ls /\ length ls = n)
                                          (marks t) (ashape a)) ts arrays ->
  (forall t, In t ts -> plain_text t /\ NoDup (marks t)) ->
  (forall d, In d (dkeys c) -> plain_name d) ->
  (forall d ls l, In (d, ls) c -> In l ls -> plain_label l) ->
  unpack_equation_strings (map written ts) c = Ok names -> NoDup names ->
  exists errors,
    unpack_equations_pytensor (map written ts) c = Ok names /\
    residuals_pytensor names arrays = Ok errors /\
    (forall j t a idx, nth_error ts j = Some t -> nth_error arrays j = Some a -> in_range (ashape a) idx ->
       exists ls val,
         labels_at c (marks t) idx ls /\ aget a idx = Ok val /\
         nth_error (residual_report names errors)
                   (total (map (@ashape V) (firstn j arrays)) + offset (ashape a) idx) =
         Some (filled (label_of (marks t) ls) t, val)).
Proof. exact @c16_pytensor_labels__p. Qed.
Print Assumptions c16_pytensor_labels.

Theorem c16_pytensor_order_refuted :
  exists (c : coords) (t : list seg) (a : arr (list (string * string))) names errors,
    marks t = ["j"; "i"] /\
    (** the array has dims (i, j): its element at (x, y) is the residual of i=x, j=y *)
    ashape a = [2; 2] /\
    aget a [0; 1] = Ok [("i", "A"); ("j", "D")] /\
    unpack_equations_pytensor [written t] c = Ok names /\
    residuals_pytensor names [a] = Ok errors /\
    NoDup names /\
    In ("eq C B", [("i", "A"); ("j", "D")]) (residual_report names errors).
Proof. exact @c16_pytensor_order_refuted__p. Qed.
Print Assumptions c16_pytensor_order_refuted.

Example c16_sympy_ex :
  let eqs := [MkSeqn 0 "Supply <dim:i>" ["i"] [] []; MkSeqn 1 "Walras" [] [] []] in
  exists us g errors,
    unpack_eq_list eqs ex_coords = Ok us /\ NoDup (map se_name us) /\
    unpack_equations_sympy eqs ex_coords = Ok g /\
    residuals_sympy (fun k s => (k, s)) g = Ok errors /\
    residual_report (dkeys g) errors =
      [("Supply A", (0, [("i", LStr "A")])); ("Supply B", (0, [("i", LStr "B")])); ("Walras", (1, []))].
Proof.
  eexists. eexists. eexists. split; [reflexivity|]. split; [|repeat split; reflexivity].
  cbv. repeat constructor; simpl; intuition discriminate.
Qed.
Example c16_pytensor_ex :
  let ts := [[Lit "S "; Mark "i"]; [Lit "W"]] in
  exists names errors,
    unpack_equations_pytensor (map written ts) ex_coords = Ok names /\ NoDup names /\
    residuals_pytensor names [mkArr [2] [10; 20]; mkArr [] [30]] = Ok errors /\
    residual_report names errors = [("S A", 10); ("S B", 20); ("W", 30)].
Proof.
  eexists. eexists. split; [reflexivity|]. split; [|repeat split; reflexivity].
  cbv. repeat constructor; simpl; intuition discriminate.
Qed.

(** C17 *)
Theorem c17_dims_string :
  forall (dims padded : list string),
  dims <> [] ->
  Forall2 (fun d p => exists a b, all_space a /\ all_space b /\ p = a ++ d ++ b) dims padded ->
  (forall d, In d dims -> contains_char "," d = false /\ stripped d) ->
  initialize_index (DStr (join "," padded)) = Ok dims.
Proof. exact @c17_dims_string__p. Qed.
Print Assumptions c17_dims_string.

Theorem c17_other_forms :
  forall (dims : list string),
  initialize_index DNone = Ok [] /\
  initialize_index (DSeq (map Some dims)) = Ok dims /\
  initialize_index DOther = Err ValueError /\
  (forall l, In None l -> initialize_index (DSeq l) = Err ValueError).
Proof. exact @c17_other_forms__p. Qed.
Print Assumptions c17_other_forms.

Theorem c17_empty_string_refuted :
  initialize_index (DStr (join "," [])) = Ok [""].
Proof. exact @c17_empty_string_refuted__p. Qed.
Print Assumptions c17_empty_string_refuted.

Theorem c17_latex_tokens :
  forall (dims : list string) (dv : dict label),
  (forall d, In d dims -> d <> "" /\ contains_char "," d = false /\ stripped d) ->
  (forall d l, dget d dv = Some l -> contains_char "," (str_label l) = false) ->
  tokenize_latex_subscript (make_latex_subscript dims dv) =
  map (fun d => match dget d dv with None => d | Some v => d ++ "=\text{" ++ str_label v ++ "}" end) dims.
Proof. exact @c17_latex_tokens__p. Qed.
Print Assumptions c17_latex_tokens.

Theorem c17_comma_label_refuted :
  exists (dims : list string) (dv : dict label),
    dims = ["i"] /\ length (tokenize_latex_subscript (make_latex_subscript dims dv)) = 2.
Proof. exact @c17_comma_label_refuted__p. Qed.
Print Assumptions c17_comma_label_refuted.

Example c17_ex :
  initialize_index (DStr "i , j,  k") = Ok ["i"; "j"; "k"] /\
  Forall2 (fun d p => exists a b, all_space a /\ all_space b /\ p = a ++ d ++ b) ["i"; "j"; "k"] ["i "; " j"; "  k"] /\
  (forall d, In d ["i"; "j"; "k"] -> contains_char "," d = false /\ stripped d) /\
  tokenize_latex_subscript (make_latex_subscript ["i"; "j"] [("j", LStr "B")]) = ["i"; "j=\text{B}"].
Proof.
  split; [reflexivity|]. split; [|split; [|reflexivity]].
  - constructor; [exists "", " "; repeat split|]. constructor; [exists " ", ""; repeat split|].
    constructor; [exists "  ", ""; repeat split|constructor].
  - intros d H. simpl in H. intuition; subst; reflexivity.
Qed.
