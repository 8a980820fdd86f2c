(** C01-C06: the flat-vector layout of base/utilities.py. *)
From Verif Require Import Py PyStr NdArray M_Primitives M_Utilities S_Layout L_Utilities L_Layout.

(** Running example: a scalar, a vector and a matrix. *)
Local Open Scope string_scope.
Definition ex_coords : coords := [("i", [LStr "A"; LStr "B"]); ("j", [LStr "P"; LStr "Q"; LStr "R"])].
Definition ex_Y := exobj KVar "Y" [].
Definition ex_X := exobj KVar "X" ["i"; "j"].
Definition ex_a := exobj KPar "a" ["j"].
Definition ex_d : dict (arr nat) :=
  [("a", mkArr [3] [7; 8; 9]); ("Y", mkArr [] [0]);
   ("X", mkArr [2; 3] [1; 2; 3; 4; 5; 6]); ("unrelated", mkArr [1] [99])].
Local Close Scope string_scope.

(** C01 *)
Theorem c01_pack_unpack :
  forall {V : Type} (c : coords) (vars params : list mobj) (d : dict (arr V)),
  vars <> [] -> params <> [] ->
  NoDup (map o_name (vars ++ params)) ->
  (forall o, In o (vars ++ params) -> exists a, dget (o_name o) d = Some a /\ fits c o a) ->
  exists v p d',
    variable_dict_to_flat_array d vars params = Ok (v, p) /\
    flat_array_to_variable_dict (v ++ p) (vars ++ params) c = Ok d' /\
    dkeys d' = map o_name (vars ++ params) /\
    (forall o, In o (vars ++ params) -> dget (o_name o) d' = dget (o_name o) d).
Proof. exact @c01_pack_unpack__p. Qed.
Print Assumptions c01_pack_unpack.

(** Only the entries of the listed objects are read. *)
Theorem c01_other_entries_irrelevant :
  forall {V : Type} (vars params : list mobj) (d1 d2 : dict (arr V)),
  (forall o, In o (vars ++ params) -> dget (o_name o) d1 = dget (o_name o) d2) ->
  variable_dict_to_flat_array d1 vars params = variable_dict_to_flat_array d2 vars params.
Proof. exact @c01_other_entries_irrelevant__p. Qed.
Print Assumptions c01_other_entries_irrelevant.
Example c01_other_entries_irrelevant_ex :
  variable_dict_to_flat_array ex_d [ex_Y; ex_X] [ex_a] =
  variable_dict_to_flat_array (("more"%string, mkArr [2] [5; 5]) :: firstn 3 ex_d) [ex_Y; ex_X] [ex_a].
Proof. apply c01_other_entries_irrelevant. intros o [<-|[<-|[<-|[]]]]; reflexivity. Qed.

(** The non-emptiness hypotheses of C01 are needed: a model without
    parameters cannot be flattened, whatever the data. *)
Theorem c01_no_parameters_refuted :
  forall {V : Type} (vars : list mobj) (d : dict (arr V)),
  exists e, variable_dict_to_flat_array d vars [] = Err e.
Proof. exact @c01_no_parameters_refuted__p. Qed.
Print Assumptions c01_no_parameters_refuted.

(** C02 *)
Theorem c02_unpack_pack :
  forall {V : Type} (c : coords) (vars params : list mobj) (sv sp : list (list nat)) (x : list V),
  vars <> [] -> params <> [] ->
  NoDup (map o_name (vars ++ params)) ->
  Forall2 (has_shape c) vars sv -> Forall2 (has_shape c) params sp ->
  length x = total sv + total sp ->
  exists d v p,
    flat_array_to_variable_dict x (vars ++ params) c = Ok d /\
    dkeys d = map o_name (vars ++ params) /\
    (forall o, In o (vars ++ params) -> exists a, dget (o_name o) d = Some a /\ fits c o a) /\
    variable_dict_to_flat_array d vars params = Ok (v, p) /\
    v ++ p = x /\ length v = total sv.
Proof. exact @c02_unpack_pack__p. Qed.
Print Assumptions c02_unpack_pack.

(** C03: every element is at its row-major position, and every position holds
    exactly one element. *)
Theorem c03_addressing :
  forall {V : Type} (vars params : list mobj) (d : dict (arr V)) (v p : list V),
  (forall o a, In o (vars ++ params) -> dget (o_name o) d = Some a -> arr_wf a) ->
  variable_dict_to_flat_array d vars params = Ok (v, p) ->
  forall group vec, (group, vec) = (vars, v) \/ (group, vec) = (params, p) ->
  (** every element is at its row-major position ... *)
  (forall j o a idx,
      nth_error group j = Some o -> dget (o_name o) d = Some a -> in_range (ashape a) idx ->
      exists val, aget a idx = Ok val /\
                  nth_error vec (start_of d group j + offset (ashape a) idx) = Some val) /\
  (** ... and every position holds exactly one element. *)
  (forall k, k < length vec ->
      exists! ji : nat * list nat,
        exists o a, nth_error group (fst ji) = Some o /\ dget (o_name o) d = Some a /\
                    in_range (ashape a) (snd ji) /\
                    k = start_of d group (fst ji) + offset (ashape a) (snd ji)).
Proof. exact @c03_addressing__p. Qed.
Print Assumptions c03_addressing.

(** C04: too short is rejected ... *)
Theorem c04_short_rejected :
  forall {V : Type} (c : coords) (objs : list mobj) (shapes : list (list nat)) (x : list V),
  Forall2 (has_shape c) objs shapes -> length x < total shapes ->
  flat_array_to_variable_dict x objs c = Err ValueError.
Proof. exact @c04_short_rejected__p. Qed.
Print Assumptions c04_short_rejected.
Example c04_short_rejected_ex : flat_array_to_variable_dict [0; 1; 2; 3; 4; 5] [ex_Y; ex_X] ex_coords = Err ValueError.
Proof.
  apply c04_short_rejected with [[]; [2; 3]]; [|cbn; lia]. constructor; [constructor|]. constructor; [|constructor].
  repeat (constructor; [eexists; split; reflexivity|]). constructor.
Qed.

(** ... but any excess is silently dropped, for every model and vector, so
    C04 as stated is false. *)
Theorem c04_excess_accepted :
  forall {V : Type} (c : coords) (objs : list mobj) (shapes : list (list nat)) (x extra : list V),
  Forall2 (has_shape c) objs shapes -> length x = total shapes ->
  exists d, flat_array_to_variable_dict (x ++ extra) objs c = Ok d /\
            flat_array_to_variable_dict x objs c = Ok d.
Proof. exact @c04_excess_accepted__p. Qed.
Print Assumptions c04_excess_accepted.
Example c04_excess_accepted_ex : exists d,
  flat_array_to_variable_dict ([0; 1; 2; 3; 4; 5; 6] ++ [100; 200]) [ex_Y; ex_X] ex_coords = Ok d /\
  flat_array_to_variable_dict [0; 1; 2; 3; 4; 5; 6] [ex_Y; ex_X] ex_coords = Ok d.
Proof.
  apply c04_excess_accepted with [[]; [2; 3]]; [|reflexivity]. constructor; [constructor|]. constructor; [|constructor].
  repeat (constructor; [eexists; split; reflexivity|]). constructor.
Qed.

Theorem c04_wrong_length_rejected_refuted :
  exists (c : coords) (objs : list mobj) (shapes : list (list nat)) (x : list nat) d,
    Forall2 (has_shape c) objs shapes /\ length x <> total shapes /\
    flat_array_to_variable_dict x objs c = Ok d.
Proof. exact @c04_wrong_length_rejected_refuted__p. Qed.
Print Assumptions c04_wrong_length_rejected_refuted.

(** C05 *)
Theorem c05_return_mask :
  forall {V : Type} (c : coords) (objs : list mobj) (omit : list string) (arrays : list (arr V)),
  Forall2 (fits c) objs arrays ->
  let x := List.concat (map (@adata V) arrays) in
  exists mask,
    make_flat_array_return_mask x objs omit c = Ok mask /\
    length mask = length x /\
    bool_index x mask =
      Ok (List.concat (map (fun oa => adata (snd oa))
           (filter (fun oa => negb (mem_str (o_name (fst oa)) omit)) (combine objs arrays)))) /\
    (forall j o a k, nth_error objs j = Some o -> nth_error arrays j = Some a -> k < length (adata a) ->
       nth_error mask (list_sum (map (fun b => length (adata b)) (firstn j arrays)) + k)
       = Some (negb (mem_str (o_name o) omit))).
Proof. exact @c05_return_mask__p. Qed.
Print Assumptions c05_return_mask.

(** C06 *)
Theorem c06_param_mask :
  forall {V : Type} (d : dict (arr V)) (names : list string),
  d <> [] -> NoDup (dkeys d) -> (forall k a, In (k, a) d -> arr_wf a) ->
  (forall n, In n names -> In n (dkeys d)) ->
  let x := List.concat (map (fun kv => adata (snd kv)) d) in
  exists mask,
    flat_mask_from_param_names d names = Ok mask /\
    length mask = length x /\
    bool_index x mask =
      Ok (List.concat (map (fun kv => adata (snd kv)) (filter (fun kv => mem_str (fst kv) names) d))) /\
    (forall j k a i, nth_error d j = Some (k, a) -> i < length (adata a) ->
       nth_error mask (list_sum (map (fun kv => length (adata (snd kv))) (firstn j d)) + i)
       = Some (mem_str k names)).
Proof. exact @c06_param_mask__p. Qed.
Print Assumptions c06_param_mask.

Theorem c06_unknown_name_rejected :
  forall {V : Type} (d : dict (arr V)) (names : list string) (n : string),
  d <> [] -> In n names -> ~ In n (dkeys d) ->
  flat_mask_from_param_names d names = Err KeyError.
Proof. exact @c06_unknown_name_rejected__p. Qed.
Print Assumptions c06_unknown_name_rejected.
Example c06_unknown_name_rejected_ex : flat_mask_from_param_names ex_d ["a"; "b"]%string = Err KeyError.
Proof. apply c06_unknown_name_rejected with "b"%string; simpl; intuition discriminate. Qed.

(** Non-vacuity: the running example meets the hypotheses of C01-C04. *)
Lemma ex_fits : forall o, In o ([ex_Y; ex_X] ++ [ex_a]) ->
  exists a, dget (o_name o) ex_d = Some a /\ fits ex_coords o a.
Proof.
  intros o [<-|[<-|[<-|[]]]]; eexists; (split; [reflexivity|]); split; try reflexivity;
    repeat (constructor; [eexists; split; reflexivity|]); constructor.
Qed.

Example c01_example :
  exists v p d',
    variable_dict_to_flat_array ex_d [ex_Y; ex_X] [ex_a] = Ok (v, p) /\
    flat_array_to_variable_dict (v ++ p) ([ex_Y; ex_X] ++ [ex_a]) ex_coords = Ok d' /\
    dkeys d' = map o_name ([ex_Y; ex_X] ++ [ex_a]) /\
    (forall o, In o ([ex_Y; ex_X] ++ [ex_a]) -> dget (o_name o) d' = dget (o_name o) ex_d).
Proof.
  apply c01_pack_unpack; try discriminate; [|apply ex_fits].
  repeat constructor; simpl; intuition discriminate.
Qed.

Example c02_example :
  exists d, flat_array_to_variable_dict [0; 1; 2; 3; 4; 5; 6; 7; 8; 9] ([ex_Y; ex_X] ++ [ex_a]) ex_coords = Ok d
            /\ variable_dict_to_flat_array d [ex_Y; ex_X] [ex_a] = Ok ([0; 1; 2; 3; 4; 5; 6], [7; 8; 9]).
Proof. eexists. split; reflexivity. Qed.

Example c02_hypotheses :
  NoDup (map o_name ([ex_Y; ex_X] ++ [ex_a])) /\
  Forall2 (has_shape ex_coords) [ex_Y; ex_X] [[]; [2; 3]] /\
  Forall2 (has_shape ex_coords) [ex_a] [[3]] /\ total [[]; [2; 3]] + total [[3]] = 10.
Proof.
  repeat split; try (repeat constructor; simpl; intuition discriminate).
  - constructor; [constructor|]. constructor; [|constructor].
    repeat (constructor; [eexists; split; reflexivity|]). constructor.
  - constructor; [|constructor]. repeat (constructor; [eexists; split; reflexivity|]). constructor.
Qed.

Example c03_example :
  variable_dict_to_flat_array ex_d [ex_Y; ex_X] [ex_a] = Ok ([0; 1; 2; 3; 4; 5; 6], [7; 8; 9]) /\
  start_of ex_d [ex_Y; ex_X] 1 + offset [2; 3] [1; 2] = 6 /\
  aget (mkArr [2; 3] [1; 2; 3; 4; 5; 6]) [1; 2] = Ok 6.
Proof. repeat split; reflexivity. Qed.


Example c05_example :
  make_flat_array_return_mask [0; 1; 2; 3; 4; 5; 6; 7; 8; 9] [ex_Y; ex_X; ex_a] ["X"%string] ex_coords
  = Ok ([true] ++ repeat false 6 ++ repeat true 3) /\
  bool_index [0; 1; 2; 3; 4; 5; 6; 7; 8; 9] ([true] ++ repeat false 6 ++ repeat true 3) = Ok [0; 7; 8; 9].
Proof. split; reflexivity. Qed.

Example c05_hypotheses :
  Forall2 (fits ex_coords) [ex_Y; ex_X; ex_a]
          [mkArr [] [0]; mkArr [2; 3] [1; 2; 3; 4; 5; 6]; mkArr [3] [7; 8; 9]].
Proof.
  repeat match goal with |- Forall2 (fits _) _ _ => constructor end; split; try reflexivity;
    repeat (constructor; [eexists; split; reflexivity|]); constructor.
Qed.

Example c06_example :
  flat_mask_from_param_names ex_d ["unrelated"; "a"]%string
  = Ok (repeat true 3 ++ repeat false 7 ++ [true]).
Proof. reflexivity. Qed.

Example c06_hypotheses :
  NoDup (dkeys ex_d) /\ (forall k a, In (k, a) ex_d -> arr_wf a) /\
  (forall n, In n ["unrelated"; "a"]%string -> In n (dkeys ex_d)).
Proof.
  repeat split.
  - repeat constructor; simpl; intuition discriminate.
  - intros k a H. simpl in H. repeat (destruct H as [H|H]; [inversion H; reflexivity|]). destruct H.
  - intros n H. simpl in *. intuition.
Qed.
