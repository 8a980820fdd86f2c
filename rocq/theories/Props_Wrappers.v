(** C33-C36: function wrappers. *)
From Verif Require Import Py PyStr NdArray M_Primitives M_Utilities M_Wrappers S_Layout L_Wrappers.
Local Open Scope string_scope.
Local Open Scope list_scope.

(** The model used in the examples: Y (i), w, and parameter a. *)
Definition wx_coords : coords := [("i", [LStr "A"; LStr "B"])].
Definition wx_vars := [exobj KVar "Y" ["i"]; exobj KVar "w" []].
Definition wx_params := [exobj KPar "a" []; exobj KPar "b" ["i"]].
Example wx_shapes : Forall2 (has_shape wx_coords) wx_vars [[2]; []] /\
  Forall2 (has_shape wx_coords) wx_params [[]; [2]] /\ NoDup (map o_name (wx_vars ++ wx_params)) /\
  (forall o v, In o (wx_vars ++ wx_params) -> In v wx_vars -> o_name o <> (o_name v ++ "_point")%string).
Proof.
  split; [repeat constructor; eexists; split; reflexivity|].
  split; [repeat constructor; eexists; split; reflexivity|].
  split; [repeat constructor; simpl; intuition discriminate|].
  intros o v [<-|[<-|[<-|[<-|[]]]]] [<-|[<-|[]]]; discriminate.
Qed.

(** C33 *)
Theorem c33_own_array :
  forall (V W : Type) (f : dict (arr V) -> res W) (c : coords) (vars params : list mobj)
         (sv sp : list (list nat)) (x theta : list V),
  NoDup (map o_name (vars ++ params)) ->
  Forall2 (has_shape c) vars sv -> Forall2 (has_shape c) params sp ->
  length x = total sv -> length theta = total sp ->
  exists data,
    wrap_pytensor_func_for_scipy f vars params c x theta = f data /\
    dkeys data = map o_name (vars ++ params) /\
    (forall j o s, nth_error vars j = Some o -> nth_error sv j = Some s ->
       dget (o_name o) data = Some (mkArr s (slice x (total (firstn j sv)) (prodn s)))) /\
    (forall j o s, nth_error params j = Some o -> nth_error sp j = Some s ->
       dget (o_name o) data = Some (mkArr s (slice theta (total (firstn j sp)) (prodn s)))).
Proof. exact @c33_own_array__p. Qed.
Print Assumptions c33_own_array.
Example c33_own_array_ex : exists data,
  wrap_pytensor_func_for_scipy (fun d => dgetitem "b" d) wx_vars wx_params wx_coords [1; 2; 3] [4; 5; 6] = dgetitem "b" data /\
  dget "Y" data = Some (mkArr [2] [1; 2]) /\ dget "b" data = Some (mkArr [2] [5; 6]).
Proof.
  destruct wx_shapes as (S1 & S2 & ND & _).
  destruct (@c33_own_array nat (arr nat) (fun d => dgetitem "b" d) wx_coords wx_vars wx_params [[2]; []] [[]; [2]] [1; 2; 3] [4; 5; 6]) as (data & E & _ & Hv & Hp); auto.
  exists data. split; [exact E|]. split; [exact (Hv 0 (exobj KVar "Y" ["i"]) [2] eq_refl eq_refl)|exact (Hp 1 (exobj KPar "b" ["i"]) [2] eq_refl eq_refl)].
Qed.
Theorem c33_flat_round_trip :
  forall (V W : Type) (f : list V -> list V -> res W) (c : coords) (vars params : list mobj)
         (sv sp : list (list nat)) (x theta : list V),
  vars <> [] -> params <> [] -> NoDup (map o_name (vars ++ params)) ->
  Forall2 (has_shape c) vars sv -> Forall2 (has_shape c) params sp ->
  length x = total sv -> length theta = total sp ->
  wrap_pytensor_func_for_scipy (wrap_scipy_func_for_pytensor f vars params) vars params c x theta = f x theta.
Proof. exact @c33_flat_round_trip__p. Qed.
Print Assumptions c33_flat_round_trip.
Theorem c33_keyword_round_trip :
  forall (V W : Type) (f : dict (arr V) -> res W) (c : coords) (vars params : list mobj) (kwargs : dict (arr V)),
  vars <> [] -> params <> [] -> NoDup (map o_name (vars ++ params)) ->
  (forall o, In o (vars ++ params) -> exists a, dget (o_name o) kwargs = Some a /\ fits c o a) ->
  (forall d1 d2, (forall o, In o (vars ++ params) -> dget (o_name o) d1 = dget (o_name o) d2) -> f d1 = f d2) ->
  wrap_scipy_func_for_pytensor (wrap_pytensor_func_for_scipy f vars params c) vars params kwargs = f kwargs.
Proof. exact @c33_keyword_round_trip__p. Qed.
Print Assumptions c33_keyword_round_trip.
Theorem c33_no_parameters_refuted :
  forall (V W : Type) (f : list V -> list V -> res W) (c : coords) (vars : list mobj) (x theta : list V),
  exists e, wrap_pytensor_func_for_scipy (wrap_scipy_func_for_pytensor f vars []) vars [] c x theta = Err e.
Proof. exact @c33_no_parameters_refuted__p. Qed.
Print Assumptions c33_no_parameters_refuted.
Example c33_ex :
  wrap_pytensor_func_for_scipy (fun d => Ok d) wx_vars wx_params wx_coords [1; 2; 3] [4; 5; 6] =
    Ok [("Y", mkArr [2] [1; 2]); ("w", mkArr [] [3]); ("a", mkArr [] [4]); ("b", mkArr [2] [5; 6])] /\
  wrap_pytensor_func_for_scipy (wrap_scipy_func_for_pytensor (fun x t => Ok (x, t)) wx_vars wx_params)
    wx_vars wx_params wx_coords [1; 2; 3] [4; 5; 6] = Ok ([1; 2; 3], [4; 5; 6]).
Proof. split; vm_compute; reflexivity. Qed.
Example c33_keyword_ex :
  let kwargs := [("b", mkArr [2] [5; 6]); ("w", mkArr [] [3]); ("a", mkArr [] [4]); ("Y", mkArr [2] [1; 2])] in
  (forall o, In o (wx_vars ++ wx_params) -> exists a, dget (o_name o) kwargs = Some a /\ fits wx_coords o a) /\
  (forall d1 d2 : dict (arr nat), (forall o, In o (wx_vars ++ wx_params) -> dget (o_name o) d1 = dget (o_name o) d2) ->
     dgetitem "b" d1 = dgetitem "b" d2) /\
  wrap_scipy_func_for_pytensor (wrap_pytensor_func_for_scipy (fun d => dgetitem "b" d) wx_vars wx_params wx_coords)
    wx_vars wx_params kwargs = Ok (mkArr [2] [5; 6]).
Proof.
  split; [|split].
  - intros o [<-|[<-|[<-|[<-|[]]]]]; eexists; (split; [reflexivity|]); split; try reflexivity; repeat constructor;
      eexists; split; reflexivity.
  - intros d1 d2 H. unfold dgetitem. specialize (H (exobj KPar "b" ["i"])). simpl in H. now rewrite H by auto.
  - vm_compute. reflexivity.
Qed.

(** C34 *)
Theorem c34_hessp_arguments :
  forall (V W : Type) (f : dict (arr V) -> res W) (c : coords) (vars params : list mobj)
         (sv sp : list (list nat)) (x p theta : list V),
  NoDup (map o_name (vars ++ params)) ->
  (forall o v, In o (vars ++ params) -> In v vars -> o_name o <> (o_name v ++ "_point")%string) ->
  Forall2 (has_shape c) vars sv -> Forall2 (has_shape c) params sp ->
  length x = total sv -> length p = total sv -> length theta = total sp ->
  exists data,
    wrap_pytensor_func_for_scipy_p f vars params c x p theta = f data /\
    dkeys data = map o_name (vars ++ params) ++ map (fun v => (o_name v ++ "_point")%string) vars /\
    (forall j o s, nth_error vars j = Some o -> nth_error sv j = Some s ->
       dget (o_name o) data = Some (mkArr s (slice x (total (firstn j sv)) (prodn s))) /\
       dget (o_name o ++ "_point")%string data = Some (mkArr s (slice p (total (firstn j sv)) (prodn s)))) /\
    (forall j o s, nth_error params j = Some o -> nth_error sp j = Some s ->
       dget (o_name o) data = Some (mkArr s (slice theta (total (firstn j sp)) (prodn s)))).
Proof. exact @c34_hessp_arguments__p. Qed.
Print Assumptions c34_hessp_arguments.
Theorem c34_flat_round_trip :
  forall (V W : Type) (f : list V -> list V -> list V -> res W) (c : coords) (vars params : list mobj)
         (sv sp : list (list nat)) (x p theta : list V),
  vars <> [] -> params <> [] -> NoDup (map o_name (vars ++ params)) ->
  (forall o v, In o (vars ++ params) -> In v vars -> o_name o <> (o_name v ++ "_point")%string) ->
  Forall2 (has_shape c) vars sv -> Forall2 (has_shape c) params sp ->
  length x = total sv -> length p = total sv -> length theta = total sp ->
  wrap_pytensor_func_for_scipy_p (wrap_scipy_func_for_pytensor_hessp f vars params) vars params c x p theta = f x p theta.
Proof. exact @c34_flat_round_trip__p. Qed.
Print Assumptions c34_flat_round_trip.
Theorem c34_point_name_refuted :
  exists (c : coords) (vars params : list mobj) (x p theta : list nat),
    NoDup (map o_name (vars ++ params)) /\ length x = 1 /\ length p = 1 /\ length theta = 1 /\
    wrap_pytensor_func_for_scipy_p (fun d => dgetitem "Y_point" d) vars params c x p theta = Ok (mkArr [] p) /\
    wrap_pytensor_func_for_scipy (fun d => dgetitem "Y_point" d) vars params c x theta = Ok (mkArr [] theta).
Proof. exact @c34_point_name_refuted__p. Qed.
Print Assumptions c34_point_name_refuted.
Example c34_ex :
  wrap_pytensor_func_for_scipy_p (fun d => Ok d) wx_vars wx_params wx_coords [1; 2; 3] [7; 8; 9] [4; 5; 6] =
    Ok [("Y", mkArr [2] [1; 2]); ("w", mkArr [] [3]); ("a", mkArr [] [4]); ("b", mkArr [2] [5; 6]);
        ("Y_point", mkArr [2] [7; 8]); ("w_point", mkArr [] [9])] /\
  wrap_pytensor_func_for_scipy_p (wrap_scipy_func_for_pytensor_hessp (fun x p t => Ok (x, p, t)) wx_vars wx_params)
    wx_vars wx_params wx_coords [1; 2; 3] [7; 8; 9] [4; 5; 6] = Ok ([1; 2; 3], [7; 8; 9], [4; 5; 6]).
Proof. split; vm_compute; reflexivity. Qed.

(** C35 *)
Theorem c35_unknown_rejected :
  forall (V : Type) (f : list V -> list V -> res (fres V)) (fixed : dict (arr V)) (vars params : list mobj)
         (c : coords) (unames : list string),
  (exists k, In k (dkeys fixed) /\ ~ In k unames) <-> wrap_fixed_values f fixed vars params c unames = Err ValueError.
Proof. exact @c35_unknown_rejected__p. Qed.
Print Assumptions c35_unknown_rejected.
Theorem c35_always_raises_refuted :
  forall (V : Type) (f : list V -> list V -> res (fres V)) (fixed : dict (arr V)) (vars params : list mobj)
         (c : coords) (unames : list string) (g : list V -> list V -> res (fres V)) (x theta : list V),
  (params = [] \/ exists o, In o params /\ ~ In (o_name o) (map o_name vars) /\ ~ In (o_name o) unames) ->
  wrap_fixed_values f fixed vars params c unames = Ok g ->
  exists e, g x theta = Err e.
Proof. exact @c35_always_raises_refuted__p. Qed.
Print Assumptions c35_always_raises_refuted.
Theorem c35_mask_keeps_fixed_refuted :
  forall (V : Type) (fixed : dict (arr V)) (unames : list string) (value : string -> V),
  mask_result (map (fun x => mem_str x (dkeys fixed)) unames) (FVec (map value unames)) =
  Ok (FVec (map value (filter (fun n => mem_str n (dkeys fixed)) unames))).
Proof. exact @c35_mask_keeps_fixed_refuted__p. Qed.
Print Assumptions c35_mask_keeps_fixed_refuted.
(** Fixing w in a model of X and w: the wrapper is built, and the call raises
    ValueError, or KeyError on the only parameter when w is not in the input. *)
Example c35_ex :
  let vars := [exobj KVar "X" []; exobj KVar "w" []] in
  let params := [exobj KPar "a" []] in
  wrap_fixed_values (fun x t => Ok (FVec x)) [("Z", mkArr [] [1])] vars params [] ["X"; "w"] = Err ValueError /\
  match wrap_fixed_values (fun x t => Ok (FVec x)) [("w", mkArr [] [1])] vars params [] ["X"; "w"] with
  | Ok g => g [5; 6] [7] = Err ValueError
  | Err _ => False
  end.
Proof. split; vm_compute; reflexivity. Qed.
Example c35_mask_ex :
  mask_result (map (fun x => mem_str x ["w"]) ["X"; "w"; "Z"]) (FVec [1; 2; 3]) = Ok (FVec [2]).
Proof. reflexivity. Qed.

Theorem c35_result_refuted :
  forall (V : Type) (f : list V -> list V -> res (fres V)) (fixed : dict (arr V)) (vars params : list mobj)
         (c : coords) (unames : list string) (g : list V -> list V -> res (fres V)) (x theta : list V) (r : fres V),
  wrap_fixed_values f fixed vars params c unames = Ok g -> g x theta = Ok r ->
  exists x' theta' r0, f x' theta' = Ok r0 /\
    match r0, r with
    | FNum v, FNum v' => v' = v
    | FVec l, FVec l' => length l = length unames /\ l' = map snd (filter (fun p => mem_str (fst p) (dkeys fixed)) (combine unames l))
    | FMat rows, FMat rows' =>
        length rows = length unames /\
        Forall2 (fun row row' => length row = length unames /\ row' = map snd (filter (fun p => mem_str (fst p) (dkeys fixed)) (combine unames row)))
                (map snd (filter (fun p => mem_str (fst p) (dkeys fixed)) (combine unames rows))) rows'
    | _, _ => False
    end.
Proof. exact @c35_result_refuted__p. Qed.
Print Assumptions c35_result_refuted.
(** Z is fixed; the only parameter is named like the variable X, so that the
    call returns. The free entry X is dropped and Z kept. *)
Example c35_result_ex :
  let vars := [exobj KVar "X" []] in
  match wrap_fixed_values (fun x t => Ok (FMat [[1; 2]; [3; 4]])) [("Z", mkArr [] [9])] vars vars [] ["X"; "Z"] with
  | Ok g => g [5] [] = Ok (FMat [[4]])
  | Err _ => False
  end.
Proof. vm_compute. reflexivity. Qed.

(** C36 *)
Theorem c36_trajectory_cut :
  forall (V : Type) (euler : list V -> list V -> list V -> nat -> res (list (list V)))
         (c : coords) (vars params : list mobj) (sv sp : list (list nat)) (data : dict (arr V))
         (x0 theta0 theta_final : list V) (n_steps : nat) (rows : list (list V)),
  Forall2 (has_shape c) vars sv -> Forall2 (has_shape c) params sp ->
  (forall s, In s (sv ++ sp) -> prodn s <> 0) ->
  variable_dict_to_flat_array data vars params = Ok (x0, theta0) ->
  euler x0 theta0 theta_final n_steps = Ok rows ->
  (forall row, In row rows -> length row = total (sv ++ sp)) ->
  exists out,
    wrap_numba_euler_function euler vars params c theta_final n_steps data = Ok out /\
    length out = length (vars ++ params) /\
    (forall j s, nth_error (sv ++ sp) j = Some s ->
       exists a, nth_error out j = Some a /\ ashape a = length rows :: s /\ arr_wf a /\
         forall t row idx, nth_error rows t = Some row -> in_range s idx ->
           exists v, aget a (t :: idx) = Ok v /\
                     nth_error row (total (firstn j (sv ++ sp)) + offset s idx) = Some v).
Proof. exact @c36_trajectory_cut__p. Qed.
Print Assumptions c36_trajectory_cut.
Theorem c36_empty_dimension_refuted :
  forall (V : Type) (euler : list V -> list V -> list V -> nat -> res (list (list V)))
         (c : coords) (vars params : list mobj) (theta_final : list V) (n_steps : nat) (data : dict (arr V)) (o : mobj) s,
  In o (vars ++ params) -> has_shape c o s -> prodn s = 0 ->
  exists e, wrap_numba_euler_function euler vars params c theta_final n_steps data = Err e.
Proof. exact @c36_empty_dimension_refuted__p. Qed.
Print Assumptions c36_empty_dimension_refuted.
Example c36_ex :
  let rows := [[1; 2; 3; 4; 5; 6]; [11; 12; 13; 14; 15; 16]; [21; 22; 23; 24; 25; 26]] in
  let data := [("Y", mkArr [2] [1; 2]); ("w", mkArr [] [3]); ("a", mkArr [] [4]); ("b", mkArr [2] [5; 6])] in
  wrap_numba_euler_function (fun x0 t0 t1 n => Ok rows) wx_vars wx_params wx_coords [24; 25; 26] 2 data =
  Ok [mkArr [3; 2] [1; 2; 11; 12; 21; 22]; mkArr [3] [3; 13; 23]; mkArr [3] [4; 14; 24];
      mkArr [3; 2] [5; 6; 15; 16; 25; 26]] /\
  (forall row, In row rows -> length row = total ([[2]; []] ++ [[]; [2]])).
Proof. split; [vm_compute; reflexivity|]. intros row [<-|[<-|[<-|[]]]]; reflexivity. Qed.
Example c36_empty_ex :
  wrap_numba_euler_function (fun x0 t0 t1 n => Ok [x0 ++ t0]) [exobj KVar "w" []] [exobj KPar "a" ["i"]] [("i", [])]
    [] 1 [("w", mkArr [] [3]); ("a", mkArr [0] [])] = Err ValueError.
Proof. vm_compute. reflexivity. Qed.
