(** C25-C27, C32: results of simulations and calibrations. *)
From Coq Require Import QArith Qabs.
From Verif Require Import Py PyStr NdArray M_Primitives M_Utilities M_SimResult S_Layout L_SimResult.
Close Scope Q_scope.
Local Open Scope string_scope.
Local Open Scope list_scope.

(** C25 *)
Theorem c25_optimizer_cells :
  forall (V : Type) (c : coords) (vars params : list mobj) (sv sp : list (list nat))
         (initial final : dict (arr V)) (x v0 theta : list V),
  vars <> [] -> params <> [] -> NoDup (map o_name (vars ++ params)) ->
  (forall o, In o (vars ++ params) -> NoDup (o_dims o) /\ ~ In "step"%string (o_dims o)) ->
  Forall2 (has_shape c) vars sv -> Forall2 (has_shape c) params sp ->
  (forall o, In o (vars ++ params) -> exists a, dget (o_name o) initial = Some a /\ fits c o a) ->
  (* theta holds the final values of the parameters *)
  (forall o, In o params -> exists a, dget (o_name o) final = Some a /\ fits c o a) ->
  variable_dict_to_flat_array final vars params = Ok (v0, theta) ->
  length x = total sv ->
  exists ds_v ds_p,
    optimizer_result_to_idata x theta initial c vars params = Ok (ds_v, ds_p) /\
    dkeys ds_v = map o_name vars /\ dkeys ds_p = map o_name params /\
    (forall j o s, nth_error vars j = Some o -> nth_error sv j = Some s ->
       exists a a0, dget (o_name o) ds_v = Some ("step"%string :: o_dims o, a) /\ ashape a = 2 :: s /\
         dget (o_name o) initial = Some a0 /\
         forall idx, in_range s idx ->
           aget a (0 :: idx) = aget a0 idx /\
           exists v, aget a (1 :: idx) = Ok v /\ nth_error x (total (firstn j sv) + offset s idx) = Some v) /\
    (forall o, In o params ->
       exists a a0 a1, dget (o_name o) ds_p = Some ("step"%string :: o_dims o, a) /\
         dget (o_name o) initial = Some a0 /\ dget (o_name o) final = Some a1 /\
         ashape a = 2 :: ashape a1 /\
         forall idx, in_range (ashape a1) idx ->
           aget a (0 :: idx) = aget a0 idx /\ aget a (1 :: idx) = aget a1 idx).
Proof. exact @c25_optimizer_cells__p. Qed.
Print Assumptions c25_optimizer_cells.
Theorem c25_step_dimension_refuted :
  exists (c : coords) (vars params : list mobj) (initial : dict (arr nat)) (x theta : list nat),
    NoDup (map o_name (vars ++ params)) /\
    (forall o, In o (vars ++ params) -> exists a, dget (o_name o) initial = Some a /\ fits c o a) /\
    length x = 3 /\ Forall2 (has_shape c) vars [[3]] /\
    optimizer_result_to_idata x theta initial c vars params = Err ValueError.
Proof. exact @c25_step_dimension_refuted__p. Qed.
Print Assumptions c25_step_dimension_refuted.
Theorem c25_euler_cells :
  forall (V : Type) (c : coords) (vars params : list mobj) (arrays : list (arr V)) (n : nat),
  vars ++ params <> [] -> NoDup (map o_name (vars ++ params)) ->
  (forall o, In o (vars ++ params) -> NoDup (o_dims o) /\ ~ In "step"%string (o_dims o)) ->
  (* one trajectory of n steps per variable, then one per parameter *)
  Forall2 (fun o a => exists s, ashape a = n :: s /\ has_shape c o s) (vars ++ params) arrays ->
  exists ds_v ds_p,
    list_of_array_to_idata arrays c vars params = Ok (ds_v, ds_p) /\
    dkeys ds_v = map o_name vars /\ dkeys ds_p = map o_name params /\
    (forall j o a, nth_error vars j = Some o -> nth_error arrays j = Some a ->
       dget (o_name o) ds_v = Some ("step"%string :: o_dims o, a)) /\
    (forall j o a, nth_error params j = Some o -> nth_error arrays (length vars + j) = Some a ->
       dget (o_name o) ds_p = Some ("step"%string :: o_dims o, a)).
Proof. exact @c25_euler_cells__p. Qed.
Print Assumptions c25_euler_cells.
Example c25_euler_ex :
  let c := [("i", [LStr "A"; LStr "B"])] in
  let vars := [exobj KVar "Y" ["i"]; exobj KVar "w" []] in
  let params := [exobj KPar "a" []] in
  list_of_array_to_idata [mkArr [2; 2] [1; 2; 3; 4]; mkArr [2] [5; 6]; mkArr [2] [7; 8]] c vars params =
  Ok ([("Y", (["step"; "i"], mkArr [2; 2] [1; 2; 3; 4])); ("w", (["step"], mkArr [2] [5; 6]))],
      [("a", (["step"], mkArr [2] [7; 8]))]).
Proof. vm_compute; reflexivity. Qed.
Example c25_ex :
  let c := [("i", [LStr "A"; LStr "B"])] in
  let vars := [exobj KVar "Y" ["i"]; exobj KVar "w" []] in
  let params := [exobj KPar "a" []; exobj KPar "b" ["i"]] in
  let initial := [("Y", mkArr [2] [1; 2]); ("w", mkArr [] [3]); ("a", mkArr [] [4]); ("b", mkArr [2] [5; 6])] in
  let final := [("Y", mkArr [2] [1; 2]); ("w", mkArr [] [3]); ("a", mkArr [] [40]); ("b", mkArr [2] [5; 60])] in
  variable_dict_to_flat_array final vars params = Ok ([1; 2; 3], [40; 5; 60]) /\
  optimizer_result_to_idata [10; 20; 30] [40; 5; 60] initial c vars params =
  Ok ([("Y", (["step"; "i"], mkArr [2; 2] [1; 2; 10; 20])); ("w", (["step"], mkArr [2] [3; 30]))],
      [("a", (["step"], mkArr [2] [4; 40])); ("b", (["step"; "i"], mkArr [2; 2] [5; 6; 5; 60]))]).
Proof. split; vm_compute; reflexivity. Qed.

(** C26 *)
Theorem c26_no_fixed_values :
  forall (V : Type) (solver : dict (arr V) -> list V -> res (list V)) (param_dict guess : dict (arr V))
         (vars params : list mobj) (c : coords) (sv : list (list nat)) (xg theta x : list V),
  NoDup (map o_name vars) -> Forall2 (has_shape c) vars sv ->
  variable_dict_to_flat_array (dupdate param_dict guess) vars params = Ok (xg, theta) ->
  solver (dupdate param_dict guess) theta = Ok x -> length x = total sv ->
  exists d, generate_SAM solver param_dict guess [] vars params c = Ok d /\
    dkeys d = map o_name vars /\
    (forall j o s, nth_error vars j = Some o -> nth_error sv j = Some s ->
       dget (o_name o) d = Some (mkArr s (slice x (total (firstn j sv)) (prodn s)))).
Proof. exact @c26_no_fixed_values__p. Qed.
Print Assumptions c26_no_fixed_values.
Theorem c26_fixed_last :
  forall (V : Type) (solver : dict (arr V) -> list V -> res (list V)) (param_dict guess : dict (arr V))
         (fixed : list string) (free fix_ params : list mobj) (c : coords) (sv sf : list (list nat)) (xg theta x : list V),
  NoDup (map o_name (free ++ fix_)) -> Forall2 (has_shape c) free sv -> Forall2 (has_shape c) fix_ sf ->
  (forall o, In o free -> ~ In (o_name o) fixed) -> (forall o, In o fix_ -> In (o_name o) fixed) ->
  variable_dict_to_flat_array (dupdate param_dict guess) free params = Ok (xg, theta) ->
  solver (dupdate param_dict guess) theta = Ok x -> length x = total (sv ++ sf) ->
  exists d, generate_SAM solver param_dict guess fixed (free ++ fix_) params c = Ok d /\
    (forall j o s, nth_error free j = Some o -> nth_error sv j = Some s ->
       dget (o_name o) d = Some (mkArr s (slice x (total (firstn j sv)) (prodn s)))).
Proof. exact @c26_fixed_last__p. Qed.
Print Assumptions c26_fixed_last.
Example c26_fixed_last_ex : exists d,
  generate_SAM (fun (_ : dict (arr nat)) t => Ok ([7; 8] ++ t)) [("a", mkArr [] [9])] [("Y", mkArr [2] [1; 1]); ("w", mkArr [] [1])]
    ["w"] ([exobj KVar "Y" ["i"]] ++ [exobj KVar "w" []]) [exobj KPar "a" []] [("i", [LStr "A"; LStr "B"])] = Ok d /\
  dget "Y" d = Some (mkArr [2] [7; 8]).
Proof.
  destruct (@c26_fixed_last nat (fun _ t => Ok ([7; 8] ++ t)) [("a", mkArr [] [9])] [("Y", mkArr [2] [1; 1]); ("w", mkArr [] [1])]
    ["w"] [exobj KVar "Y" ["i"]] [exobj KVar "w" []] [exobj KPar "a" []] [("i", [LStr "A"; LStr "B"])] [[2]] [[]] [1; 1] [9] [7; 8; 9]) as (d & E & H).
  - repeat constructor; simpl; intuition discriminate.
  - repeat constructor; eexists; split; reflexivity.
  - repeat constructor.
  - intros o [<-|[]]; simpl; intuition discriminate.
  - intros o [<-|[]]; simpl; intuition.
  - reflexivity.
  - reflexivity.
  - reflexivity.
  - exists d. split; [exact E|]. exact (H 0 (exobj KVar "Y" ["i"]) [2] eq_refl eq_refl).
Qed.
Theorem c26_fixed_not_returned_refuted :
  forall (V : Type) (solver : dict (arr V) -> list V -> res (list V)) (param_dict guess : dict (arr V))
         (fixed : list string) (vars params : list mobj) (c : coords) (d : dict (arr V)) (n : string),
  generate_SAM solver param_dict guess fixed vars params c = Ok d -> In n fixed -> dget n d = None.
Proof. exact @c26_fixed_not_returned_refuted__p. Qed.
Print Assumptions c26_fixed_not_returned_refuted.
Theorem c26_misaligned_refuted :
  exists (vars params : list mobj) (param_dict guess d : dict (arr nat)),
    generate_SAM (fun _ _ => Ok [10; 20]) param_dict guess [] vars params [] =
      Ok [("X", mkArr [] [10]); ("Y", mkArr [] [20])] /\
    generate_SAM (fun _ _ => Ok [10; 20]) param_dict guess ["X"%string] vars params [] = Ok [("Y", mkArr [] [10])].
Proof. exact @c26_misaligned_refuted__p. Qed.
Print Assumptions c26_misaligned_refuted.
Example c26_ex :
  let c := [("i", [LStr "A"; LStr "B"])] in
  let vars := [exobj KVar "Y" ["i"]; exobj KVar "w" []] in
  let params := [exobj KPar "a" []] in
  let guess := [("Y", mkArr [2] [1; 1]); ("w", mkArr [] [1])] in
  let solver := fun (_ : dict (arr nat)) t => Ok ([7; 8] ++ t) in
  Forall2 (has_shape c) vars [[2]; []] /\
  generate_SAM solver [("a", mkArr [] [9])] guess [] vars params c =
    Ok [("Y", mkArr [2] [7; 8]); ("w", mkArr [] [9])] /\
  generate_SAM solver [("a", mkArr [] [9])] guess ["w"] vars params c = Ok [("Y", mkArr [2] [7; 8])] /\
  generate_SAM solver [("a", mkArr [] [9])] guess ["Y"] vars params c = Ok [("w", mkArr [] [7])].
Proof.
  split; [repeat constructor; eexists; split; reflexivity|]. repeat split; vm_compute; reflexivity.
Qed.

(** C27 *)
Theorem c27_nan_suffix :
  forall (n_iter a b a' b' : nat),
  optimizer_start n_iter (repeat false (S a) ++ repeat true b) (repeat false (S a') ++ repeat true b') =
  Ok (negb (Nat.eqb (S (Nat.min a a')) n_iter), (Nat.min a a', Nat.min a a')).
Proof. exact @c27_nan_suffix__p. Qed.
Print Assumptions c27_nan_suffix.
Theorem c27_gap_raises_refuted :
  forall (n_iter : nat) (nan : list bool) (i j : nat),
  nth_error nan i = Some true -> nth_error nan j = Some false -> i < j ->
  optimizer_start n_iter nan (repeat false (length nan)) = Err IndexError.
Proof. exact @c27_gap_raises_refuted__p. Qed.
Print Assumptions c27_gap_raises_refuted.
Theorem c27_warning_refuted :
  forall (n : nat),
  0 < n ->
  optimizer_start n (repeat false (S n)) (repeat false (S n)) = Ok (true, (n, n)) /\
  optimizer_start n (repeat false n ++ [true]) (repeat false (S n)) = Ok (false, (n - 1, n - 1)).
Proof. exact @c27_warning_refuted__p. Qed.
Print Assumptions c27_warning_refuted.
Example c27_ex :
  optimizer_start 5 [false; false; false; true; true] [false; false; false; false; false] = Ok (true, (2, 2)) /\
  optimizer_start 3 [false; false; false] [false; false; false] = Ok (false, (2, 2)) /\
  optimizer_start 4 [false; true; false; false] [false; false; false; false] = Err IndexError /\
  optimizer_start 2 [true; true] [false; false] = Err ValueError.
Proof. repeat split; vm_compute; reflexivity. Qed.

(** C32 *)
Local Open Scope Q_scope.
Theorem c32_decision :
  forall (names : list string) (errors : list Q) (tol : Q),
  (check_for_equilibrium names errors tol = None <-> Qsum (map (fun e => e * e) errors) < tol) /\
  (forall l, check_for_equilibrium names errors tol = Some l -> length names = length errors ->
     forall n, In n l <-> exists k e, nth_error names k = Some n /\ nth_error errors k = Some e /\ tol < Qabs e).
Proof. exact @c32_decision__p. Qed.
Print Assumptions c32_decision.
Theorem c32_explained :
  forall (names : list string) (errors : list Q) (tol : Q) (l : list string),
  length names = length errors -> 0 < tol -> inject_Z (Z.of_nat (length errors)) * tol < 1 ->
  check_for_equilibrium names errors tol = Some l -> l <> [].
Proof. exact @c32_explained__p. Qed.
Print Assumptions c32_explained.
Example c32_explained_ex : exists l, check_for_equilibrium ["a"; "b"] [1#100; 1#2] (1#10) = Some l /\ l <> [].
Proof.
  eexists. split; [vm_compute; reflexivity|]. apply (@c32_explained ["a"; "b"] [1#100; 1#2] (1#10)); vm_compute; reflexivity.
Qed.
Theorem c32_unexplained_refuted :
  check_for_equilibrium ["market"%string] [1] 1 = Some [].
Proof. exact @c32_unexplained_refuted__p. Qed.
Print Assumptions c32_unexplained_refuted.
Example c32_ex :
  check_for_equilibrium ["a"; "b"; "c"] [1#100; 1#2; - (1#2)] (1#10) = Some ["b"; "c"] /\
  check_for_equilibrium ["a"; "b"; "c"] [1#100; 1#10; - (1#10)] (1#10) = None /\
  (inject_Z (Z.of_nat 3) * (1#10) < 1).
Proof. repeat split; vm_compute; reflexivity. Qed.
