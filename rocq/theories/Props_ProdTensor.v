(** C57 and C58 with the pytensor backend; C83: unpacked string inputs. *)
From Coq Require Import Reals Lra.
From Verif Require Import Py PyStr NdArray M_Primitives M_PyExpr M_Production M_Tensor S_PyExpr S_Meaning S_Production S_Layout S_Tensor L_PyExpr L_Production6 L_Tensor L_Tensor2 L_Tensor3 L_Tensor4 L_Tensor5 L_Tensor6 L_Production8.
Local Open Scope string_scope.
Local Open Scope list_scope.

(** The pytensor equations of a leontief over two dimensions, summed over the
    first: all residuals are zero just when price equals unit cost and the demands
    hold. *)
Theorem c57_pytensor :
  forall number_op C objs data names coords (c d : string) (expand_price_dim transpose_output : bool) (factor price output output_price share : string)
         (x q a : nat -> nat -> R) (y p : nat -> R),
  let rho := array_values objs data in let m := size C c in let n := size C d in
  real_arithmetic number_op -> given C objs data -> c <> d ->
  array2 C objs rho factor c d x -> array2 C objs rho share c d a -> array1 C objs rho output d y -> array1 C objs rho output_price d p ->
  (if expand_price_dim then array1 C objs rho price c (fun i => q i 0%nat) /\ (forall i j, q i j = q i 0%nat) else array2 C objs rho price c d q) ->
  no_eq factor -> no_eq output -> (forall j, j < n -> y j <> 0%R /\ p j <> 0%R) -> length names = n + m * n ->
  exists eqs residuals, leontief (One factor) (One price) output output_price (One share) (Many [c; d]) coords (Some c) expand_price_dim transpose_output "pytensor" = Ok eqs /\
    pytensor_system number_op C objs eqs names data = Ok residuals /\
    (all_zero residuals <->
     (forall j, j < n -> p j = sum_n (fun i => q i j * a i j)%R m /\ forall i, i < m -> x i j = (a i j * y j)%R)).
Proof. exact @c57_pytensor__p. Qed.
Print Assumptions c57_pytensor.
(** Two inputs at prices 1 and 2, of which the first good takes 2 and 1, the second
    1 and 1; the unit costs are 4 and 3. *)
Definition lp_data : dict (arr R) :=
  [("X", mkArr [2; 2] [2; 1; 1; 1]%R); ("q", mkArr [2] [1; 2]%R); ("Y", mkArr [2] [1; 1]%R); ("P", mkArr [2] [4; 3]%R); ("a", mkArr [2; 2] [2; 1; 1; 1]%R)].
Ltac at2 := intros ix Hi Hj; change (ix "i" < 2) in Hi; change (ix "j" < 2) in Hj; unfold array_values; cbn -[IZR]; destruct (ix "i") as [|[|]]; try lia; destruct (ix "j") as [|[|]]; try lia; reflexivity.
Ltac at1 d := intros ix Hi; change (ix d < 2) in Hi; unfold array_values; cbn -[IZR]; destruct (ix d) as [|[|]]; try lia; reflexivity.
Example c57_pytensor_ex number_op : real_arithmetic number_op -> exists eqs residuals,
  leontief (One "X") (One "q") "Y" "P" (One "a") (Many ["i"; "j"]) [] (Some "i") true true "pytensor" = Ok eqs /\
  pytensor_system number_op al_c lt_objs eqs ["Y_u"; "Y_v"; "X_a_u"; "X_a_v"; "X_b_u"; "X_b_v"] lp_data = Ok residuals /\ all_zero residuals.
Proof.
  intros H.
  destruct (@c57_pytensor number_op al_c lt_objs lp_data ["Y_u"; "Y_v"; "X_a_u"; "X_a_v"; "X_b_u"; "X_b_v"] [] "i" "j" true true "X" "q" "Y" "P" "a"
    lt_a (fun i _ => lt_q i) lt_a (fun _ => 1%R) (fun j => match j with 0 => 4 | _ => 3 end)%R) as (eqs & residuals & E1 & E2 & Z).
  - exact H.
  - give.
  - discriminate.
  - arr2 (exobj KVar "X" ["i"; "j"]); at2.
  - arr2 (exobj KPar "a" ["i"; "j"]); at2.
  - arr1 (exobj KVar "Y" ["j"]); at1 "j".
  - arr1 (exobj KVar "P" ["j"]); at1 "j".
  - split; [|reflexivity]. arr1 (exobj KVar "q" ["i"]); at1 "i".
  - reflexivity.
  - reflexivity.
  - intros [|j] _; split; lra.
  - reflexivity.
  - exists eqs, residuals. split; [exact E1|]. split; [exact E2|]. apply Z. intros j Hj. change (j < 2) in Hj. change (size al_c "i") with 2.
    destruct j as [|[|]]; [| |lia]; (split; [cbn -[IZR]; lra|]); intros [|[|]] Hi; cbn in Hi; try lia; cbn -[IZR]; lra.
Qed.
(** Without sum_dim the first equation sums over the last dimension, and a system
    all of whose residuals are zero has prices other than the unit costs. *)
Theorem c57_pytensor_default_refuted :
  exists C objs data (x a : nat -> nat -> R) (q y p : nat -> R) eqs,
    let rho := array_values objs data in
    given C objs data /\ size C "i" = 2%nat /\ size C "j" = 2%nat /\ array2 C objs rho "X" "i" "j" x /\ array2 C objs rho "a" "i" "j" a /\
    array1 C objs rho "q" "i" q /\ array1 C objs rho "Y" "j" y /\ array1 C objs rho "P" "j" p /\
    leontief (One "X") (One "q") "Y" "P" (One "a") (Many ["i"; "j"]) [("i", ["A"; "B"]); ("j", ["A"; "B"])] None true true "pytensor" = Ok eqs /\
    (forall number_op names, real_arithmetic number_op -> length names = 6%nat ->
       exists residuals, pytensor_system number_op C objs eqs names data = Ok residuals /\ all_zero residuals) /\
    ~ forall k, (k < 2)%nat -> p k = sum_n (fun i => q i * a i k)%R 2.
Proof. exact @c57_pytensor_default_refuted__p. Qed.
Print Assumptions c57_pytensor_default_refuted.

(** The same for dixit_stiglitz with TFP, whichever definition of the aggregate is
    written. *)
Theorem c58_pytensor :
  forall number_op C objs data names coords labels (i factor price output output_price epsilon TFP : string) (shares : option string) (use_value_definition : bool)
         (x q s : nat -> R) (y p a e : R),
  let rho := array_values objs data in let n := size C i in
  real_arithmetic number_op -> given C objs data -> dget i coords = Some labels -> 0 < n ->
  array1 C objs rho factor i x -> array1 C objs rho price i q -> opt_array1 C objs rho shares i s -> array0 C objs rho output y ->
  array0 C objs rho output_price p -> array0 C objs rho TFP a -> array0 C objs rho epsilon e ->
  no_eq factor -> no_eq output -> e <> 0%R -> e <> 1%R ->
  (forall k, k < n -> (0 < x k /\ 0 < q k /\ 0 < s k)%R) -> (0 < p)%R -> (0 < a)%R -> (0 < y)%R -> length names = 1 + n ->
  exists definition demand residuals,
    dixit_stiglitz (One factor) (One price) output output_price epsilon i coords "pytensor" (Some TFP) (option_map One shares) use_value_definition = Ok (definition, demand) /\
    pytensor_system number_op C objs [definition; demand] names data = Ok residuals /\
    (all_zero residuals <-> y = aggregate a e s x n /\ forall k, k < n -> x k = (y / a * Rpower (s k * p * a / q k) e)%R).
Proof. exact @c58_pytensor__p. Qed.
Print Assumptions c58_pytensor.
Definition dp_objs : list mobj :=
  [exobj KVar "X" ["i"]; exobj KVar "q" ["i"]; exobj KVar "Y" []; exobj KVar "P" []; exobj KPar "A" []; exobj KPar "eps" []; exobj KPar "a" ["i"]].
Definition dp_data : dict (arr R) :=
  [("X", mkArr [2] [1; 1]%R); ("q", mkArr [2] [1; 1]%R); ("Y", mkArr [] [1]%R); ("P", mkArr [] [2]%R); ("A", mkArr [] [1]%R); ("eps", mkArr [] [2]%R); ("a", mkArr [2] [1 / 2; 1 / 2]%R)].
Ltac dp := lazymatch goal with
  | |- array0 _ _ _ ?s _ => first [solve [arr0 (exobj KVar s (@nil string)); intros ix; reflexivity]|solve [arr0 (exobj KPar s (@nil string)); intros ix; reflexivity]]
  | |- array1 _ _ _ ?s _ _ => first [solve [arr1 (exobj KVar s ["i"]); at1 "i"]|solve [arr1 (exobj KPar s ["i"]); at1 "i"]] end.
Example c58_pytensor_ex number_op value : real_arithmetic number_op -> exists definition demand residuals,
  dixit_stiglitz (One "X") (One "q") "Y" "P" "eps" "i" [("i", ["a"; "b"])] "pytensor" (Some "A") (Some (One "a")) value = Ok (definition, demand) /\
  pytensor_system number_op al_c dp_objs [definition; demand] ["Y"; "X_a"; "X_b"] dp_data = Ok residuals /\ all_zero residuals.
Proof.
  intros H.
  destruct (@c58_pytensor number_op al_c dp_objs dp_data ["Y"; "X_a"; "X_b"] [("i", ["a"; "b"])] ["a"; "b"] "i" "X" "q" "Y" "P" "eps" "A" (Some "a") value
    (fun _ => 1%R) (fun _ => 1%R) (fun _ => (1 / 2)%R) 1 2 1 2) as (definition & demand & residuals & E1 & E2 & Z);
    try exact H; try give; try solve [cbn; lia]; try (cbn [opt_array1]; dp); try reflexivity; try lra; try (intros; lra).
  exists definition, demand, residuals. split; [exact E1|]. split; [exact E2|]. apply Z. split.
  - unfold aggregate. change (size al_c "i") with 2. cbn [sum_n]. replace (Rpower 1 ((2 - 1) / 2)) with 1%R by (unfold Rpower; rewrite ln_1, Rmult_0_r; symmetry; apply exp_0).
    match goal with |- context [Rpower ?b (2 / (2 - 1))] => replace b with 1%R by (cbn -[IZR]; lra) end. unfold Rpower. rewrite ln_1, Rmult_0_r, exp_0. lra.
  - intros k _. replace (1 / 2 * 2 * 1 / 1)%R with 1%R by lra. unfold Rpower. rewrite ln_1, Rmult_0_r, exp_0. lra.
Qed.
(** At a solution the varieties are the cheapest that yield the aggregate. *)
Theorem c58_pytensor_minimises :
  forall number_op C objs data names coords labels (i factor price output output_price epsilon TFP : string) (shares : option string) (use_value_definition : bool)
         (x q s : nat -> R) (y p a e : R) definition demand residuals,
  let rho := array_values objs data in let n := size C i in
  real_arithmetic number_op -> given C objs data -> dget i coords = Some labels -> 0 < n ->
  array1 C objs rho factor i x -> array1 C objs rho price i q -> opt_array1 C objs rho shares i s -> array0 C objs rho output y ->
  array0 C objs rho output_price p -> array0 C objs rho TFP a -> array0 C objs rho epsilon e ->
  no_eq factor -> no_eq output -> (0 < e)%R -> e <> 1%R ->
  (forall k, k < n -> (0 < x k /\ 0 < q k /\ 0 < s k)%R) -> (0 < p)%R -> (0 < a)%R -> (0 < y)%R -> length names = 1 + n ->
  dixit_stiglitz (One factor) (One price) output output_price epsilon i coords "pytensor" (Some TFP) (option_map One shares) use_value_definition = Ok (definition, demand) ->
  pytensor_system number_op C objs [definition; demand] names data = Ok residuals -> all_zero residuals ->
  aggregate a e s x n = y /\ (sum_n (fun k => q k * x k) n = p * y)%R /\
  forall z, (forall k, k < n -> (0 < z k)%R) -> (y <= aggregate a e s z n)%R -> (sum_n (fun k => q k * x k) n <= sum_n (fun k => q k * z k) n)%R.
Proof. exact @c58_pytensor_minimises__p. Qed.
Print Assumptions c58_pytensor_minimises.
Example c58_pytensor_minimises_ex number_op : real_arithmetic number_op ->
  (sum_n (fun _ => 1 * 1) 2 = 2 * 1)%R /\ forall z, (forall k, k < 2 -> (0 < z k)%R) -> (1 <= aggregate 1 2 (fun _ => 1 / 2) z 2)%R -> (sum_n (fun _ => 1 * 1) 2 <= sum_n (fun k => 1 * z k) 2)%R.
Proof.
  intros H. destruct (@c58_pytensor_ex number_op false H) as (definition & demand & residuals & E1 & E2 & Z).
  destruct (@c58_pytensor_minimises number_op al_c dp_objs dp_data ["Y"; "X_a"; "X_b"] [("i", ["a"; "b"])] ["a"; "b"] "i" "X" "q" "Y" "P" "eps" "A" (Some "a") false
    (fun _ => 1%R) (fun _ => 1%R) (fun _ => (1 / 2)%R) 1 2 1 2 definition demand residuals) as (_ & H1 & H2);
    try exact H; try give; try solve [cbn; lia]; try (cbn [opt_array1]; dp); try reflexivity; try lra; try (intros; lra); try assumption.
  now split.
Qed.

(** Each string becomes the list of the names of its elements, in row-major order
    of the dimensions. *)
Theorem c83_names :
  forall (inputs : list names) (dims : list string) (coords : dict (list string)) (labels : list (list string)) (strings : list string),
  Forall2 (fun x s => x = One s \/ x = Many [s]) inputs strings -> strings <> [] -> Forall2 (fun d ls => dget d coords = Some ls) dims labels ->
  exists outs, unpack_string_inputs inputs (Some dims) (Some coords) = Ok outs /\
    Forall2 (fun s out => length out = prodn (map (@length string) labels) /\
      forall idx here, Forall2 (fun l p => nth_error (fst p) (snd p) = Some l) here (combine labels idx) -> length idx = length labels ->
        nth_error out (offset (map (@length string) labels) idx) = Some (element_name s here)) strings outs.
Proof. exact @c83_names__p. Qed.
Print Assumptions c83_names.
Example c83_names_ex : exists k l, unpack_string_inputs [One "K"; Many ["L"]] (Some ["i"; "j"]) (Some [("j", ["x"; "y"; "z"]); ("i", ["a"; "b"])]) = Ok [k; l] /\
  length l = 6 /\ nth_error k 5 = Some "K_b_z" /\ nth_error l 3 = Some "L_b_x".
Proof.
  destruct (@c83_names [One "K"; Many ["L"]] ["i"; "j"] [("j", ["x"; "y"; "z"]); ("i", ["a"; "b"])] [["a"; "b"]; ["x"; "y"; "z"]] ["K"; "L"]) as (outs & E & H).
  - constructor; [now left|]. constructor; [now right|constructor].
  - discriminate.
  - repeat constructor.
  - inversion H as [|? k ? ? (_ & Hk) H2]; subst. inversion H2 as [|? l ? ? (Ll & Hl) H3]; subst. inversion H3; subst. exists k, l. split; [exact E|]. split; [exact Ll|]. split.
    + apply (Hk [1; 2] ["b"; "z"]); [repeat constructor|reflexivity].
    + apply (Hl [1; 0] ["b"; "x"]); [repeat constructor|reflexivity].
Qed.
(** A dimension that coords lacks is an error when there is a string to unpack. *)
Theorem c83_missing :
  forall (inputs : list names) (dims : list string) (coords : dict (list string)) (s d : string),
  In (One s) inputs -> In d dims -> dget d coords = None -> unpack_string_inputs inputs (Some dims) (Some coords) = Err KeyError.
Proof. exact @c83_missing__p. Qed.
Print Assumptions c83_missing.
Example c83_missing_ex : unpack_string_inputs [One "K"; Many ["L"; "M"]] (Some ["i"; "j"]) (Some [("i", ["a"; "b"])]) = Err KeyError.
Proof. apply (@c83_missing _ _ _ "K" "j"); [now left|right; now left|reflexivity]. Qed.
(** Lists of two or more names (or of none) are returned as they are. *)
Theorem c83_lists :
  forall (inputs : list (list string)) (dims : option (list string)) (coords : option (dict (list string))),
  Forall (fun l => length l <> 1%nat) inputs -> unpack_string_inputs (map Many inputs) dims coords = Ok inputs.
Proof. exact @c83_lists__p. Qed.
Print Assumptions c83_lists.
Example c83_lists_ex : unpack_string_inputs [Many ["K"; "L"]; Many []] (Some ["i"]) None = Ok [["K"; "L"]; []].
Proof. apply (@c83_lists [["K"; "L"]; []]). repeat constructor; discriminate. Qed.
(** A list of one name is taken for a string and expanded. *)
Theorem c83_singleton_refuted :
  exists inputs dims coords outs, unpack_string_inputs (map Many inputs) dims coords = Ok outs /\ outs <> inputs.
Proof. exact @c83_singleton_refuted__p. Qed.
Print Assumptions c83_singleton_refuted.
(** A list beside a string is joined to the labels as if it were a string. *)
Theorem c83_mixed_refuted :
  exists (l : list string) (s : string) dims coords, unpack_string_inputs [Many l; One s] dims coords = Err TypeError.
Proof. exact @c83_mixed_refuted__p. Qed.
Print Assumptions c83_mixed_refuted.
