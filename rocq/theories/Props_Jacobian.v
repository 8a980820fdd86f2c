(** C75-C77: where derivatives are put, and what the products and the Euler
    step make of them. *)
From Coq Require Import Reals Lra.
From Verif Require Import Py PyStr NdArray M_Primitives M_Utilities M_Expand M_SymExpr M_Calculus M_Euler M_Jacobian.
From Verif Require Import S_Layout S_Markers S_Expand S_Jacobian L_Jacobian L_Jacobian2.
Local Open Scope nat_scope.
Local Open Scope string_scope.
Local Open Scope list_scope.

(** C75: the pytensor Jacobian has one column per element, at the element's
    position in the flat vector. *)
Theorem c75_jacobian :
  forall (V : Type) (D : nat -> nat -> list nat -> V) (n_eq : nat) (shapes : list (list nat)),
  shapes <> [] -> 0 < n_eq ->
  exists a, make_jacobian D n_eq shapes = Ok a /\ arr_wf a /\ ashape a = [n_eq; total shapes] /\
    (forall e j idx, e < n_eq -> is_element shapes j idx ->
       position shapes j idx < total shapes /\ aget a [e; position shapes j idx] = Ok (D e j idx)) /\
    (forall k, k < total shapes -> exists! ji, is_element shapes (fst ji) (snd ji) /\ position shapes (fst ji) (snd ji) = k).
Proof. exact @c75_jacobian__p. Qed.
Print Assumptions c75_jacobian.

(** A scalar and a 2 by 3 matrix, two equations. *)
Example c75_jacobian_ex :
  let D := fun e j idx => (e, j, idx) in
  exists a, make_jacobian D 2 [[]; [2; 3]] = Ok a /\ ashape a = [2; 7] /\
    aget a [0; 0] = Ok (0, 0, []) /\ aget a [1; 3] = Ok (1, 1, [0; 2]) /\ aget a [1; 4] = Ok (1, 1, [1; 0]) /\
    is_element [[]; [2; 3]] 1 [1; 0] /\ position [[]; [2; 3]] 1 [1; 0] = 4.
Proof.
  cbn zeta. eexists. split; [reflexivity|]. repeat split; try reflexivity; simpl; repeat constructor.
Qed.

(** The gradient of the loss has the same order. *)
Theorem c75_gradient :
  forall (V : Type) (G : nat -> list nat -> V) (shapes : list (list nat)),
  shapes <> [] ->
  exists g, make_gradient G shapes (total shapes) = Ok (mkArr [total shapes] g) /\ length g = total shapes /\
    (forall j idx, is_element shapes j idx -> nth_error g (position shapes j idx) = Some (G j idx)).
Proof. exact @c75_gradient__p. Qed.
Print Assumptions c75_gradient.

Example c75_gradient_ex :
  make_gradient (fun j idx => (j, idx)) [[2]; []] 3 = Ok (mkArr [3] [(0, [0]); (0, [1]); (1, [])]).
Proof. reflexivity. Qed.

(** The symbolic Jacobian of the numba and sympytensor backends has the same
    columns: the derivative in the symbol of an element is in the column of that
    element. *)
Theorem c75_numba :
  forall (order : list string -> list string) (c : coords) (objs us : list mobj) (shapes : list (list nat)) (eqs : list sexpr),
  (forall o, In o objs -> NoDup (o_dims o) /\ o_dim_vals o = []) ->
  Forall2 (has_shape c) objs shapes ->
  unpack_objects order objs c = Ok us -> us <> [] -> NoDup (map make_indexed_name us) -> eqs <> [] ->
  exists g m, unpack_group order objs c = Ok g /\ make_sympy_jacobian (SysList eqs) (dkeys g) = Ok m /\ length m = length eqs /\
    (forall e eq row, nth_error eqs e = Some eq -> nth_error m e = Some row -> length row = total shapes /\
       forall j o idx, nth_error objs j = Some o -> is_element shapes j idx ->
       exists ls, labels_at c (o_dims o) idx ls /\
                  nth_error row (position shapes j idx) = Some (diff (join "_" (o_name o :: map str_label ls)) eq)).
Proof. exact @c75_numba__p. Qed.
Print Assumptions c75_numba.

(** If both differentiate correctly, the matrices are equal entry by entry. *)
Theorem c75_backends_agree :
  forall (V : Type) (value : sexpr -> V) (D : nat -> nat -> list nat -> V) (order : list string -> list string) (c : coords)
         (objs us : list mobj) (shapes : list (list nat)) (eqs : list sexpr),
  (forall o, In o objs -> NoDup (o_dims o) /\ o_dim_vals o = []) ->
  Forall2 (has_shape c) objs shapes ->
  unpack_objects order objs c = Ok us -> us <> [] -> NoDup (map make_indexed_name us) -> eqs <> [] ->
  (** both differentiate correctly: the derivative of equation e in an element of an
      array is the derivative in the symbol of that element *)
  (forall e eq j o idx ls, nth_error eqs e = Some eq -> nth_error objs j = Some o -> labels_at c (o_dims o) idx ls ->
     D e j idx = value (diff (join "_" (o_name o :: map str_label ls)) eq)) ->
  exists a g m, make_jacobian D (length eqs) shapes = Ok a /\
    unpack_group order objs c = Ok g /\ make_sympy_jacobian (SysList eqs) (dkeys g) = Ok m /\
    forall e row k d, nth_error m e = Some row -> nth_error row k = Some d -> aget a [e; k] = Ok (value d).
Proof. exact @c75_backends_agree__p. Qed.
Print Assumptions c75_backends_agree.

Definition ex75_coords : coords := [("i", [LStr "A"; LStr "B"])].
Definition ex75_objs := [exobj KVar "Y" ["i"]; exobj KVar "w" []].
Definition ex75_eqs := [SBin OMul (SSym "Y_A") (SSym "w"); SSym "Y_B"; SSym "w"].
(** a value of an expression that can be compared: its text *)
Definition ex75_D (e j : nat) (idx : list nat) : sexpr :=
  diff (nth (position [[2]; []] j idx) ["Y_A"; "Y_B"; "w"] "") (nth e ex75_eqs (SNum 0)).

Example c75_numba_ex :
  exists us g m a, unpack_objects (fun l => l) ex75_objs ex75_coords = Ok us /\ NoDup (map make_indexed_name us) /\
    unpack_group (fun l => l) ex75_objs ex75_coords = Ok g /\ make_sympy_jacobian (SysList ex75_eqs) (dkeys g) = Ok m /\
    make_jacobian ex75_D 3 [[2]; []] = Ok a /\
    nth_error m 0 = Some [diff "Y_A" (SBin OMul (SSym "Y_A") (SSym "w")); diff "Y_B" (SBin OMul (SSym "Y_A") (SSym "w"));
                          diff "w" (SBin OMul (SSym "Y_A") (SSym "w"))] /\
    aget a [0; 2] = Ok (diff "w" (SBin OMul (SSym "Y_A") (SSym "w"))).
Proof.
  eexists. eexists. eexists. eexists. split; [reflexivity|]. split; [|repeat split; reflexivity].
  simpl. repeat constructor; simpl; intuition discriminate.
Qed.

(** C76: with and without Rop, the product of the parameter Jacobian with the
    step is the first-order change of every equation. *)
Theorem c76_step_product :
  forall (DP : nat -> nat -> list nat -> R) (n_eq : nat) (sp : list (list nat)) (step : list (arr R)),
  sp <> [] -> (0 < n_eq)%nat -> map (@ashape R) step = sp -> Forall (fun a => arr_wf a) step ->
  exists bv, step_product true DP n_eq sp step = Ok bv /\ step_product false DP n_eq sp step = Ok bv /\
    length bv = n_eq /\ forall e, (e < n_eq)%nat -> nth_error bv e = Some (first_order DP e step).
Proof. exact @c76_step_product__p. Qed.
Print Assumptions c76_step_product.

Example c76_step_product_ex :
  exists bv, step_product false (fun e j idx => INR (e + j + hd 0 idx)) 2 [[2]; []] [mkArr [2] [1; 2]%R; mkArr [] [3%R]] = Ok bv /\
    map (@ashape R) [mkArr [2] [1; 2]%R; mkArr [] [3%R]] = [[2]; []] /\ Forall (fun a => arr_wf a) [mkArr [2] [1; 2]%R; mkArr [] [3%R]] /\
    nth_error bv 0 = Some 5%R.
Proof.
  destruct (@c76_step_product (fun e j idx => INR (e + j + hd 0 idx)) 2 [[2]; []] [mkArr [2] [1; 2]%R; mkArr [] [3%R]])
    as (bv & _ & E & _ & H); [discriminate|auto|reflexivity|repeat constructor|].
  exists bv. split; [exact E|]. split; [reflexivity|]. split; [repeat constructor|].
  rewrite (H 0) by auto. f_equal. unfold first_order, elem. cbn. lra.
Qed.

(** The Hessian-vector product is the product of the (transposed) Hessian with
    the direction, both in flat order ... *)
Theorem c76_hessp :
  forall (D : nat -> nat -> list nat -> R) (shapes : list (list nat)) (points : list (arr R)),
  shapes <> [] -> (0 < total shapes)%nat -> map (@ashape R) points = shapes -> Forall (fun a => arr_wf a) points ->
  exists H h, make_jacobian D (total shapes) shapes = Ok H /\ make_jvp D (total shapes) shapes None points = Ok h /\
    length h = total shapes /\
    (forall k, (k < total shapes)%nat ->
       nth_error h k = Some (sum_elements (fun j idx => (elem H [position shapes j idx; k] * elem (nth j points (mkArr [] [])) idx)%R)
                                          0 shapes)).
Proof. exact @c76_hessp__p. Qed.
Print Assumptions c76_hessp.

(** ... and for symmetric second derivatives, the directional derivative of the
    gradient. *)
Theorem c76_symmetric :
  forall (D : nat -> nat -> list nat -> R) (shapes : list (list nat)) (points : list (arr R)),
  shapes <> [] -> (0 < total shapes)%nat -> map (@ashape R) points = shapes -> Forall (fun a => arr_wf a) points ->
  (** second derivatives do not depend on the order of differentiation *)
  (forall j idx j' idx', is_element shapes j idx -> is_element shapes j' idx' ->
     D (position shapes j idx) j' idx' = D (position shapes j' idx') j idx) ->
  exists h, make_jvp D (total shapes) shapes None points = Ok h /\ length h = total shapes /\
    forall k, (k < total shapes)%nat -> nth_error h k = Some (first_order D k points).
Proof. exact @c76_symmetric__p. Qed.
Print Assumptions c76_symmetric.

Example c76_hessp_ex :
  let H := fun m j (idx : list nat) => INR (S m * S (position [[]; [2]] j idx)) in
  (forall j idx j' idx', is_element [[]; [2]] j idx -> is_element [[]; [2]] j' idx' ->
     H (position [[]; [2]] j idx) j' idx' = H (position [[]; [2]] j' idx') j idx) /\
  exists h, make_jvp H 3 [[]; [2]] None [mkArr [] [1%R]; mkArr [2] [0; 1]%R] = Ok h /\ nth_error h 1 = Some 8%R.
Proof.
  cbn zeta. split. { intros. f_equal. apply Nat.mul_comm. }
  destruct (@c76_symmetric (fun m j idx => INR (S m * S (position [[]; [2]] j idx))) [[]; [2]] [mkArr [] [1%R]; mkArr [2] [0; 1]%R])
    as (h & E & _ & H); [discriminate|cbn; auto|reflexivity|repeat constructor|intros; f_equal; apply Nat.mul_comm|].
  exists h. split; [exact E|]. rewrite (H 1) by (cbn; auto). f_equal. unfold first_order, elem. cbn. lra.
Qed.

(** make_jvp documents an argument for the direction; giving it always raises. *)
Theorem c76_given_direction_refuted :
  forall (D : nat -> nat -> list nat -> R) (n_eq : nat) (shapes : list (list nat)) (p : list R) (points : list (arr R)),
  exists err, make_jvp D n_eq shapes (Some p) points = Err err /\
              (shapes <> [] -> n_eq = total shapes -> length p = n_eq -> err = NameError).
Proof. exact @c76_given_direction_refuted__p. Qed.
Print Assumptions c76_given_direction_refuted.

Example c76_given_direction_ex :
  make_jvp (fun _ _ _ => 1%R) 1 [[]] (Some [2%R]) [] = Err NameError.
Proof. reflexivity. Qed.

(** C77: the changes of the variables in one Euler step cancel, to first order
    and in every equation, the change of the parameters. *)
Theorem c77_linearised :
  forall (has_rop : bool) (solve : list (list R) -> list R -> list R) (D DP : nat -> nat -> list nat -> R) (n_eq : nat)
         (sv sp : list (list nat)) (step : list (arr R)),
  sv <> [] -> sp <> [] -> (0 < n_eq)%nat -> map (@ashape R) step = sp -> Forall (fun a => arr_wf a) step ->
  (forall A, make_jacobian D n_eq sv = Ok A -> solver_for solve (rows A) n_eq (total sv)) ->
  exists delta, euler_delta has_rop solve D DP n_eq sv sp step = Ok delta /\
    map (@ashape R) delta = sv /\ Forall (fun a => arr_wf a) delta /\
    forall e, (e < n_eq)%nat -> (first_order D e delta + first_order DP e step = 0)%R.
Proof. exact @c77_linearised__p. Qed.
Print Assumptions c77_linearised.

Example c77_linearised_ex :
  let D := fun e (j : nat) idx => if Nat.eqb e (hd 0 idx) then 1%R else 0%R in
  let DP := fun e (j : nat) (idx : list nat) => INR (S e) in
  (forall A, make_jacobian D 2 [[2]] = Ok A -> solver_for (fun _ b => b) (rows A) 2 2) /\
  exists delta, euler_delta false (fun _ b => b) D DP 2 [[2]] [[]] [mkArr [] [3%R]] = Ok [delta] /\
    elem delta [0] = (-3)%R /\ elem delta [1] = (-6)%R.
Proof.
  cbn zeta. split.
  - intros A E. injection E as <-. intros [|x [|y [|z b]]] H; try discriminate. split; [reflexivity|].
    cbn. f_equal; [|f_equal]; lra.
  - eexists. split; [reflexivity|]. unfold elem. cbn. split; lra.
Qed.
