(** C108: model objects of one class are ordered by their names. *)
From Coq Require Import Lia Sorting.Sorted Sorting.Permutation.
From Verif Require Import Py PyStr M_Primitives M_Registry M_Expand M_Finalize M_Order S_Finalize S_Order L_Order.
Local Open Scope nat_scope.
Local Open Scope string_scope.
Local Open Scope list_scope.

(** Two objects are equal exactly when they agree in class and in all fields;
    the order in which labels were given does not matter. *)
Theorem c108_equal :
  forall a b, labels_ok a -> labels_ok b -> (obj_eq a b = true <-> same_object a b).
Proof. exact @c108_equal__p. Qed.
Print Assumptions c108_equal.
Example c108_equal_ex :
  let o d := MkObj KVar "X" ["i"; "j"] d "X" "X_{i, j}" "output" "X" true true 0 in
  labels_ok (o [("i", LStr "a"); ("j", LInt 1)]) /\ obj_eq (o [("i", LStr "a"); ("j", LInt 1)]) (o [("j", LInt 1); ("i", LStr "a")]) = true /\
  obj_eq (o [("i", LStr "a"); ("j", LInt 1)]) (o [("i", LStr "b"); ("j", LInt 1)]) = false.
Proof. split; [repeat constructor; cbn; intuition discriminate|]. split; reflexivity. Qed.

(** The order is strict: no object is before an equal one, no two objects are
    before each other, and it is transitive. *)
Theorem c108_strict :
  forall a b c, labels_ok a -> labels_ok b -> labels_ok c ->
    (same_object a b -> obj_lt a b = Ok false) /\
    (obj_lt a b = Ok true -> obj_lt b a <> Ok true) /\
    (obj_lt a b = Ok true -> obj_lt b c = Ok true -> obj_lt a c = Ok true).
Proof. exact @c108_strict__p. Qed.
Print Assumptions c108_strict.
Example c108_strict_ex :
  let o n := MkObj KPar n [] [] n n "share" n true true 0 in
  obj_lt (o "alpha") (o "beta") = Ok true /\ obj_lt (o "beta") (o "phi") = Ok true /\ labels_ok (o "alpha").
Proof. repeat split; constructor. Qed.

(** The first field that differs decides. *)
Theorem c108_order :
  forall a b, labels_ok a -> labels_ok b -> o_kind a = o_kind b -> (obj_lt a b = Ok true <-> object_before a b).
Proof. exact @c108_order__p. Qed.
Print Assumptions c108_order.
(** Fewer dims and a flag that is not set come first. *)
Example c108_order_ex :
  let o d r := MkObj KVar "X" d [] "X" "X" "" "X" r true 0 in
  obj_lt (o ["i"] true) (o ["i"; "j"] true) = Ok true /\ object_before (o ["i"] true) (o ["i"; "j"] true) /\
  obj_lt (o ["i"] false) (o ["i"] true) = Ok true /\ obj_lt (o ["i"] true) (o ["i"] false) = Ok false /\ labels_ok (o ["i"] true).
Proof. repeat split; try (now constructor). right. split; [reflexivity|]. left. left. now exists "j", []. Qed.

(** Objects of one class with different names: the names decide. *)
Theorem c108_by_name :
  forall a b, o_kind a = o_kind b -> o_name a <> o_name b -> exists r, obj_lt a b = Ok r /\ (r = true <-> before (o_name a) (o_name b)).
Proof. exact @c108_by_name__p. Qed.
Print Assumptions c108_by_name.
Example c108_by_name_ex :
  let o n d := MkObj KVar n d [] n n "" n true true 0 in obj_lt (o "K_d" ["j"]) (o "K_s" []) = Ok true /\ obj_lt (o "w" []) (o "Y" ["i"]) = Ok false.
Proof. split; reflexivity. Qed.

(** Objects of one class with different names can be sorted, alphabetically ... *)
Theorem c108_sorted :
  forall k l, Forall (fun x => o_kind x = k) l -> NoDup (map o_name l) ->
    exists l', py_sorted l = Ok l' /\ Permutation l l' /\ StronglySorted before (map o_name l').
Proof. exact @c108_sorted__p. Qed.
Print Assumptions c108_sorted.
Example c108_sorted_ex :
  let o n := MkObj KVar n ["i"] [] n n "" n true true 0 in py_sorted [o "X"; o "C"; o "P"] = Ok [o "C"; o "P"; o "X"] /\ NoDup (map o_name [o "X"; o "C"; o "P"]).
Proof. split; [reflexivity|]. repeat constructor; cbn; intuition discriminate. Qed.
(** ... as finalize_calibration does in C88. *)
Theorem c108_finalize :
  forall k l, Forall (fun x => o_kind x = k) l -> NoDup (map o_name l) -> py_sorted l = Ok (sort_objects l).
Proof. exact @c108_finalize__p. Qed.
Print Assumptions c108_finalize.
Example c108_finalize_ex :
  let o n := MkObj KVar n ["i"] [] n n "" n true true 0 in sort_objects [o "X"; o "C"; o "P"] = [o "C"; o "P"; o "X"].
Proof. reflexivity. Qed.

(** A variable and a parameter are never equal and cannot be sorted together. *)
Theorem c108_mixed :
  forall a b, o_kind a <> o_kind b -> obj_eq a b = false /\ py_sorted [a; b] = Err TypeError.
Proof. exact @c108_mixed__p. Qed.
Print Assumptions c108_mixed.
Example c108_mixed_ex :
  let o k := MkObj k "X" [] [] "X" "X" "" "X" true true 0 in o_kind (o KVar) <> o_kind (o KPar) /\ py_sorted [o KVar; o KPar] = Err TypeError.
Proof. split; [discriminate|reflexivity]. Qed.

(** Two elements of one indexed object cannot be sorted ... *)
Theorem c108_instances :
  forall a b, labels_ok a -> labels_ok b -> o_kind a = o_kind b -> o_name a = o_name b -> o_dims a = o_dims b -> ~ same_labels (o_dim_vals a) (o_dim_vals b) ->
    py_sorted [a; b] = Err TypeError.
Proof. exact @c108_instances__p. Qed.
Print Assumptions c108_instances.
Example c108_instances_ex :
  let o l := MkObj KVar "X" ["i"] [("i", LStr l)] "X" "X_{i}" "" "X" true true 0 in
  labels_ok (o "a") /\ ~ same_labels (o_dim_vals (o "a")) (o_dim_vals (o "b")) /\ py_sorted [o "a"; o "b"] = Err TypeError.
Proof. split; [repeat constructor; cbn; intuition discriminate|]. split; [intros H; specialize (H "i"); discriminate|reflexivity]. Qed.
(** ... so the unpacked objects of a model cannot. *)
Theorem c108_unpacked_refuted :
  exists o c objs, expand_obj_by_indices (fun l => l) o c None Ignore = Ok objs /\ py_sorted objs = Err TypeError.
Proof. exact @c108_unpacked_refuted__p. Qed.
Print Assumptions c108_unpacked_refuted.
