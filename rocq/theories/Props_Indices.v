(** C78 and C79: index enumeration and the names of indexed symbols. *)
From Verif Require Import Py PyStr M_Primitives M_Expand M_Indices S_Indices L_Unpacked L_Indices L_Symbols.
Local Open Scope string_scope.
Local Open Scope list_scope.

(** C78: after enumerating the indices the list holds exactly the instances of
    the given expressions, whatever sympy's has and subs do. *)
Theorem c78_exactly_the_instances :
  forall (E I W : Type) (eqb : E -> E -> bool) (has : E -> I -> bool) (subs : E -> I -> W -> E)
         (exprs : list E) (indices : list I) (values : list (list W)),
  (forall a b, eqb a b = true <-> a = b) -> length indices = length values ->
  exists out, expand_indices eqb has subs exprs indices values = Ok out /\
    forall y, In y out <-> exists e, In e exprs /\ instance_of has subs e (combine indices values) y.
Proof. exact @c78_exactly_the_instances__p. Qed.
Print Assumptions c78_exactly_the_instances.

(** enumerate_indexbase uses the keys for index and the values otherwise. *)
Theorem c78_enumerate :
  forall (E I W : Type) (eqb : E -> E -> bool) (has : E -> I -> bool) (subs : E -> I -> W -> E)
         (exprs : list E) (indices : list I) (dicts : list (list (W * W))) (how : string),
  (forall a b, eqb a b = true <-> a = b) -> length indices = length dicts ->
  exists out, enumerate_indexbase eqb has subs exprs indices dicts how = Ok out /\
    forall y, In y out <-> exists e, In e exprs /\
      instance_of has subs e (combine indices (map (map (if String.eqb how "index" then fst else snd)) dicts)) y.
Proof. exact @c78_enumerate__p. Qed.
Print Assumptions c78_enumerate.

(** Distinct instances come out in order, expression by expression, the first
    index slowest. *)
Theorem c78_order :
  forall (E I W : Type) (eqb : E -> E -> bool) (has : E -> I -> bool) (subs : E -> I -> W -> E)
         (exprs : list E) (indices : list I) (values : list (list W)),
  (forall a b, eqb a b = true <-> a = b) -> length indices = length values -> Forall (fun ws => ws <> []) values ->
  NoDup (flat_map (fun e => instances has subs e (combine indices values)) exprs) ->
  expand_indices eqb has subs exprs indices values = Ok (flat_map (fun e => instances has subs e (combine indices values)) exprs).
Proof. exact @c78_order__p. Qed.
Print Assumptions c78_order.

(** The documented number: n expressions times the product of the numbers of values. *)
Theorem c78_length :
  forall (E I W : Type) (eqb : E -> E -> bool) (has : E -> I -> bool) (subs : E -> I -> W -> E)
         (exprs : list E) (indices : list I) (values : list (list W)),
  (forall a b, eqb a b = true <-> a = b) -> length indices = length values -> Forall (fun ws => ws <> []) values ->
  NoDup (flat_map (fun e => instances has subs e (combine indices values)) exprs) ->
  NoDup indices -> (forall e i, In e exprs -> In i indices -> has e i = true) ->
  (** putting a value for one index leaves the others *)
  (forall e i j w, In i indices -> In j indices -> has e j = true -> i <> j -> has (subs e i w) j = true) ->
  exists out, expand_indices eqb has subs exprs indices values = Ok out /\
    length out = length exprs * fold_right Nat.mul 1 (map (@length W) values).
Proof. exact @c78_length__p. Qed.
Print Assumptions c78_length.

Example c78_ex :
  expand_indices sub_eqb sub_has sub_subs [[Index "i"; Index "j"]; [Index "j"]] ["i"; "j"] [["a"; "b"]; ["c"; "d"]] =
    Ok [[Label "a"; Label "c"]; [Label "a"; Label "d"]; [Label "b"; Label "c"]; [Label "b"; Label "d"]; [Label "c"]; [Label "d"]] /\
  enumerate_indexbase sub_eqb sub_has sub_subs [[Index "i"]] ["i"] [[("0", "a"); ("1", "b")]] "index" = Ok [[Label "0"]; [Label "1"]] /\
  enumerate_indexbase sub_eqb sub_has sub_subs [[Index "i"]] ["i"] [[("0", "a"); ("1", "b")]] "labels" = Ok [[Label "a"]; [Label "b"]] /\
  expand_indices sub_eqb sub_has sub_subs [[Index "i"]] ["i"] [] = Err IndexError.
Proof. repeat split; reflexivity. Qed.

(** The hypotheses of c78_order and c78_length hold for this list. *)
Example c78_length_ex :
  let exprs := [[Index "i"; Index "j"]; [Index "j"; Index "i"; Label "z"]] in
  (forall a b, sub_eqb a b = true <-> a = b) /\
  NoDup (flat_map (fun e => instances sub_has sub_subs e (combine ["i"; "j"] [["a"; "b"]; ["c"; "d"]])) exprs) /\
  (forall e i, In e exprs -> In i ["i"; "j"] -> sub_has e i = true) /\
  (forall e i j w, In i ["i"; "j"] -> In j ["i"; "j"] -> sub_has e j = true -> i <> j -> sub_has (sub_subs e i w) j = true).
Proof.
  split; [intros; apply sub_eqb_ok|]. split; [|split].
  - cbn. repeat constructor; simpl; intuition discriminate.
  - intros e i [<-|[<-|[]]] [<-|[<-|[]]]; reflexivity.
  - intros e i j w _ _ H N. unfold sub_has, sub_subs in *. apply existsb_exists in H as (x & Hx & E).
    apply existsb_exists. exists x. split; [|exact E]. apply in_map_iff. exists x. split; [|exact Hx].
    destruct x as [k|k]; cbn [one_eqb] in *; [|discriminate]. apply String.eqb_eq in E. subst k.
    destruct (String.eqb_spec i j); [contradiction|reflexivity].
Qed.

(** Refuted: x[i] and x[j] enumerated over the same labels give two expressions, not four. *)
Theorem c78_same_labels_refuted :
  ~ (forall (exprs : list subscripts) (indices : list string) (values : list (list string)),
     length indices = length values -> NoDup indices -> NoDup exprs ->
     (forall e, In e exprs -> exists i, In i indices /\ sub_has e i = true) ->
     exists out, expand_indices sub_eqb sub_has sub_subs exprs indices values = Ok out /\
       length out = length (flat_map (fun e => instances sub_has sub_subs e (combine indices values)) exprs)).
Proof. exact @c78_same_labels_refuted__p. Qed.
Print Assumptions c78_same_labels_refuted.

(** C79: the symbol of an indexed variable. *)
Theorem c79_name :
  forall (base : string) (labels : list string),
  plain base -> Forall plain labels -> labels <> [] ->
  indexed_var_to_symbol (base, labels) = join "_" (base :: labels).
Proof. exact @c79_name__p. Qed.
Print Assumptions c79_name.

(** The three ways of naming the element of an object agree. *)
Theorem c79_one_name :
  forall (o : mobj),
  plain (o_name o) -> Forall (fun l => plain (str_label l)) (dvals (o_dim_vals o)) -> dvals (o_dim_vals o) <> [] ->
  indexed_var_to_symbol (o_name o, map str_label (dvals (o_dim_vals o))) = make_indexed_name o /\
  symbol (o_name o) (map str_label (dvals (o_dim_vals o))) = make_indexed_name o.
Proof. exact @c79_one_name__p. Qed.
Print Assumptions c79_one_name.

Example c79_ex :
  indexed_var_to_symbol ("X", ["ag"; "ind"]) = "X_ag_ind" /\ symbol "X" ["ag"; "ind"] = "X_ag_ind" /\ symbol "X" [] = "X" /\
  plain "X" /\ Forall plain ["ag"; "ind"].
Proof. repeat split; auto; repeat constructor. Qed.

Example c79_one_name_ex :
  let o := MkObj KVar "X" ["i"; "j"] [("i", LStr "ag"); ("j", LInt 3)] "X" "X" "X" "X" true true 0 in
  make_indexed_name o = "X_ag_3" /\ indexed_var_to_symbol (o_name o, map str_label (dvals (o_dim_vals o))) = "X_ag_3" /\
  plain (o_name o) /\ Forall (fun l => plain (str_label l)) (dvals (o_dim_vals o)).
Proof. repeat split; repeat constructor. Qed.

(** Distinct indexed variables get distinct symbols, and the substitution
    dictionary maps each to its own. *)
Theorem c79_distinct :
  forall (vars : list (string * list string)),
  NoDup vars ->
  (forall v, In v vars -> plain (fst v) /\ snd v <> [] /\ Forall (fun l => plain l /\ contains_char "_" l = false) (snd v)) ->
  (forall v w r, In v vars -> In w vars -> fst w <> (fst v ++ "_" ++ r)%string) ->
  NoDup (map indexed_var_to_symbol vars) /\
  make_indexbase_sub_dict vars = map (fun v => (indexed_name (fst v) (snd v), join "_" (fst v :: snd v))) vars.
Proof. exact @c79_distinct__p. Qed.
Print Assumptions c79_distinct.

Example c79_distinct_ex :
  make_indexbase_sub_dict [("X", ["a"; "b"]); ("X", ["b"; "a"]); ("Y", ["a"])] =
    [("X[a, b]", "X_a_b"); ("X[b, a]", "X_b_a"); ("Y[a]", "Y_a")].
Proof. reflexivity. Qed.

(** Refuted: a label with a space loses it, so the symbol is not the unpacked variable. *)
Theorem c79_spaces_refuted :
  ~ (forall (base : string) (labels : list string), labels <> [] ->
     contains_char "[" base = false -> contains_char "]" base = false ->
     Forall (fun l => contains_char "[" l = false /\ contains_char "]" l = false /\ contains_char "," l = false) labels ->
     indexed_var_to_symbol (base, labels) = join "_" (base :: labels)).
Proof. exact @c79_spaces_refuted__p. Qed.
Print Assumptions c79_spaces_refuted.

(** Refuted: labels with underscores can collide. *)
Theorem c79_collision_refuted :
  ~ (forall v w : string * list string, plain (fst v) -> plain (fst w) -> Forall plain (snd v) -> Forall plain (snd w) ->
     snd v <> [] -> snd w <> [] -> indexed_var_to_symbol v = indexed_var_to_symbol w -> v = w).
Proof. exact @c79_collision_refuted__p. Qed.
Print Assumptions c79_collision_refuted.

(** An object without labels keeps its name. *)
Theorem c79_scalar :
  forall (o : mobj), o_dim_vals o = [] -> make_indexed_name o = o_name o /\ forall name, symbol name [] = name.
Proof. exact @c79_scalar__p. Qed.
Print Assumptions c79_scalar.
Example c79_scalar_ex : let o := MkObj KVar "X" ["i"] [] "X" "X" "X" "X" true true 0 in o_dim_vals o = [] /\ make_indexed_name o = "X" /\ symbol "X" [] = "X".
Proof. repeat split. Qed.
