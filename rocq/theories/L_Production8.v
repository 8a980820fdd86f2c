(** Lemmas for C83: unpacked string inputs. *)
From Verif Require Import Py PyStr NdArray M_PyExpr M_Production S_PyExpr S_Meaning S_Production L_Tensor.
Local Open Scope string_scope.
Local Open Scope list_scope.

Lemma label_product_eq ls : label_product ls = product ls.
Proof. induction ls as [|l ls IH]; [reflexivity|]. cbn. now rewrite IH. Qed.
Lemma join_cons2 x y l : join "_" (x :: y :: l) = (x ++ "_" ++ join "_" (y :: l))%string.
Proof. reflexivity. Qed.
Lemma join_name : forall ls s, join "_" (s :: ls) = element_name s ls.
Proof.
  unfold element_name. induction ls as [|l ls IH]; intros s; [reflexivity|]. rewrite join_cons2, IH. cbn [fold_left].
  generalize l. clear IH l. induction ls as [|k ls IH]; intros l; [reflexivity|]. cbn [fold_left]. rewrite IH. now rewrite !sapp_assoc.
Qed.
Lemma map_res_dims (dims : list string) (coords : dict (list string)) labels : Forall2 (fun d ls => dget d coords = Some ls) dims labels ->
  forallb (fun d => dmem d coords) dims = true /\ map_res (fun d => dgetitem d coords) dims = Ok labels.
Proof.
  induction 1 as [|d ls dims labels H F (IH1 & IH2)]; [split; reflexivity|]. cbn [forallb map_res]. rewrite (proj2 (dmem_true d coords)) by eauto. unfold dgetitem at 1. rewrite H, IH1. cbn [bind andb].
  split; [reflexivity|]. now rewrite IH2.
Qed.
Lemma map_res_map {A B} (f : A -> res B) g l : (forall x, In x l -> f x = Ok (g x)) -> map_res f l = Ok (map g l).
Proof. induction l as [|x l IH]; intros H; [reflexivity|]. cbn [map_res map]. rewrite H by now left. cbn [bind]. rewrite IH by (intros y Hy; apply H; now right). reflexivity. Qed.
Lemma c83_names__p :
  forall (inputs : list names) (dims : list string) (coords : dict (list string)) (labels : list (list string)) (strings : list string),
  Forall2 (fun x s => x = One s \/ x = Many [s]) inputs strings -> strings <> [] -> Forall2 (fun d ls => dget d coords = Some ls) dims labels ->
  exists outs, unpack_string_inputs inputs (Some dims) (Some coords) = Ok outs /\
    Forall2 (fun s out => length out = prodn (map (@length string) labels) /\
      forall idx here, Forall2 (fun l p => nth_error (fst p) (snd p) = Some l) here (combine labels idx) -> length idx = length labels ->
        nth_error out (offset (map (@length string) labels) idx) = Some (element_name s here)) strings outs.
Proof.
  intros inputs dims coords labels strings H N D. exists (map (fun s => map (fun ls => join "_" (s :: ls)) (label_product labels)) strings). split.
  - unfold unpack_string_inputs. assert (E : map unwrap_singleton_list inputs = map One strings).
    { clear N. induction H as [|x s xs ss [-> | ->] H IH]; [reflexivity| |]; cbn [map]; now rewrite IH. }
    rewrite E. destruct strings as [|s0 strings]; [congruence|]. cbn [map forallb is_many andb]. destruct (@map_res_dims dims coords labels D) as (D1 & D2). rewrite D1, D2. cbn [bind].
    change (One s0 :: map One strings) with (map One (s0 :: strings)). clear. match goal with |- _ = Ok (?h :: map ?f _) => change (h :: map f strings) with (map f (s0 :: strings)) end.
    generalize (s0 :: strings). intros l. induction l as [|s l IH]; [reflexivity|]. cbn [map map_res bind]. now rewrite IH.
  - clear. induction strings as [|s strings IH]; constructor; [|exact IH]. rewrite label_product_eq. split.
    + rewrite map_length, product_length. unfold prodn. clear. induction labels; simpl; auto.
    + intros idx here F L. rewrite nth_error_map. assert (R : in_range (map (@length string) labels) idx).
      { clear - F L. revert idx here F L. induction labels as [|l labels IH]; intros [|k idx] here F L; try discriminate; [constructor|]. cbn [combine] in F. inversion F as [|h p hs ps H1 H2]; subst.
        constructor; [apply nth_error_Some; cbn in H1; congruence|]. apply IH with hs; [exact H2|cbn in L; lia]. }
      destruct (@nth_product_offset string labels idx R) as (xs & -> & Fx). cbn [option_map]. rewrite join_name. f_equal. f_equal.
      clear - F Fx. revert xs Fx. induction F as [|h p hs ps H1 H2 IH]; intros xs Fx; inversion Fx; subst; [reflexivity|]. f_equal; [congruence|auto].
Qed.
Lemma c83_lists__p :
  forall (inputs : list (list string)) (dims : option (list string)) (coords : option (dict (list string))),
  Forall (fun l => length l <> 1%nat) inputs -> unpack_string_inputs (map Many inputs) dims coords = Ok inputs.
Proof.
  intros inputs dims coords H. unfold unpack_string_inputs. assert (E : map unwrap_singleton_list (map Many inputs) = map Many inputs).
  { induction H as [|l ls Hl H IH]; [reflexivity|]. cbn [map]. rewrite IH. destruct l as [|a [|b l]]; [reflexivity|exfalso; now apply Hl|reflexivity]. }
  rewrite E. replace (forallb is_many (map Many inputs)) with true by (clear; symmetry; apply forallb_forall; intros x Hx; apply in_map_iff in Hx; destruct Hx as (l & <- & _); reflexivity).
  f_equal. clear. induction inputs as [|l ls IH]; [reflexivity|]. cbn [map at_least_list]. now rewrite IH.
Qed.
Lemma c83_singleton_refuted__p :
  exists inputs dims coords outs, unpack_string_inputs (map Many inputs) dims coords = Ok outs /\ outs <> inputs.
Proof.
  exists [["X"]], (Some ["i"]), (Some [("i", ["a"; "b"])]), [["X_a"; "X_b"]]. split; [reflexivity|discriminate].
Qed.
Lemma c83_mixed_refuted__p :
  exists (l : list string) (s : string) dims coords, unpack_string_inputs [Many l; One s] dims coords = Err TypeError.
Proof. exists ["K"; "L"], "Y", (Some ["i"]), (Some [("i", ["a"; "b"])]). reflexivity. Qed.
Lemma c83_missing__p :
  forall (inputs : list names) (dims : list string) (coords : dict (list string)) (s d : string),
  In (One s) inputs -> In d dims -> dget d coords = None -> unpack_string_inputs inputs (Some dims) (Some coords) = Err KeyError.
Proof.
  intros inputs dims coords s d I D N. unfold unpack_string_inputs.
  replace (forallb is_many (map unwrap_singleton_list inputs)) with false.
  2:{ symmetry. apply Bool.not_true_is_false. intros H. rewrite forallb_forall in H. assert (X : is_many (One s) = true) by (apply H; exact (in_map unwrap_singleton_list inputs (One s) I)). discriminate. }
  replace (forallb (fun d0 => dmem d0 coords) dims) with false; [reflexivity|].
  symmetry. apply Bool.not_true_is_false. intros H. rewrite forallb_forall in H. specialize (H d D). apply dmem_true in H. destruct H as (v & H). congruence.
Qed.
