(** C88: collecting a calibration. *)
From Verif Require Import Py PyStr NdArray M_Primitives M_Utilities M_Registry M_Finalize S_Layout S_Finalize L_Finalize.
Local Open Scope string_scope.
Local Open Scope list_scope.

Definition fz_P : mobj := exobj KVar "P" ["i"].
Definition fz_Y : mobj := exobj KVar "Y" [].
Definition fz_C : mobj := exobj KVar "C" ["i"].
Definition fz_T : mobj := exobj KPar "T" [].
(** Two goods; prices, income and consumption; a tax. *)
Definition fz_model : model :=
  MkModel [("i", [LStr "food"; LStr "steel"])] true None [("P", fz_P); ("Y", fz_Y); ("C", fz_C)] [("T", fz_T)] [] [] [] [].
(** The tax is a list of one number. *)
Definition fz_locals : dict (local_value nat) :=
  [("Y", Plain (mkArr [] [7])); ("P", Pandas (mkArr [2] [1; 2])); ("T", Plain (mkArr [1] [3])); ("C", Plain (mkArr [2] [4; 5])); ("x", Plain (mkArr [] [0]))].

Lemma fz_registry : registry_ok fz_model.
Proof.
  split; [reflexivity|]. split.
  - repeat constructor; cbn; intuition discriminate.
  - intros o d [<-|[<-|[<-|[<-|[]]]]] H; cbn in *; tauto.
Qed.

Theorem c88_collected :
  forall {V : Type} (m : model) (locals : dict (local_value V)),
    registry_ok m ->
    exists vs ps d out,
      alphabetical (dkeys (m_vars m)) vs /\ alphabetical (dkeys (m_pars m)) ps /\
      finalize_calibration m locals = Ok (d, out) /\
      dkeys d = filter (fun n => negb (String.eqb n "_") && dmem n locals)%bool (vs ++ ps)%list /\
      (forall o shape a, In o (dvals (m_vars m) ++ dvals (m_pars m))%list -> o_name o <> "_"%string ->
         has_shape (m_coords m) o shape -> given locals (o_name o) a ->
         exists a', dget (o_name o) d = Some a' /\ received shape a a') /\
      (forall n got expected, In (WrongShape n got expected) out <->
         got <> expected /\ exists o a, In o (dvals (m_vars m) ++ dvals (m_pars m))%list /\ o_name o = n /\
           has_shape (m_coords m) o expected /\ dget n d = Some a /\ ashape a = got) /\
      (forall n, In (NotFound n) out <-> In n (vs ++ ps)%list /\ (n = "_"%string \/ ~ In n (dkeys locals))).
Proof. exact @c88_collected__p. Qed.
Print Assumptions c88_collected.
(** Alphabetical order within the variables, then the parameters; the list of
    one number became a number. *)
Example c88_collected_ex : registry_ok fz_model /\
  finalize_calibration fz_model fz_locals =
    Ok ([("C", mkArr [2] [4; 5]); ("P", mkArr [2] [1; 2]); ("Y", mkArr [] [7]); ("T", mkArr [] [3])], []).
Proof. split; [exact fz_registry|reflexivity]. Qed.

Theorem c88_usable :
  forall {V : Type} (m : model) (locals : dict (local_value V)),
    registry_ok m -> m_vars m <> nil -> m_pars m <> nil ->
    (forall o, In o (dvals (m_vars m) ++ dvals (m_pars m))%list -> o_name o <> "_"%string /\
       exists shape a, has_shape (m_coords m) o shape /\ given locals (o_name o) a /\ arr_wf a /\
         (ashape a = shape \/ (shape = nil /\ ashape a = (1 :: nil)%list))) ->
    exists d v p d',
      finalize_calibration m locals = Ok (d, nil) /\
      variable_dict_to_flat_array d (dvals (m_vars m)) (dvals (m_pars m)) = Ok (v, p) /\
      flat_array_to_variable_dict (v ++ p)%list (dvals (m_vars m) ++ dvals (m_pars m))%list (m_coords m) = Ok d' /\
      dkeys d' = (dkeys (m_vars m) ++ dkeys (m_pars m))%list /\
      forall o a, In o (dvals (m_vars m) ++ dvals (m_pars m))%list -> given locals (o_name o) a ->
        exists a', dget (o_name o) d' = Some a' /\ adata a' = adata a.
Proof. exact @c88_usable__p. Qed.
Print Assumptions c88_usable.
Example c88_usable_ex : exists d v p d',
  finalize_calibration fz_model fz_locals = Ok (d, []) /\
  variable_dict_to_flat_array d [fz_P; fz_Y; fz_C] [fz_T] = Ok (v, p) /\ v = [1; 2; 7; 4; 5] /\ p = [3] /\
  flat_array_to_variable_dict (v ++ p) [fz_P; fz_Y; fz_C; fz_T] [("i", [LStr "food"; LStr "steel"])] = Ok d'.
Proof.
  destruct (@c88_usable nat fz_model fz_locals fz_registry) as (d & v & p & d' & A & B & C & _).
  - discriminate.
  - discriminate.
  - intros o [<-|[<-|[<-|[<-|[]]]]]; (split; [discriminate|]).
    + exists [2], (mkArr [2] [1; 2]). split; [repeat constructor; eexists; split; reflexivity|]. split; [now right|]. split; [reflexivity|now left].
    + exists [], (mkArr [] [7]). split; [constructor|]. split; [now left|]. split; [reflexivity|now left].
    + exists [2], (mkArr [2] [4; 5]). split; [repeat constructor; eexists; split; reflexivity|]. split; [now left|]. split; [reflexivity|now left].
    + exists [], (mkArr [1] [3]). split; [constructor|]. split; [now left|]. split; [reflexivity|now right].
  - exists d, v, p, d'. split; [exact A|]. split; [exact B|]. cbn in A. injection A as <-. cbn in B. injection B as <- <-. split; [reflexivity|]. split; [reflexivity|exact C].
Qed.

Theorem c88_wrong_shape_refuted :
  forall {V : Type} (m : model) (locals : dict (local_value V)) o shape a,
    registry_ok m -> In o (dvals (m_vars m) ++ dvals (m_pars m))%list -> o_name o <> "_"%string ->
    has_shape (m_coords m) o shape -> shape <> nil -> given locals (o_name o) a -> ashape a <> shape ->
    exists d out, finalize_calibration m locals = Ok (d, out) /\ dget (o_name o) d = Some a.
Proof. exact @c88_wrong_shape_refuted__p. Qed.
Print Assumptions c88_wrong_shape_refuted.
(** Three prices for two goods are returned and flattened. *)
Example c88_wrong_shape_refuted_ex :
  let locals := [("P", Plain (mkArr [3] [1; 2; 3])); ("Y", Plain (mkArr [] [7])); ("C", Plain (mkArr [2] [4; 5])); ("T", Plain (mkArr [] [3]))] in
  (exists d out, finalize_calibration fz_model locals = Ok (d, out) /\ dget "P" d = Some (mkArr [3] [1; 2; 3])) /\
  exists d out, finalize_calibration fz_model locals = Ok (d, out) /\ out = [WrongShape "P" [3] [2]] /\
    variable_dict_to_flat_array d [fz_P; fz_Y; fz_C] [fz_T] = Ok ([1; 2; 3; 7; 4; 5], [3]).
Proof.
  split.
  - apply (@c88_wrong_shape_refuted nat fz_model _ fz_P [2] _ fz_registry); [now left|discriminate| |discriminate|now left|discriminate].
    repeat constructor; eexists; split; reflexivity.
  - do 2 eexists. split; [reflexivity|]. split; reflexivity.
Qed.

Theorem c88_missing_refuted :
  forall {V : Type} (m : model) (locals : dict (local_value V)) o,
    registry_ok m -> m_vars m <> nil -> In o (dvals (m_vars m) ++ dvals (m_pars m))%list -> (o_name o = "_"%string \/ ~ In (o_name o) (dkeys locals)) ->
    exists d out, finalize_calibration m locals = Ok (d, out) /\ ~ In (o_name o) (dkeys d) /\
      variable_dict_to_flat_array d (dvals (m_vars m)) (dvals (m_pars m)) = Err KeyError.
Proof. exact @c88_missing_refuted__p. Qed.
Print Assumptions c88_missing_refuted.
Example c88_missing_refuted_ex :
  exists d out, finalize_calibration fz_model [("P", Plain (mkArr [2] [1; 2])); ("Y", Plain (mkArr [] [7])); ("C", Plain (mkArr [2] [4; 5]))] = Ok (d, out) /\
    ~ In "T" (dkeys d) /\ variable_dict_to_flat_array d [fz_P; fz_Y; fz_C] [fz_T] = Err KeyError.
Proof.
  apply (@c88_missing_refuted nat fz_model _ fz_T fz_registry); [discriminate|do 3 right; now left|].
  right. cbn. intuition discriminate.
Qed.

Theorem c88_unknown :
  forall {V : Type} (m : model) (a : arr V) n (x : V), ~ In n (dkeys (m_vars m) ++ dkeys (m_pars m))%list ->
    check_shape m a n = Err ValueError /\ initialize_parameter m n x = Err ValueError /\ get_shape m n = Err ValueError.
Proof. exact @c88_unknown__p. Qed.
Print Assumptions c88_unknown.
Example c88_unknown_ex : check_shape fz_model (mkArr [] [1]) "Q" = Err ValueError.
Proof. apply (@c88_unknown nat fz_model _ "Q" 0). cbn. intuition discriminate. Qed.

Theorem c88_initialize :
  forall {V : Type} (m : model) o (x : V), registry_ok m -> In o (dvals (m_vars m) ++ dvals (m_pars m))%list ->
    exists a, initialize_parameter m (o_name o) x = Ok a /\ fits (m_coords m) o a /\ get_shape m (o_name o) = Ok (ashape a) /\
      forall idx, in_range (ashape a) idx -> aget a idx = Ok x.
Proof. exact @c88_initialize__p. Qed.
Print Assumptions c88_initialize.
Example c88_initialize_ex : initialize_parameter fz_model "P" 5 = Ok (mkArr [2] [5; 5]) /\
  exists a, initialize_parameter fz_model "P" 5 = Ok a /\ fits (m_coords fz_model) fz_P a.
Proof.
  split; [reflexivity|]. destruct (@c88_initialize nat fz_model fz_P 5 fz_registry) as (a & A & B & _); [now left|]. now exists a.
Qed.
