(** C102: symbols from descriptions. C104: the LaTeX text of equations. *)
From Verif Require Import Py PyStr M_Declare S_Declare L_Declare.
Local Open Scope string_scope.
Local Open Scope list_scope.

(** A matrix, a scalar without the entry index and one with an empty index *)
Definition de_infos : list info := [MkInfo (Some "X") (Some ["i"; "j"]); MkInfo (Some "tau") None; MkInfo (Some "r") (Some [])].

Theorem c102_symbols :
  forall (infos : list info) (a : option assumptions),
  infos <> [] -> (forall d, In d infos -> i_name d <> None) ->
  exists symbols updates, dict_info_to_symbols infos a = Ok (symbols, updates) /\ Forall2 (declared_as a) infos symbols.
Proof. exact @c102_symbols__p. Qed.
Print Assumptions c102_symbols.
Example c102_symbols_ex : exists updates,
  dict_info_to_symbols de_infos (Some [("positive", true)]) =
    Ok ([VIndexed (BBase "X" [("positive", true)]) ["i"; "j"]; VBase (BSymbol "tau" [("positive", true)]); VBase (BSymbol "r" [("positive", true)])], updates) /\
  Forall2 (declared_as (Some [("positive", true)])) de_infos
    [VIndexed (BBase "X" [("positive", true)]) ["i"; "j"]; VBase (BSymbol "tau" [("positive", true)]); VBase (BSymbol "r" [("positive", true)])].
Proof.
  destruct (@c102_symbols de_infos (Some [("positive", true)])) as (symbols & updates & E & F).
  - discriminate.
  - intros d [<- | [<- | [<- | []]]]; discriminate.
  - exists updates. cbn in E. injection E as <- <-. split; [reflexivity | exact F].
Qed.

Theorem c102_updates :
  forall (infos : list info) (a : option assumptions) (symbols : list svalue) (updates : dict svalue),
  dict_info_to_symbols infos a = Ok (symbols, updates) ->
  (forall i d n s, nth_error infos i = Some d -> i_name d = Some n -> nth_error symbols i = Some s ->
     (forall j d', i < j -> nth_error infos j = Some d' -> i_name d' <> Some n) -> dget n updates = Some s) /\
  (forall n s, dget n updates = Some s -> exists i d, nth_error infos i = Some d /\ i_name d = Some n /\ nth_error symbols i = Some s).
Proof. exact @c102_updates__p. Qed.
Print Assumptions c102_updates.
Example c102_updates_ex : exists symbols updates,
  dict_info_to_symbols [MkInfo (Some "X") None; MkInfo (Some "Y") None; MkInfo (Some "X") (Some ["i"])] None = Ok (symbols, updates) /\
  dget "X" updates = Some (VIndexed (BBase "X" []) ["i"]) /\ dget "Y" updates = Some (VBase (BSymbol "Y" [])).
Proof.
  eexists _, _. split; [reflexivity |].
  destruct (@c102_updates [MkInfo (Some "X") None; MkInfo (Some "Y") None; MkInfo (Some "X") (Some ["i"])] None _ _ eq_refl) as (H & _).
  split.
  - eapply (H 2); try reflexivity. intros [| [| [| [| j]]]] d' L; cbn; try discriminate; inversion L as [| ? L1]; inversion L1 as [| ? L2]; inversion L2.
  - eapply (H 1); try reflexivity. intros [| [| [| [| j]]]] d' L E; cbn in E; try discriminate; [inversion L | inversion L as [| ? L1]; inversion L1 | injection E as <-; discriminate].
Qed.

Theorem c102_errors :
  forall (infos : list info) (a : option assumptions),
  dict_info_to_symbols [] a = Err ValueError /\
  (dict_info_to_symbols infos a = Err KeyError <-> exists d, In d infos /\ i_name d = None).
Proof. exact @c102_errors__p. Qed.
Print Assumptions c102_errors.
Example c102_errors_ex : dict_info_to_symbols [MkInfo (Some "X") None; MkInfo None (Some ["i"])] None = Err KeyError.
Proof. apply c102_errors. exists (MkInfo None (Some ["i"])). cbn. auto. Qed.

Theorem c102_repeated_refuted :
  exists (infos : list info) symbols updates i d s n,
    dict_info_to_symbols infos None = Ok (symbols, updates) /\ nth_error infos i = Some d /\ nth_error symbols i = Some s /\
    i_name d = Some n /\ dget n updates <> Some s.
Proof. exact @c102_repeated_refuted__p. Qed.
Print Assumptions c102_repeated_refuted.

Theorem c102_string_keys :
  forall (K V : Type) (d : list (key K * V)) (k : key K) (v : V),
  In (k, v) (remove_string_keys d) <-> In (k, v) d /\ forall s, k <> KStr s.
Proof. exact @c102_string_keys__p. Qed.
Print Assumptions c102_string_keys.
Example c102_string_keys_ex : remove_string_keys [(KStr "x", 1); (KOther true, 2); (KStr "y", 3)] = [(KOther true, 2)].
Proof. reflexivity. Qed.

Theorem c102_union :
  forall (A : Type) (x : list (uelem A)) (args : list (uarg A)) (e : uelem A),
  In e (union_many x args) <-> In e x \/ exists y, In y args /\ belongs_to e y.
Proof. exact @c102_union__p. Qed.
Print Assumptions c102_union.
Example c102_union_ex : In (EOne "c") (union_many [EOne "a"] [UColl ["b"; "c"]; UOne "d"]) /\ ~ In (EOne "e") (union_many [EOne "a"] [UColl ["b"; "c"]; UOne "d"]).
Proof.
  split.
  - apply c102_union. right. exists (UColl ["b"; "c"]). cbn. split; auto. exists "c". auto.
  - intros H. apply c102_union in H as [[H | []] | (y & [<- | [<- | []]] & B)]; [discriminate | | discriminate].
    destruct B as (a & [<- | [<- | []]] & H); discriminate.
Qed.

Theorem c102_frozen_refuted :
  exists (x : list (uelem string)) (args : list (uarg string)) (a : string),
    (exists y, In y args /\ member_of a y) /\ ~ In (EOne a) (union_many x args).
Proof. exact @c102_frozen_refuted__p. Qed.
Print Assumptions c102_frozen_refuted.

Definition de_a : eq_info := MkEq (Some "Demand") "C P = Y" "1".
Definition de_b : eq_info := MkEq (Some "Supply") "Y = \frac{A}{L}" "2".

Theorem c104_single :
  forall (d : eq_info) (n : string), e_name d = Some n ->
  latex_print_equations [d] =
    Ok ("\begin{align}\text{" ++ n ++ "} &\\" ++ e_latex d ++ "&\tag{" ++ e_id d ++ "}\\\end{align}")%string.
Proof. exact @c104_single__p. Qed.
Print Assumptions c104_single.
Example c104_single_ex : latex_print_equations [de_a] = Ok "\begin{align}\text{Demand} &\\C P = Y&\tag{1}\\\end{align}".
Proof. exact (@c104_single de_a "Demand" eq_refl). Qed.

Theorem c104_in_order :
  forall (l m : list eq_info),
  (forall d, In d (l ++ m) -> e_name d <> None) ->
  exists s t, latex_print_equations l = Ok ("\begin{align}" ++ s ++ "\end{align}")%string /\
              latex_print_equations m = Ok ("\begin{align}" ++ t ++ "\end{align}")%string /\
              latex_print_equations (l ++ m)%list = Ok ("\begin{align}" ++ s ++ t ++ "\end{align}")%string.
Proof. exact @c104_in_order__p. Qed.
Print Assumptions c104_in_order.
Example c104_in_order_ex : exists s t,
  latex_print_equations [de_a] = Ok ("\begin{align}" ++ s ++ "\end{align}")%string /\
  latex_print_equations [de_b] = Ok ("\begin{align}" ++ t ++ "\end{align}")%string /\
  latex_print_equations [de_a; de_b] = Ok ("\begin{align}" ++ s ++ t ++ "\end{align}")%string /\
  s = "\text{Demand} &\\C P = Y&\tag{1}\\".
Proof.
  destruct (@c104_in_order [de_a] [de_b]) as (s & t & A & B & C).
  - intros d [<- | [<- | []]]; discriminate.
  - exists s, t. repeat split; auto. assert (E := c104_single_ex). rewrite A in E. injection E as E.
    exact (@sapp_inv_tail s "\text{Demand} &\\C P = Y&\tag{1}\\" "\end{align}" E).
Qed.

Theorem c104_missing :
  forall (l : list eq_info),
  latex_print_equations l = Err TypeError <-> exists d, In d l /\ e_name d = None.
Proof. exact @c104_missing__p. Qed.
Print Assumptions c104_missing.
Example c104_missing_ex : latex_print_equations [de_a; MkEq None "x" "3"] = Err TypeError.
Proof. apply c104_missing. exists (MkEq None "x" "3"). cbn. auto. Qed.

Theorem c104_balanced :
  forall (l : list eq_info) (s : string),
  (forall d, In d l -> exists n, e_name d = Some n /\ balanced n /\ balanced (e_latex d) /\ balanced (e_id d)) ->
  latex_print_equations l = Ok s -> balanced s.
Proof. exact @c104_balanced__p. Qed.
Print Assumptions c104_balanced.
Example c104_balanced_ex : exists s, latex_print_equations [de_a; de_b] = Ok s /\ balanced s.
Proof.
  eexists. split; [reflexivity |]. apply (@c104_balanced [de_a; de_b]); [| reflexivity].
  intros d [<- | [<- | []]]; eexists; repeat split.
Qed.

Theorem c104_verbatim_refuted :
  exists (d : eq_info) (s : string), balanced (e_latex d) /\ balanced (e_id d) /\ latex_print_equations [d] = Ok s /\ ~ balanced s.
Proof. exact @c104_verbatim_refuted__p. Qed.
Print Assumptions c104_verbatim_refuted.
