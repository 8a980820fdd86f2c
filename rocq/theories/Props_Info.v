(** C99: descriptions of variables. *)
From Verif Require Import Py PyStr M_Indices M_Info S_Info L_Info.
Local Open Scope string_scope.
Local Open Scope list_scope.

Ltac is_word := apply word_b; [discriminate|vm_compute; reflexivity].

(** P_{i,j}^{M} with i for food and j for steel *)
Definition if_dict : list (string * string) := [("i", "food"); ("j", "steel")].
Definition if_tokens : list token :=
  [Word "P"; Sign "_"; Sign "{"; Word "i"; Sign ","; Word "j"; Sign "}"; Sign "^"; Sign "{"; Word "M"; Sign "}"].
Lemma if_words : Forall word (map fst if_dict).
Proof. repeat (apply Forall_cons; [is_word|]). apply Forall_nil. Qed.
Lemma if_fresh : fresh_values if_dict.
Proof.
  intros v [<-|[<-|[]]]; (split; [is_word|]); intros i t [<-|[<-|[]]]; (split; [discriminate|]);
    intros E; do 7 (destruct t as [|? t]; try discriminate E; try (cbn in E; injection E as _ E)); discriminate E.
Qed.
Lemma if_text : text if_tokens.
Proof. repeat split; try (apply not_alnum_b; vm_compute; reflexivity); try discriminate; apply word_b; (discriminate || (vm_compute; reflexivity)). Qed.
Lemma if_separated : separated (map fst if_dict) None if_tokens.
Proof.
  cbn [separated if_tokens]. repeat split; intros i t [<-|[<-|[]]] _ E; try reflexivity; try discriminate E;
    destruct t as [|? t]; try discriminate E; cbn in E; injection E as _ E; destruct t; discriminate E.
Qed.

Theorem c99_latex :
  forall d ts, Forall word (map fst d) -> fresh_values d -> text ts -> separated (map fst d) None ts ->
    exists ts', indexed (put d) None ts ts' /\ sub_latex d (written ts) = written ts' /\
      forall ts2, indexed (put d) None ts ts2 -> ts2 = ts'.
Proof. exact @c99_latex__p. Qed.
Print Assumptions c99_latex.
Example c99_latex_ex : sub_latex if_dict "P_{i,j}^{M}" = "P_{food,steel}^{M}" /\
  exists ts', indexed (put if_dict) None if_tokens ts' /\ sub_latex if_dict (written if_tokens) = written ts'.
Proof.
  split; [vm_compute; reflexivity|]. destruct (@c99_latex if_dict if_tokens if_words if_fresh if_text if_separated) as (ts' & A & B & _). eauto.
Qed.

Theorem c99_description :
  forall d w l, Forall plain (map fst d) -> (forall v, In v (map snd d) -> plain v /\ ~ In v (map fst d)) -> Forall plain (w :: l) ->
    (forall i a b, In i (map fst d) -> l <> a ++ i :: i :: b) ->
    sub_description d (join " " (w :: l)) = join " " (w :: map (put d) l).
Proof. exact @c99_description__p. Qed.
Print Assumptions c99_description.
Example c99_description_ex : sub_description if_dict "Price of i sold to j" = "Price of food sold to steel".
Proof.
  apply (@c99_description if_dict "Price" ["of"; "i"; "sold"; "to"; "j"]).
  - repeat constructor.
  - intros v [<-|[<-|[]]]; (split; [split; reflexivity|]); cbn; intuition discriminate.
  - repeat constructor.
  - intros i a b [<-|[<-|[]]] E; do 6 (destruct a as [|? a]; try discriminate E; try (cbn in E; injection E as _ E)); discriminate E.
Qed.

Theorem c99_dicts :
  forall subs infos d k x, nth_error infos k = Some x ->
    exists y, nth_error (sub_info_dicts subs infos d) k = Some y /\ i_name y = i_name x /\
      (forall l, i_index x = Some l -> i_index y = Some (map subs l)) /\ (i_index x = None -> i_index y = Some nil) /\
      i_latex y = sub_latex d (i_latex x) /\ i_description y = sub_description d (i_description x) /\
      length (sub_info_dicts subs infos d) = length infos.
Proof. exact @c99_dicts__p. Qed.
Print Assumptions c99_dicts.
Example c99_dicts_ex : sub_info_dicts (put if_dict) [MkInfo "P" (Some ["i"; "j"]) "P_{i,j}" "Price of i sold to j"; MkInfo "w" None "w" "Wage"] if_dict =
  [MkInfo "P" (Some ["food"; "steel"]) "P_{food,steel}" "Price of food sold to steel"; MkInfo "w" (Some []) "w" "Wage"].
Proof. vm_compute. reflexivity. Qed.

(** A macro inside of braces whose name ends with the index. *)
Theorem c99_ending_refuted :
  forall t i v, word t -> word i -> sub_latex ((i, v) :: nil) (t ++ i ++ "}")%string = (t ++ v ++ "}")%string.
Proof. exact @c99_ending_refuted__p. Qed.
Print Assumptions c99_ending_refuted.
Example c99_ending_refuted_ex : sub_latex [("i", "food")] "phi}" = "phfood}" /\ sub_latex [("i", "food")] "\alpha_{\phi}" = "\alpha_{\phfood}".
Proof. split; [apply (@c99_ending_refuted "ph" "i" "food"); is_word|vm_compute; reflexivity]. Qed.

(** A label that ends with the index. *)
Theorem c99_doubled_refuted :
  forall t i, word t -> word i ->
    sub_latex ((i, t ++ i)%string :: nil) ("_{" ++ i ++ "}")%string = ("_{" ++ t ++ t ++ i ++ "}")%string.
Proof. exact @c99_doubled_refuted__p. Qed.
Print Assumptions c99_doubled_refuted.
Example c99_doubled_refuted_ex : sub_latex [("i", "taxi")] "_{i}" = "_{taxtaxi}".
Proof. apply (@c99_doubled_refuted "tax" "i"); is_word. Qed.

(** A script that begins with the index. *)
Theorem c99_beginning_refuted :
  forall t i v, word t -> word i -> word v -> sub_latex ((i, v) :: nil) ("_" ++ i ++ t)%string = ("_" ++ v ++ t)%string.
Proof. exact @c99_beginning_refuted__p. Qed.
Print Assumptions c99_beginning_refuted.
Example c99_beginning_refuted_ex : sub_latex [("i", "food")] "_inv" = "_foodnv".
Proof. apply (@c99_beginning_refuted "nv" "i" "food"); is_word. Qed.

Theorem c99_chain_refuted :
  exists d, NoDup (map fst d) /\ Forall word (map fst d ++ map snd d) /\ sub_latex d "x_{i,j}" = "x_{k,k}"%string /\ put d "i" = "j"%string.
Proof. exact @c99_chain_refuted__p. Qed.
Print Assumptions c99_chain_refuted.

Theorem c99_description_refuted :
  sub_description (("i", "food") :: nil) "i sold" = "i sold"%string /\
  sub_description (("i", "food") :: nil) "trade i i goods" = "trade food i goods"%string /\
  sub_description (("i", "food") :: nil) "price of i, in kg" = "price of i, in kg"%string.
Proof. exact @c99_description_refuted__p. Qed.
Print Assumptions c99_description_refuted.

Theorem c99_get_info :
  forall (V : Type) name (x y : V) sectors s,
    get_info name (symbols name (Some x) sectors None ++ ((name, nil), Some y) :: nil) (s :: nil) = Some x <-> In s sectors \/ x = y.
Proof. exact @c99_get_info__p. Qed.
Print Assumptions c99_get_info.
Example c99_get_info_ex : get_info "P" (symbols "P" (Some 1) ["food"; "steel"] None ++ [(("P", []), Some 2)]) ["food"] = Some 1 /\
  get_info "P" (symbols "P" (Some 1) ["food"; "steel"] None ++ [(("P", []), Some 2)]) ["services"] = Some 2.
Proof. split; [apply c99_get_info; left; now left|vm_compute; reflexivity]. Qed.

Theorem c99_assumptions_refuted :
  forall (V : Type) name (x : V) sectors a s, a <> nil -> get_info name (symbols name (Some x) sectors (Some a)) (s :: nil) = None.
Proof. exact @c99_assumptions_refuted__p. Qed.
Print Assumptions c99_assumptions_refuted.
Example c99_assumptions_refuted_ex : get_info "P" (symbols "P" (Some 1) ["food"] (Some [("positive", true)])) ["food"] = None.
Proof. apply c99_assumptions_refuted. discriminate. Qed.

Theorem c99_shared_refuted :
  forall (V : Type) name s t (x : V), get_info name (symbols (name ++ "_" ++ s)%string (Some x) (t :: nil) None) (s :: t :: nil) = Some x.
Proof. exact @c99_shared_refuted__p. Qed.
Print Assumptions c99_shared_refuted.
Example c99_shared_refuted_ex : get_info "P" (symbols "P_M" (Some 1) ["food"] None) ["M"; "food"] = Some 1.
Proof. apply c99_shared_refuted. Qed.
