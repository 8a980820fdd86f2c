(** More lemmas for C57 and C58 with the pytensor backend. *)
From Coq Require Import Ascii Reals Lra Lia ZArith.
From Verif Require Import Py PyStr NdArray M_Primitives M_PyExpr M_Equations M_Production M_Tensor S_PyExpr S_Meaning S_Production S_Layout S_Tensor
  L_PyExpr L_Meaning L_Production2 L_Production3 L_Production4 L_Production5 L_Production6 L_Tensor L_Tensor2 L_Tensor3 L_Tensor4 L_Tensor5.
Local Open Scope string_scope.
Local Open Scope list_scope.

Lemma c58_pytensor_minimises__p :
  forall number_op C objs data names coords labels (i factor price output output_price epsilon TFP : string) (shares : option string) (use_value_definition : bool)
         (x q s : nat -> R) (y p a e : R) definition demand residuals,
  let rho := array_values objs data in let n := size C i in
  real_arithmetic number_op -> given C objs data -> dget i coords = Some labels -> 0 < n ->
  array1 C objs rho factor i x -> array1 C objs rho price i q -> opt_array1 C objs rho shares i s -> array0 C objs rho output y ->
  array0 C objs rho output_price p -> array0 C objs rho TFP a -> array0 C objs rho epsilon e ->
  no_eq factor -> no_eq output -> (0 < e)%R -> e <> 1%R ->
  (forall k, k < n -> (0 < x k /\ 0 < q k /\ 0 < s k)%R) -> (0 < p)%R -> (0 < a)%R -> (0 < y)%R -> length names = 1 + n ->
  dixit_stiglitz (One factor) (One price) output output_price epsilon i coords "pytensor" (Some TFP) (option_map One shares) use_value_definition = Ok (definition, demand) ->
  pytensor_system number_op C objs [definition; demand] names data = Ok residuals -> all_zero residuals ->
  aggregate a e s x n = y /\ (sum_n (fun k => q k * x k) n = p * y)%R /\
  forall z, (forall k, k < n -> (0 < z k)%R) -> (y <= aggregate a e s z n)%R -> (sum_n (fun k => q k * x k) n <= sum_n (fun k => q k * z k) n)%R.
Proof.
  intros number_op C objs data names coords labels i factor price output output_price epsilon TFP sh value x q s y p a e definition demand residuals rho n Ar Gv Hc n0
    Hx Hq Hs Hy Hp Ha He Nx Ny E0 E1 Px Pp Pa Py L ED ES Z.
  destruct (@c58_pytensor__p number_op C objs data names coords labels i factor price output output_price epsilon TFP sh value x q s y p a e) as (def' & dem' & res' & ED' & ES' & M);
    try assumption; [lra|]. rewrite ED in ED'. injection ED' as <- <-. rewrite ES in ES'. injection ES' as <-. apply M in Z. destruct Z as (Y & D). clear M.
  split; [now symmetry|]. split.
  - assert (Q : (y = sum_n (fun k => q k * x k) n / p)%R) by (apply (@ds_equivalent C i x q s y p a e n0 ltac:(lra) E1 Px Pp Pa Py D); exact Y).
    fold n in Q. rewrite Q. field. lra.
  - intros z Pz Iz. rewrite Y in Iz. apply (@ces_cheapest nat s q x z y p a e (seq 0 n)); try assumption; [destruct n; [lia|discriminate]|].
    intros k K. apply in_seq in K. destruct (Px k ltac:(lia)) as (? & ? & ?). repeat split; try assumption; [apply Pz; lia|apply D; lia].
Qed.

(** ** The default arguments of leontief *)
Definition lt_objs : list mobj :=
  [exobj KVar "X" ["i"; "j"]; exobj KVar "q" ["i"]; exobj KVar "Y" ["j"]; exobj KVar "P" ["j"]; exobj KPar "a" ["i"; "j"]].
Definition lt_data : dict (arr R) :=
  [("X", mkArr [2; 2] [2; 1; 1; 1]%R); ("q", mkArr [2] [1; 2]%R); ("Y", mkArr [2] [1; 1]%R); ("P", mkArr [2] [3; 4]%R); ("a", mkArr [2; 2] [2; 1; 1; 1]%R)].
Definition lt_a (i k : nat) : R := match i, k with 0, 0 => 2 | _, _ => 1 end%R.
Definition lt_q (i : nat) : R := match i with 0 => 1 | _ => 2 end%R.
Definition lt_p (k : nat) : R := match k with 0 => 3 | _ => 4 end%R.
Lemma name_array1 C objs data o d f : In o objs -> is_unit (o_name o) (EWord (o_name o)) -> number (o_name o) = None -> ~ In (o_name o) ["pt"; "None"] -> o_dims o = [d] ->
  (forall ix, ix d < size C d -> array_values objs data (o_name o) ix = Some (f (ix d))) -> array1 C objs (array_values objs data) (o_name o) d f.
Proof. intros I U N P E H. exists (EWord (o_name o)), (array_values objs data (o_name o)). split; [exact U|]. split; [|exact H]. pose proof (@reads_name C objs (array_values objs data) o I N P) as X. now rewrite E in X. Qed.
Lemma name_array2 C objs data o d1 d2 f : In o objs -> is_unit (o_name o) (EWord (o_name o)) -> number (o_name o) = None -> ~ In (o_name o) ["pt"; "None"] -> o_dims o = [d1; d2] ->
  (forall ix, ix d1 < size C d1 -> ix d2 < size C d2 -> array_values objs data (o_name o) ix = Some (f (ix d1) (ix d2))) -> array2 C objs (array_values objs data) (o_name o) d1 d2 f.
Proof. intros I U N P E H. exists (EWord (o_name o)), (array_values objs data (o_name o)). split; [exact U|]. split; [|exact H]. pose proof (@reads_name C objs (array_values objs data) o I N P) as X. now rewrite E in X. Qed.
Lemma name_array0 C objs data o v : In o objs -> is_unit (o_name o) (EWord (o_name o)) -> number (o_name o) = None -> ~ In (o_name o) ["pt"; "None"] -> o_dims o = [] ->
  (forall ix, array_values objs data (o_name o) ix = Some v) -> array0 C objs (array_values objs data) (o_name o) v.
Proof. intros I U N P E H. exists (EWord (o_name o)), (array_values objs data (o_name o)). split; [exact U|]. split; [|exact H]. pose proof (@reads_name C objs (array_values objs data) o I N P) as X. now rewrite E in X. Qed.
Ltac arr1 o := apply (@name_array1 _ _ _ o); [cbn; auto 10|apply G_word|reflexivity|cbn; intuition discriminate|reflexivity|].
Ltac arr2 o := apply (@name_array2 _ _ _ o); [cbn; auto 10|apply G_word|reflexivity|cbn; intuition discriminate|reflexivity|].
Ltac arr0 o := apply (@name_array0 _ _ _ o); [cbn; auto 10|apply G_word|reflexivity|cbn; intuition discriminate|reflexivity|].

Lemma c57_pytensor_default_refuted__p :
  exists C objs data (x a : nat -> nat -> R) (q y p : nat -> R) eqs,
    let rho := array_values objs data in
    given C objs data /\ size C "i" = 2%nat /\ size C "j" = 2%nat /\ array2 C objs rho "X" "i" "j" x /\ array2 C objs rho "a" "i" "j" a /\
    array1 C objs rho "q" "i" q /\ array1 C objs rho "Y" "j" y /\ array1 C objs rho "P" "j" p /\
    leontief (One "X") (One "q") "Y" "P" (One "a") (Many ["i"; "j"]) [("i", ["A"; "B"]); ("j", ["A"; "B"])] None true true "pytensor" = Ok eqs /\
    (forall number_op names, real_arithmetic number_op -> length names = 6%nat ->
       exists residuals, pytensor_system number_op C objs eqs names data = Ok residuals /\ all_zero residuals) /\
    ~ forall k, (k < 2)%nat -> p k = sum_n (fun i => q i * a i k)%R 2.
Proof.
  exists al_c, lt_objs, lt_data, lt_a, lt_a, lt_q, (fun _ => 1%R), lt_p. eexists. cbv zeta.
  split; [give|]. split; [reflexivity|]. split; [reflexivity|].
  split; [arr2 (exobj KVar "X" ["i"; "j"]); intros ix Hi Hj; change (ix "i" < 2) in Hi; change (ix "j" < 2) in Hj; unfold array_values; cbn -[IZR]; destruct (ix "i") as [|[|]]; try lia; destruct (ix "j") as [|[|]]; try lia; reflexivity|].
  split; [arr2 (exobj KPar "a" ["i"; "j"]); intros ix Hi Hj; change (ix "i" < 2) in Hi; change (ix "j" < 2) in Hj; unfold array_values; cbn -[IZR]; destruct (ix "i") as [|[|]]; try lia; destruct (ix "j") as [|[|]]; try lia; reflexivity|].
  split; [arr1 (exobj KVar "q" ["i"]); intros ix Hi; change (ix "i" < 2) in Hi; unfold array_values; cbn -[IZR]; destruct (ix "i") as [|[|]]; try lia; reflexivity|].
  split; [arr1 (exobj KVar "Y" ["j"]); intros ix Hi; change (ix "j" < 2) in Hi; unfold array_values; cbn -[IZR]; destruct (ix "j") as [|[|]]; try lia; reflexivity|].
  split; [arr1 (exobj KVar "P" ["j"]); intros ix Hi; change (ix "j" < 2) in Hi; unfold array_values; cbn -[IZR]; destruct (ix "j") as [|[|]]; try lia; reflexivity|].
  split; [reflexivity|]. split.
  - intros number_op names H L. eexists. split.
    + destruct names as [|n1 [|n2 [|n3 [|n4 [|n5 [|n6 [|]]]]]]]; try discriminate.
      transitivity (Ok [number_op Sub 1 (number_op Div (number_op Mul 1 2 + (number_op Mul 1 1 + 0)) 3); number_op Sub 1 (number_op Div (number_op Mul 2 1 + (number_op Mul 2 1 + 0)) 4);
        number_op Sub 2 (number_op Mul 2 1); number_op Sub 1 (number_op Mul 1 1); number_op Sub 1 (number_op Mul 1 1); number_op Sub 1 (number_op Mul 1 1)]%R); reflexivity.
    + assert (D : forall x y, y <> 0%R -> number_op Div x y = (x / y)%R).
      { intros u v N. apply H. cbn. destruct (Req_EM_T v 0); [contradiction|reflexivity]. }
      intros r Hr. rewrite !(ra_sub _ _ H), !(ra_mul _ _ H), !D in Hr by lra. cbn [In] in Hr. destruct Hr as [<-|[<-|[<-|[<-|[<-|[<-|[]]]]]]]; lra.
  - intros H. specialize (H 0 ltac:(lia)). unfold sum_n in H. cbn -[IZR] in H. lra.
Qed.

(** ** C54: ravel *)
Lemma c54_ravel__p :
  forall (s : string) (e : pexpr), is_expr s e -> parse (wrap_in_ravel s) = Some (ECall (EAttr e "ravel") ENil).
Proof.
  intros s e H. apply parse_complete. unfold wrap_in_ravel, is_expr. rewrite tok_last, tok_head by reflexivity. apply G_term, G_factor, G_power, G_prim.
  change (tokenize "(") with [LP]. change (tokenize ").ravel()") with ([RP] ++ [Dot; Word "ravel"] ++ LP :: [] ++ [RP]). cbn [app].
  replace (LP :: tokenize s ++ [RP; Dot; Word "ravel"; LP; RP]) with (((LP :: tokenize s ++ [RP]) ++ [Dot; Word "ravel"]) ++ LP :: [] ++ [RP]) by (cbn; now rewrite <- !app_assoc).
  apply G_call; [|apply G_nil]. now apply G_attr, G_paren.
Qed.
