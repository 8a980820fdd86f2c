(** C71. *)
From Coq Require Import QArith Reals.
From Verif Require Import Py PyStr M_NumbaSource S_NumbaSource L_NumbaSource2.
Local Open Scope nat_scope.
Local Open Scope list_scope.
Local Open Scope char_scope.

(** Post-processing writes the same names, the same operators and literals of
    the same values, in the same order. *)
Theorem c71_items :
  forall code, Forall2 same_item (items code) (items (post_process code)).
Proof. exact @c71_items__p. Qed.
Print Assumptions c71_items.
Example c71_items_ex :
  post_process (txt "[numpy.log(x[0]) + 0, y*10]") =
    indent ++ txt "[np.log(x[0]) + 0.0," ++ newline :: indent ++ txt "y*10]" /\
  Forall2 same_item (items (txt "0 ")) (items (txt "0.0 ")).
Proof.
  split; [reflexivity|]. constructor; [|constructor]. eapply same_literal; reflexivity.
Qed.

(** One integer in each subscript stays one integer. *)
Theorem c71_indices :
  forall code, integer_subscripts code -> integer_subscripts (post_process code).
Proof. exact @c71_indices__p. Qed.
Print Assumptions c71_indices.
Example c71_indices_ex : integer_subscripts (txt "x[0]") /\ post_process (txt "x[0]") = indent ++ txt "x[0]".
Proof.
  split; [|reflexivity]. intros before c after E W. destruct before as [|b0 [|b1 before]]; cbn in E.
  - injection E as E1 E2. subst. exists ["0"], []. split; [discriminate|]. split; [repeat constructor|reflexivity].
  - injection E as _ E1 E2. subst. discriminate.
  - exfalso. injection E as _ _ E. assert (I : In "[" ["0"; "]"]). { rewrite E. apply in_app_iff. right. right. now left. }
    cbn in I. intuition discriminate.
Qed.

(** With two integers in a subscript the first is left a float. *)
Theorem c71_two_indices_refuted :
  exists code, (forall before c after, code = before ++ c :: "[" :: after -> is_word c = true ->
       exists i j rest, i <> [] /\ j <> [] /\ Forall (fun x => is_digit x = true) (i ++ j) /\ after = i ++ "," :: " " :: j ++ "]" :: rest) /\
    exists before after, post_process code = before ++ txt "X[0.0," ++ after.
Proof. exact @c71_two_indices_refuted__p. Qed.
Print Assumptions c71_two_indices_refuted.

(** Max of two arguments is their maximum. Missing: other numbers of arguments
    (refuted below), and Min, for which sympy's printer is not overridden. *)
Theorem c71_max_partial :
  forall args, length args = 2 ->
    exists m, eval_call (print_max args) = Some m /\ greatest m args.
Proof. exact @c71_max_partial__p. Qed.
Print Assumptions c71_max_partial.
Example c71_max_ex : length [1%R; 2%R] = 2. Proof. reflexivity. Qed.
(** Max of three or more arguments has a value, and the call raises. *)
Theorem c71_max_refuted :
  forall args, 3 <= length args -> eval_call (print_max args) = None /\ exists m, greatest m args.
Proof. exact @c71_max_refuted__p. Qed.
Print Assumptions c71_max_refuted.
Example c71_max_refuted_ex : 3 <= length [1%R; 2%R; 3%R]. Proof. cbn; auto. Qed.
