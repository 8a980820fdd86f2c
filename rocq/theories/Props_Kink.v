(** C117: maxima, logarithms and their derivatives in the generated code. *)
From Coq Require Import Reals Lra.
From Verif Require Import Py PyStr M_NumbaSource M_Kink S_Kink L_Kink.
Local Open Scope string_scope.
Local Open Scope list_scope.
Local Open Scope R_scope.

(** The expression x log(max(x, y)) at x = 2, y = 1 *)
Definition kx_e : kexpr := KMul (KSym "x") (KLog (KMax (KSym "x") (KSym "y"))).
Definition kx_env (s : string) : R := if String.eqb s "x" then 2 else 1.
Lemma kx_away : away kx_env kx_e.
Proof. cbn. repeat split; try lra. rewrite Rmax_left; lra. Qed.

(** The texts that are printed stay what they are in the generated code. *)
Example kx_delta_text : post_process (txt print_delta) = indent ++ txt "0.0".
Proof. reflexivity. Qed.
Example kx_log_text : post_process (txt (fst (print_log [2]) ++ "(x)")) = indent ++ txt "np.log(x)".
Proof. reflexivity. Qed.

(** C117 *)
Theorem c117_value :
  forall (env : string -> R) (e : kexpr), written e -> away env e -> kvalue env e = Some (meaning env e).
Proof. exact @c117_value__p. Qed.
Print Assumptions c117_value.
Example c117_value_ex : kvalue kx_env kx_e = Some (2 * ln 2).
Proof. rewrite (@c117_value kx_env kx_e); [|cbn; auto|apply kx_away]. cbn. rewrite Rmax_left by lra. reflexivity. Qed.

Theorem c117_derivatives :
  forall (env : string -> R) (e : kexpr) (xs : list string) (x : string), written e -> away env e ->
  is_partial x env (fun env' => kvalue env' (kdiffs xs e)) (fun env' => kvalue env' (kdiffs (xs ++ [x]) e)).
Proof. exact @c117_derivatives__p. Qed.
Print Assumptions c117_derivatives.
(** The second derivative for x is 1 / x = 1 / 2. *)
Example c117_derivatives_ex :
  is_partial "x" kx_env (fun env => kvalue env (kdiff "x" kx_e)) (fun env => kvalue env (kdiffs ["x"; "x"] kx_e)) /\
  kvalue kx_env (kdiffs ["x"; "x"] kx_e) = Some (1 / 2).
Proof.
  pose proof (@c117_derivatives kx_env kx_e ["x"] "x" ltac:(cbn; auto) kx_away) as D. split; [exact D|].
  destruct D as (F & G & del & _ & E & _). assert (N : kvalue kx_env (kdiffs ["x"; "x"] kx_e) = Some G) by exact E.
  rewrite N. f_equal. clear E. cbn in N. unfold eval_kcall in N. cbn in N. rewrite !(Rmax_left 2 1) in N by lra.
  unfold heaviside in N. repeat (destruct (Rlt_dec _ _) in N; try lra). destruct (Req_EM_T 2 0) in N; [lra|].
  injection N as <-. field.
Qed.

Theorem c117_tie_refuted :
  exists (env : string -> R) (e : kexpr) (x : string), written e /\ kvalue env (kdiff x e) <> None /\ kvalue env (kdiffs [x; x] e) = Some 0 /\
  ~ is_partial x env (fun env' => kvalue env' e) (fun env' => kvalue env' (kdiff x e)).
Proof. exact @c117_tie_refuted__p. Qed.
Print Assumptions c117_tie_refuted.
Example c117_tie_refuted_ex : kvalue (fun _ => 0) (kdiff "x" (KMax (KNum 0) (KSym "x"))) = Some (1 / 2).
Proof. cbn. f_equal. unfold heaviside. repeat destruct (Rlt_dec _ _); lra. Qed.
