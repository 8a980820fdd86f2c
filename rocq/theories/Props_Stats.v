(** C89: the statistics shown while the Euler approximation runs. *)
From Verif Require Import Py NdArray M_Stats S_Stats L_Stats.
From Coq Require Import Reals Lra.
Local Open Scope string_scope.
Local Open Scope list_scope.

(** Two equations with errors x - 1 and p, a constant Jacobian. *)
Definition st_f : keyword_fn := fun vs ps =>
  let* x := dgetitem "x" vs in let* p := dgetitem "p" ps in Ok (mkArr [2] (map (fun v => v - 1)%R (adata x) ++ adata p)).
Definition st_g : keyword_fn := fun _ _ => Ok (mkArr [2; 1] [3; 4]%R).
Definition st_vs : dict (arr R) := [("x", mkArr [] [4%R])].
Definition st_ps : dict (arr R) := [("p", mkArr [] [4%R])].

Theorem c89_statistics :
  forall vs ps f g e j,
    f vs ps = Ok e -> g vs ps = Ok j -> arr_wf e -> adata e <> nil ->
    exists s n, get_step_statistics vs ps (Some f) (Some g) = Ok (("RMSE", Some s) :: ("grad_norm", Some n) :: nil)%string /\
      squares (adata e) s /\ euclidean (adata j) n /\
      get_step_statistics vs ps (Some f) None = Ok (("RMSE", Some s) :: nil)%string /\
      render (fields (Some f) (Some g)) (("RMSE", Some s) :: ("grad_norm", Some n) :: nil)%string = Ok (Some s :: Some n :: nil) /\
      render (fields (Some f) (@None keyword_fn)) (("RMSE", Some s) :: nil)%string = Ok (Some s :: nil).
Proof. exact @c89_statistics__p. Qed.
Print Assumptions c89_statistics.
Example c89_statistics_ex : exists s n, get_step_statistics st_vs st_ps (Some st_f) (Some st_g) = Ok [("RMSE", Some s); ("grad_norm", Some n)] /\
  s = 25%R /\ n = 5%R.
Proof.
  destruct (@c89_statistics st_vs st_ps st_f st_g (mkArr [2] [4 - 1; 4]%R) (mkArr [2; 1] [3; 4]%R) eq_refl eq_refl) as (s & n & A & B & (C & D) & _).
  - reflexivity.
  - discriminate.
  - exists s, n. split; [exact A|]. cbn [adata] in B, D.
    inversion B as [|? ? ? B']; subst. inversion B' as [|? ? ? B'']; subst. inversion B''; subst.
    inversion D as [|? ? q D' Q1 Q2]. inversion D' as [|? ? q' D'' Q1' Q2']. inversion D''. subst.
    split; [ring|]. assert (E : ((n - 5) * (n + 5))%R = 0%R) by (ring_simplify; lra).
    apply Rmult_integral in E. lra.
Qed.

Theorem c89_rmse_refuted :
  forall vs ps f e s r,
    f vs ps = Ok e -> arr_wf e -> adata e <> nil ->
    get_step_statistics vs ps (Some f) None = Ok (("RMSE", Some s) :: nil)%string ->
    root_mean_square (adata e) r -> s = r -> r = 0%R \/ (INR (length (adata e)) * r)%R = 1%R.
Proof. exact @c89_rmse_refuted__p. Qed.
Print Assumptions c89_rmse_refuted.
(** Errors 3 and 4: 25 is shown where the root mean square is less than 4. *)
Example c89_rmse_refuted_ex : exists s, get_step_statistics st_vs st_ps (Some st_f) None = Ok [("RMSE", Some s)] /\
  ~ root_mean_square [4 - 1; 4]%R s.
Proof.
  destruct (@c89_statistics st_vs st_ps st_f st_g (mkArr [2] [4 - 1; 4]%R) (mkArr [2; 1] [3; 4]%R) eq_refl eq_refl eq_refl) as (s & n & _ & B & _ & C & _); [discriminate|].
  exists s. split; [exact C|]. intros H.
  pose proof (@c89_rmse_refuted st_vs st_ps st_f (mkArr [2] [4 - 1; 4]%R) s s eq_refl eq_refl ltac:(discriminate) C H eq_refl) as K.
  cbn [adata] in B. inversion B as [|? ? ? B']; subst. inversion B' as [|? ? ? B'']; subst. inversion B''; subst.
  cbn [adata length INR] in K. lra.
Qed.

Theorem c89_gradient_only_refuted :
  forall vs ps g j, g vs ps = Ok j ->
    exists d, get_step_statistics vs ps None (Some g) = Ok d /\ render (fields (@None keyword_fn) (Some g)) d = Err KeyError.
Proof. exact @c89_gradient_only_refuted__p. Qed.
Print Assumptions c89_gradient_only_refuted.
Example c89_gradient_only_refuted_ex : exists d, get_step_statistics st_vs st_ps None (Some st_g) = Ok d /\ render (fields (@None keyword_fn) (Some st_g)) d = Err KeyError.
Proof. apply (@c89_gradient_only_refuted st_vs st_ps st_g _ eq_refl). Qed.

Theorem c89_empty_refuted :
  forall vs ps f e, f vs ps = Ok e -> arr_wf e -> adata e = nil ->
    get_step_statistics vs ps (Some f) None = Ok (("RMSE", None) :: nil)%string.
Proof. exact @c89_empty_refuted__p. Qed.
Print Assumptions c89_empty_refuted.
Example c89_empty_refuted_ex : get_step_statistics st_vs st_ps (Some (fun _ _ => Ok (mkArr [0] []))) None = Ok [("RMSE", None)].
Proof. apply (@c89_empty_refuted st_vs st_ps _ (mkArr [0] [])); reflexivity. Qed.
