From Verif Require Import Py PyStr M_Build M_Modes.
Local Open Scope string_scope.
Local Open Scope list_scope.

Lemma all_cases (P : fobj -> Prop) (fs : list (option fobj)) :
  Forall (fun o => match o with Some f => P f | None => True end) fs -> forall f, In (Some f) fs -> P f.
Proof. intros H f Hf. rewrite Forall_forall in H. exact (H (Some f) Hf). Qed.

Lemma when_ok (P : fobj -> Prop) b f : P f -> match when b f with Some f => P f | None => True end.
Proof. destruct b; cbn; auto. Qed.

Lemma unwrap_mode l fs : map_res (unwrap_jit_fn (MMode l)) fs = Ok fs.
Proof.
  induction fs as [| o fs IH]; [reflexivity |]. cbn [map_res]. rewrite IH. destruct o; reflexivity.
Qed.

Lemma c105_numpy__p :
  forall (linker_of : option string -> linker) (upper : string -> string) (jax_installed : bool) (backend : string) (name : option string)
         (r : request) (fs : list (option fobj)),
  (backend = "pytensor" -> linker_of name = LJax -> jax_installed = true /\ exists s, name = Some s /\ upper s = "JAX") ->
  compile_model_modes linker_of upper jax_installed backend name r = Ok fs ->
  length fs = 7 /\ (exists f, hd None fs = Some f) /\ forall f, In (Some f) fs -> returns f = Numpy.
Proof.
  intros lo up ji backend name r fs HJ H. unfold compile_model_modes in H.
  destruct (String.eqb backend "pytensor" && _ && ji) eqn:E1 in H.
  - injection H as <-. split; [reflexivity |]. split; [eexists; reflexivity |]. apply all_cases.
    repeat (apply Forall_cons; [try apply when_ok; reflexivity |]). constructor.
  - destruct (String.eqb backend "pytensor") eqn:E2.
    + assert (N : lo name <> LJax).
      { intros Q. apply String.eqb_eq in E2. destruct (HJ E2 Q) as (-> & s & -> & U). rewrite U in E1. discriminate. }
      unfold compile_pytensor_modes in H. rewrite unwrap_mode in H. injection H as <-. split; [reflexivity |]. split; [eexists; reflexivity |].
      assert (B : returns (FFunction (lo name)) = Numpy) by (cbn; destruct (lo name); congruence).
      apply all_cases. cbn [mode_is mode_linker].
      repeat (apply Forall_cons; [try apply (when_ok (fun f => returns f = Numpy)); first [exact B | reflexivity] |]). constructor.
    + destruct (String.eqb backend "sympytensor"); [| discriminate]. injection H as <-. split; [reflexivity |]. split; [eexists; reflexivity |].
      assert (B : returns (sympytensor_function lo (MMode (lo name))) = Numpy).
      { unfold sympytensor_function. cbn. destruct (lo name); reflexivity. }
      apply all_cases.
      repeat (apply Forall_cons; [try apply (when_ok (fun f => returns f = Numpy)); first [exact B | reflexivity] |]). constructor.
Qed.

Lemma c105_defined__p :
  forall (linker_of : option string -> linker) (upper : string -> string) (jax_installed : bool) (backend : string) (name : option string) (r : request),
  backend = "pytensor" \/ backend = "sympytensor" ->
  exists fs, compile_model_modes linker_of upper jax_installed backend name r = Ok fs.
Proof.
  intros lo up ji backend name r [-> | ->]; unfold compile_model_modes; cbn [String.eqb]; cbn -[compile_pytensor_modes compile_jax_modes].
  - destruct (_ && ji); [eexists; reflexivity |]. unfold compile_pytensor_modes. rewrite unwrap_mode. eexists; reflexivity.
  - eexists; reflexivity.
Qed.

Lemma c105_direct_refuted__p :
  forall (linker_of : option string -> linker), linker_of (Some "JAX") = LJax ->
  exists f, compile_pytensor_modes linker_of [] (MName "JAX") = Ok [Some f; None; None; None; None; None; None] /\ returns f = Jax.
Proof.
  intros lo H. exists (FJit LJax). unfold compile_pytensor_modes. cbn. rewrite H. split; reflexivity.
Qed.

Lemma c105_direct_euler_refuted__p :
  forall (linker_of : option string -> linker) (name : string) (l : list fname),
  linker_of (Some "JAX") = LJax -> linker_of (Some "NUMBA") = LNumba -> name = "JAX" \/ name = "NUMBA" -> In (FStr "euler") l ->
  compile_pytensor_modes linker_of l (MName name) = Err AttributeError.
Proof.
  intros lo name l HJ HN Hn He.
  assert (E : requested_in "euler" l = true) by (apply existsb_exists; exists (FStr "euler"); split; auto).
  unfold compile_pytensor_modes. rewrite E.
  destruct Hn as [-> | ->]; cbn; rewrite ?HJ, ?HN; cbn; destruct (requested_in "root" l), (requested_in "minimize" l); reflexivity.
Qed.

Lemma c105_default_refuted__p :
  exists (linker_of : option string -> linker) f,
    compile_model_modes linker_of (fun s => s) true "pytensor" None RNone = Ok [Some f; None; None; None; None; None; None] /\ returns f = Jax /\
    exists g, compile_model_modes linker_of (fun s => s) true "sympytensor" None RNone = Ok [Some g; None; None; None; None; None; None] /\ returns g = Numpy.
Proof.
  exists (fun _ => LJax), (FFunction LJax). split; [reflexivity |]. split; [reflexivity |]. eexists. split; reflexivity.
Qed.
