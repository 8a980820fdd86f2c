(** C105: compiled functions return numpy arrays in every mode. *)
From Verif Require Import Py PyStr M_Build M_Modes L_Modes.
Local Open Scope string_scope.
Local Open Scope list_scope.

(** The linkers of three names, and of the default *)
Definition mo_linker (name : option string) : linker :=
  match name with
  | Some s => if String.eqb s "JAX" || String.eqb s "jax" then LJax else if String.eqb s "NUMBA" then LNumba else LOther
  | None => LOther
  end.
Definition mo_upper (s : string) : string := if String.eqb s "jax" then "JAX" else s.

Theorem c105_numpy :
  forall (linker_of : option string -> linker) (upper : string -> string) (jax_installed : bool) (backend : string) (name : option string)
         (r : request) (fs : list (option fobj)),
  (backend = "pytensor" -> linker_of name = LJax -> jax_installed = true /\ exists s, name = Some s /\ upper s = "JAX") ->
  compile_model_modes linker_of upper jax_installed backend name r = Ok fs ->
  length fs = 7 /\ (exists f, hd None fs = Some f) /\ forall f, In (Some f) fs -> returns f = Numpy.
Proof. exact @c105_numpy__p. Qed.
Print Assumptions c105_numpy.
Example c105_numpy_ex :
  (exists fs, compile_model_modes mo_linker mo_upper true "pytensor" (Some "jax") (ROne (FStr "all")) = Ok fs /\ forall f, In (Some f) fs -> returns f = Numpy) /\
  (exists fs, compile_model_modes mo_linker mo_upper true "sympytensor" (Some "JAX") (ROne (FStr "root")) = Ok fs /\ forall f, In (Some f) fs -> returns f = Numpy) /\
  returns (FFunction (mo_linker (Some "JAX"))) = Jax.
Proof.
  split; [| split; [| reflexivity]]; eexists; (split; [reflexivity |]).
  - apply (@c105_numpy mo_linker mo_upper true "pytensor" (Some "jax") (ROne (FStr "all"))); [| reflexivity].
    intros _ _. split; [reflexivity |]. exists "jax". split; reflexivity.
  - apply (@c105_numpy mo_linker mo_upper true "sympytensor" (Some "JAX") (ROne (FStr "root"))); [| reflexivity]. discriminate.
Qed.

Theorem c105_defined :
  forall (linker_of : option string -> linker) (upper : string -> string) (jax_installed : bool) (backend : string) (name : option string) (r : request),
  backend = "pytensor" \/ backend = "sympytensor" ->
  exists fs, compile_model_modes linker_of upper jax_installed backend name r = Ok fs.
Proof. exact @c105_defined__p. Qed.
Print Assumptions c105_defined.
Example c105_defined_ex : exists fs, compile_model_modes mo_linker mo_upper false "pytensor" (Some "NUMBA") (ROne (FStr "all")) = Ok fs /\ hd None fs = Some (FFunction LNumba).
Proof.
  destruct (@c105_defined mo_linker mo_upper false "pytensor" (Some "NUMBA") (ROne (FStr "all")) (or_introl eq_refl)) as (fs & E).
  exists fs. split; [exact E |]. cbn in E. injection E as <-. reflexivity.
Qed.

Theorem c105_direct_refuted :
  forall (linker_of : option string -> linker), linker_of (Some "JAX") = LJax ->
  exists f, compile_pytensor_modes linker_of [] (MName "JAX") = Ok [Some f; None; None; None; None; None; None] /\ returns f = Jax.
Proof. exact @c105_direct_refuted__p. Qed.
Print Assumptions c105_direct_refuted.
Example c105_direct_refuted_ex : exists f, compile_pytensor_modes mo_linker [] (MName "JAX") = Ok [Some f; None; None; None; None; None; None] /\ returns f = Jax.
Proof. apply c105_direct_refuted. reflexivity. Qed.

Theorem c105_direct_euler_refuted :
  forall (linker_of : option string -> linker) (name : string) (l : list fname),
  linker_of (Some "JAX") = LJax -> linker_of (Some "NUMBA") = LNumba -> name = "JAX" \/ name = "NUMBA" -> In (FStr "euler") l ->
  compile_pytensor_modes linker_of l (MName name) = Err AttributeError.
Proof. exact @c105_direct_euler_refuted__p. Qed.
Print Assumptions c105_direct_euler_refuted.
Example c105_direct_euler_refuted_ex : compile_pytensor_modes mo_linker [FStr "root"; FStr "euler"] (MName "NUMBA") = Err AttributeError.
Proof. apply c105_direct_euler_refuted; try reflexivity; cbn; auto. Qed.

Theorem c105_default_refuted :
  exists (linker_of : option string -> linker) f,
    compile_model_modes linker_of (fun s => s) true "pytensor" None RNone = Ok [Some f; None; None; None; None; None; None] /\ returns f = Jax /\
    exists g, compile_model_modes linker_of (fun s => s) true "sympytensor" None RNone = Ok [Some g; None; None; None; None; None; None] /\ returns g = Numpy.
Proof. exact @c105_default_refuted__p. Qed.
Print Assumptions c105_default_refuted.
