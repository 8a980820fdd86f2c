# Formal model of cge_modeling in Rocq/Coq 8.16.1

Everything is under `rocq/theories`, logical name `Verif`.

## Layout

| layer | files | content |
|---|---|---|
| Python base | `Py.v`, `PyStr.v`, `NdArray.v` | exceptions as values, insertion-ordered dicts, `itertools.product`, string primitives, numpy arrays as (shape, C-order data) |
| model | `M_*.v` | one Gallina function per Python function, each citing file and lines of /repo/cge_modeling |
| specification | `S_*.v` | small definitions used by statements only, not by the model |
| proofs | `L_*.v` | lemmas; a lemma called `x__p` is the proof of the theorem `x` |
| theorems | `Props_*.v` | the property theorems, an `Example` meeting the hypotheses beside each, `Print Assumptions` |

Naming: `cNN_...` proves (part of) property CNN of `properties.jsonl`;
`..._refuted` proves that the property as a user would state it is false of the
code, with a concrete witness; `..._partial` proves a strictly weaker
statement and says what is missing.

## Conventions of the model

* Python exceptions are the constructor `Err` of the result type; no function
  is totalised by a silent default.
* Floats are exact reals (`R`), exact rationals where a decision is computed,
  or an arbitrary type when no arithmetic is needed. Rounding, overflow and
  infinities are not modelled; NaN is modelled where the code branches on it.
* numpy arrays are (shape, data in C order). `ravel`/`reshape` act on the data.
* Python dicts are association lists with the insertion-order semantics of
  CPython >= 3.7. Objects that are mutated through aliases (scenario arrays,
  copies of model objects) have a second, heap-based model.
* Strings are Coq strings of bytes; regular expressions are transcribed by hand
  into recursive functions, ASCII only.
* Calls into scipy, cvxpy, sympy's solver and simplifier, pytensor compilation,
  numba, matplotlib and the operating system are function arguments: theorems
  hold for all behaviours of the external call, or under a stated hypothesis
  about it.
* sympy expressions are trees; the automatic rewriting sympy does when it
  builds a node is not modelled, only assumed to keep the value.
* Logging, progress bars, display and figure styling are left out.

A property that is false of the code is reported as `partial`: its refutation
is a theorem with a witness, and the part that holds is proved under the
weakest condition found.


## Properties: what is modelled and how it is proved

Statements are in `properties.jsonl`; the status and the remarks are those of `MANIFEST.json`.

### C01 Packing then unpacking returns the same data (proved)

* Theorems in `Props_Layout.v`: `c01_pack_unpack`, `c01_other_entries_irrelevant`, `c01_no_parameters_refuted`.
* Model: `M_Primitives.v`, `M_Utilities.v`.
* Proof: induction over the object list; `slice` and `concat` cancel when every array has the size of its shape.
* Round trip dict -> vector -> dict for all models, ranks and sizes. The hypotheses vars<>[] and params<>[] are necessary: c01_no_parameters_refuted shows np.concatenate([]) makes every model without parameters fail.

### C02 Unpacking then packing returns the same vector (proved)

* Theorems in `Props_Layout.v`: `c02_unpack_pack`.
* Model: `M_Primitives.v`, `M_Utilities.v`.
* Proof: induction over the object list; `slice` and `concat` cancel when every array has the size of its shape.
* Round trip vector -> dict -> vector.

### C03 Every element has one row-major position in the flat vector (proved)

* Theorems in `Props_Layout.v`: `c03_addressing`.
* Model: `M_Primitives.v`, `M_Utilities.v`.
* Proof: the start of each object (`S_Layout.start_of`) and its row-major layout are computed independently of the code; induction over the objects, then over the dims.
* Row-major addressing, existence and uniqueness.

### C04 Vectors of the wrong length are not silently decoded (partial)

* Theorems in `Props_Layout.v`: `c04_short_rejected`, `c04_excess_accepted`, `c04_wrong_length_rejected_refuted`.
* Model: `M_Primitives.v`, `M_Utilities.v`.
* Proof: the loop reads exactly the total size; a shorter vector makes one reshape fail, the rest of a longer one is never read.
* Too-short vectors are rejected (proved); too-long vectors are silently truncated, so the property as stated is refuted.

### C05 The return mask drops exactly the omitted objects (proved)

* Theorems in `Props_Layout.v`: `c05_return_mask`.
* Model: `M_Primitives.v`, `M_Utilities.v`.
* Proof: induction over the shape map with a moving cursor.
* Mask of make_flat_array_return_mask, length, selection and position-wise.

### C06 The parameter mask selects exactly the named parameters (proved)

* Theorems in `Props_Layout.v`: `c06_param_mask`, `c06_unknown_name_rejected`.
* Model: `M_Primitives.v`, `M_Utilities.v`.
* Proof: induction over the shape map with a moving cursor.
* Mask of flat_mask_from_param_names; unknown names raise KeyError.

### C07 A shock changes the shocked parameters as stated and nothing else (partial)

* Theorems in `Props_Scenario.v`: `c07_scenario_values`, `c07_caller_data_unchanged`, `c07_in_place_refines`, `c07_shared_array_refuted`.
* Model: `M_Primitives.v`, `M_Utilities.v`, `M_ScenarioHeap.v`, `M_Simulate.v`.
* Proof: dictionary algebra for the pure version; the heap version is related to it by an invariant that the copied arrays are fresh and unshared.
* Values, key order and untouched caller data proved for every scenario; the in-place (+=, *=) heap version is proved equal to the pure one when no two initial entries share an array object. Refuted without that condition: deepcopy keeps sharing, so a delta on one name also changes the other (c07_shared_array_refuted).

### C08 Exactly the malformed scenarios are rejected (proved)

* Theorems in `Props_Scenario.v`: `c08_accepted_iff`, `c08_error_class`.
* Model: `M_Primitives.v`, `M_Utilities.v`, `M_ScenarioHeap.v`, `M_Simulate.v`.
* Proof: case analysis over the validation steps; witnesses for the refutations.
* Acceptance iff, and the error classes.

### C09 A shock to a name that is not a model parameter is not silently ignored (partial)

* Theorems in `Props_Scenario.v`: `c09_unknown_relative_shock_rejected`, `c09_nonparameter_shock_has_no_effect`, `c09_ignored_shock_refuted`.
* Model: `M_Primitives.v`, `M_Utilities.v`, `M_ScenarioHeap.v`, `M_Simulate.v`.
* Proof: case analysis over the validation steps; witnesses for the refutations.
* Refuted as stated: final_values with an unknown name or a variable name is accepted and has no effect on the simulated parameter vector (c09_ignored_shock_refuted, c09_nonparameter_shock_has_no_effect). Proved: unknown names in final_delta/final_delta_pct are rejected.

### C10 Derivative options given to the optimizer are consistent (partial)

* Theorems in `Props_Scenario.v`: `c10_flags`, `c10_unknown_method`, `c10_hess_needs_gradient`, `c10_hessp_without_gradient_refuted`, `c10_explicit_hess_dropped`.
* Model: `M_Primitives.v`, `M_Utilities.v`, `M_ScenarioHeap.v`, `M_Simulate.v`.
* Proof: case analysis over the validation steps; witnesses for the refutations.
* Flag resolution proved in full, and that a full Hessian is never passed without gradient. Refuted: with use_jac=False simulate passes hessp without a gradient for every method; an explicit use_hess=True is dropped because use_hessp defaults to True.

### C11 Expanding an indexed object enumerates its label combinations exactly once (proved)

* Theorems in `Props_Expand.v`: `c11_enumerates`, `c11_requested_dims`, `c11_unused_dims`, `c11_description`, `c11_original_unchanged`.
* Model: `M_Primitives.v`, `M_Utilities.v`, `M_Expand.v`, `M_ExpandHeap.v`, `M_Equations.v`.
* Proof: `product` enumerates label tuples in row-major order; induction over dims for the labels a copy carries; heap version for untouched originals.
* Texts derived from the labels (displayed latex name, description markers) are updated; every other attribute is unchanged. The heap version shows every existing object and dictionary is untouched.

### C12 _expand_var_by_index enumerates combinations and keeps the object's attributes (partial)

* Theorems in `Props_Expand.v`: `c12_enumerates`, `c12_foreign_dim_rejected`, `c12_default_attributes_kept`, `c12_attributes_refuted`.
* Model: `M_Primitives.v`, `M_Utilities.v`, `M_Expand.v`, `M_ExpandHeap.v`, `M_Equations.v`.
* Proof: `product` enumerates label tuples in row-major order; induction over dims for the labels a copy carries; heap version for untouched originals.
* Enumeration and rejection proved. The attribute part is refuted: latex name, assumptions and subscript option are replaced by constructor defaults (c12_attributes_refuted); kept exactly when they are the defaults.

### C13 The k-th unpacked name labels the k-th entry of the flat vector (proved)

* Theorems in `Props_Expand.v`: `c13_kth_name`.
* Model: `M_Primitives.v`, `M_Utilities.v`, `M_Expand.v`, `M_ExpandHeap.v`, `M_Equations.v`.
* Proof: `product` enumerates label tuples in row-major order; induction over dims for the labels a copy carries; heap version for untouched originals.

### C14 Distinct elements of the model have distinct unpacked names (partial)

* Theorems in `Props_Expand.v`: `c14_distinct`, `c14_same_object_collision_refuted`, `c14_two_objects_collision_refuted`.
* Model: `M_Primitives.v`, `M_Utilities.v`, `M_Expand.v`, `M_ExpandHeap.v`, `M_Equations.v`.
* Proof: injectivity of joining with underscores on label lists without underscores.
* Refuted as stated: names collide (two c14_*_refuted witnesses). Proved when names are not extensions of one another, labels read differently and labels of multi-dim objects have no underscore.

### C15 Dimension markers in names and descriptions are replaced by labels (partial)

* Theorems in `Props_Expand.v`: `c15_no_marker`, `c15_markers_replaced`, `c15_equations_in_order`, `c15_marker_names`, `c15_repeated_marker_refuted`.
* Model: `M_Primitives.v`, `M_Utilities.v`, `M_Expand.v`, `M_ExpandHeap.v`, `M_Equations.v`.
* Proof: specification of marker replacement on text segments; the string functions are shown to act segment-wise.
* Proved for texts with distinct markers; refuted for a marker written twice (names are duplicated).

### C16 Residuals are reported under the name of their own equation (partial)

* Theorems in `Props_Expand.v`: `c16_sympy_labels`, `c16_unmarked_name_refuted`, `c16_pytensor_labels`, `c16_pytensor_order_refuted`.
* Model: `M_Primitives.v`, `M_Utilities.v`, `M_Expand.v`, `M_ExpandHeap.v`, `M_Equations.v`.
* Proof: specification of marker replacement on text segments; the string functions are shown to act segment-wise.
* Proved for sympy parsing with distinct unpacked names and for pytensor parsing with markers in array order; refuted otherwise.

### C17 Declared dims are read as written (partial)

* Theorems in `Props_Expand.v`: `c17_dims_string`, `c17_other_forms`, `c17_empty_string_refuted`, `c17_latex_tokens`, `c17_comma_label_refuted`.
* Model: `M_Primitives.v`, `M_Utilities.v`, `M_Expand.v`, `M_ExpandHeap.v`, `M_Equations.v`.
* Proof: split/strip/join lemmas on strings.
* Proved for non-empty lists of dims and comma-free labels; refuted for the empty string and for labels with commas.

### C18 An equation is indexed by exactly the dims that occur free in it (proved)

* Theorems in `Props_Reduce.v`: `c18_dims`, `c18_reductions`.
* Model: `M_SymExpr.v`.
* Proof: filtering and stable sorting by position; expansion does not change the free indices.
* find_equation_dims on any expression; and after the reductions have been expanded (non-nested reductions, labels that are not numerals).

### C19 Objects stay uniquely named under every history of additions (proved)

* Theorems in `Props_Registry.v`: `c19_call`, `c19_history`, `c19_spec_deterministic`, `c19_unique_names`, `c19_constructed`, `c19_readd_rejected`.
* Model: `M_Primitives.v`, `M_Utilities.v`, `M_Expand.v`, `M_Equations.v`, `M_Registry.v`.
* Proof: the registries are a state machine; each call refines an ordered-map specification, invariants over arbitrary histories.
* Every call refines an ordered-map specification (call_spec); names stay unique and objects filed under their own name and kind over any history; construction establishes the invariant. sympy parsing is an arbitrary function argument.

### C20 A failed addition leaves the model as it was (partial)

* Theorems in `Props_Registry.v`: `c20_single_atomic`, `c20_wrong_class_atomic`, `c20_fresh_batch`, `c20_batch_refuted`.
* Model: `M_Primitives.v`, `M_Utilities.v`, `M_Expand.v`, `M_Equations.v`, `M_Registry.v`.
* Proof: the registries are a state machine; each call refines an ordered-map specification, invariants over arbitrary histories.
* Refuted for batches: a duplicate name or unparsable equation leaves the objects before it registered (c20_batch_refuted). Proved: single additions are atomic, a wrong class anywhere rejects the whole batch, and a batch of fresh names is added entirely.

### C21 Lookup by name returns the object registered under that name (partial)

* Theorems in `Props_Registry.v`: `c21_get_by_name`, `c21_get_all`, `c21_symbol_by_name`, `c21_all_symbols_refuted`, `c21_same_object_refuted`.
* Model: `M_Primitives.v`, `M_Utilities.v`, `M_Expand.v`, `M_Equations.v`, `M_Registry.v`.
* Proof: the registries are a state machine; each call refines an ordered-map specification, invariants over arbitrary histories.
* Refuted: get_symbol() without names raises in every model that has a parameter; get prefers variables, get_symbol parameters, when a name is shared. Proved: lookup by name for get and get_symbol, get() without names when variable and parameter names are disjoint, agreement when no unpacked name is shared.

### C22 A model is accepted exactly when it has as many equations as unknowns (partial)

* Theorems in `Props_Registry.v`: `c22_square_counts`, `c22_numeraire_refuted`, `c22_text_ignored_refuted`.
* Model: `M_Primitives.v`, `M_Utilities.v`, `M_Expand.v`, `M_Equations.v`, `M_Registry.v`.
* Proof: the registries are a state machine; each call refines an ordered-map specification, invariants over arbitrary histories.
* Refuted with a numeraire (it is still counted) and on the pytensor path (only equation names are counted). Proved for the sympy path: accepted iff the scalar counts of variables (numeraire included) and equations agree, otherwise ValueError.

### C23 The numeraire is removed from the unknowns (partial)

* Theorems in `Props_Registry.v`: `c23_numeraire_not_variable`, `c23_unpacked_refuted`.
* Model: `M_Primitives.v`, `M_Utilities.v`, `M_Expand.v`, `M_Equations.v`, `M_Registry.v`.
* Proof: the registries are a state machine; each call refines an ordered-map specification, invariants over arbitrary histories.
* Refuted: the numeraire stays among the unpacked variables and is not a parameter. Proved: it is removed from the packed variables, the order of the others kept, and get no longer finds it.

### C24 Initial states are accepted exactly when complete (proved)

* Theorems in `Props_Run.v`, `Props_Scenario.v`: `c24_simulate_refuses`, `c24_simulate_accepts`, `c24_initial_state_names`, `c24_right_names_accepted`.
* Model: `M_Primitives.v`, `M_Utilities.v`, `M_Simulate.v`, `M_SimResult.v`, `M_Build.v`, `M_Results.v`, `M_Solve.v`, `M_Run.v`, `M_ScenarioHeap.v`.
* Proof: case analysis over the validation steps; witnesses for the refutations.
* For the whole call of simulate (c24_simulate_refuses, c24_simulate_accepts) and for the stage that checks names (c24_initial_state_names, c24_right_names_accepted). Calls answered from a stored result return before the check; that is C28 and C94.

### C25 A simulation result carries the requested scenario in the right cells (proved)

* Theorems in `Props_ListArrays.v`, `Props_SimResult.v`: `c25_euler_refused`, `c25_optimizer_cells`, `c25_step_dimension_refuted`, `c25_euler_cells`.
* Model: `M_Primitives.v`, `M_Utilities.v`, `M_SimResult.v`.
* Proof: composition of C01-C03 with stacking and decoding.
* Dictionary initial state. c25_step_dimension_refuted shows why the restriction on a dimension called step is needed. Solver output is any vector of the right length. c25_euler_cells covers the Euler dataset built from one trajectory per object.

### C26 generate_SAM returns each variable's own solution and honours fixed values (partial)

* Theorems in `Props_SimResult.v`: `c26_no_fixed_values`, `c26_fixed_last`, `c26_fixed_not_returned_refuted`, `c26_misaligned_refuted`.
* Model: `M_Primitives.v`, `M_Utilities.v`, `M_SimResult.v`.
* Proof: composition of C01-C03 with stacking and decoding.
* Refuted with fixed values: the solver's vector covers all variables but is decoded over the free ones (c26_misaligned_refuted), and fixed variables are never returned. Proved without fixed values, and for the free variables when the fixed ones are declared last.

### C27 After NaNs, the optimizer starts from the last finite Euler step (partial)

* Theorems in `Props_SimResult.v`: `c27_nan_suffix`, `c27_gap_raises_refuted`, `c27_warning_refuted`.
* Model: `M_Primitives.v`, `M_Utilities.v`, `M_SimResult.v`.
* Proof: labels and positions of the finite steps, arithmetic on their maximum.
* Refuted: a finite step after a NaN step raises IndexError (c27_gap_raises_refuted), and on backends returning n+1 rows the warning is wrong both ways (c27_warning_refuted). Proved for NaNs forming a suffix, with the exact condition of the warning.

### C28 simulate returns results of the scenario it was given (partial)

* Theorems in `Props_Results.v`: `c28_fresh`, `c28_saved`, `c28_other_scenario_refuted`.
* Model: `M_Results.v`.
* Proof: a directory is a map from names to complete or cut files; invariants over histories of saves, and over the crash points of one save.
* Refuted as stated: with an existing file of the (scenario-independent) name, simulate without overwrite returns the stored result whatever the scenario (c28_other_scenario_refuted). Proved: with overwrite or without such a file the result is the one computed for this call (c28_fresh), and a saved result reads back (c28_saved).

### C29 Saving without overwrite never destroys results (proved)

* Theorems in `Props_Results.v`: `c29_terminates`, `c29_no_overwrite`, `c29_existing_files_kept`.
* Model: `M_Results.v`.
* Proof: a directory is a map from names to complete or cut files; invariants over histories of saves, and over the crash points of one save.
* First free name among stem.pkl, stem(1).pkl, ...; all other files unchanged; the loop ends. c29_existing_files_kept has no condition on the name.

### C30 Reading returns the most recently saved results (partial)

* Theorems in `Props_Results.v`: `c30_latest_without_overwrite`, `c30_latest_overwriting`, `c30_overwrite_after_suffix_refuted`, `c30_with_extension_refuted`, `c30_pkl_name_refuted`.
* Model: `M_Results.v`.
* Proof: a directory is a map from names to complete or cut files; invariants over histories of saves, and over the crash points of one save.
* Refuted for histories mixing overwrite=False and True (older suffix returned), for reading with the extension after a numbered save (first result returned) and for names ending in pkl without a dot. Proved for histories without overwrite and for histories always overwriting, interleaved with saves under unrelated names, reading by the bare name.

### C31 A crash while saving loses no earlier results (partial)

* Theorems in `Props_Results.v`: `c31_no_overwrite_keeps_files`, `c31_readable_by_file_name`, `c31_overwrite_refuted`, `c31_read_by_name_refuted`.
* Model: `M_Results.v`.
* Proof: a directory is a map from names to complete or cut files; invariants over histories of saves, and over the crash points of one save.
* Refuted: overwriting truncates the only copy (c31_overwrite_refuted), and a crash of a non-overwriting save leaves a partial file that reading by name picks (c31_read_by_name_refuted). Proved: without overwrite every existing file is kept at every crash point and a complete file can be read by its full name.

### C32 The equilibrium check decides on the sum of squared residuals and explains failures (partial)

* Theorems in `Props_SimResult.v`: `c32_decision`, `c32_explained`, `c32_unexplained_refuted`.
* Model: `M_Primitives.v`, `M_Utilities.v`, `M_SimResult.v`.
* Proof: inequalities between a sum of squares and its largest term.
* Over exact rationals. The decision and the exact list are proved as stated; 'lists at least one' is refuted (c32_unexplained_refuted) and proved when there are fewer than 1/tol residuals.

### C33 Wrapping a function for scipy and for pytensor are inverse (proved)

* Theorems in `Props_Wrappers.v`: `c33_own_array`, `c33_flat_round_trip`, `c33_keyword_round_trip`, `c33_no_parameters_refuted`.
* Model: `M_Primitives.v`, `M_Utilities.v`, `M_Wrappers.v`.
* Proof: composition of C01-C03.
* Both compositions; a model without parameters always raises (c33_no_parameters_refuted).

### C34 Hessian-vector products receive the right point and direction (proved)

* Theorems in `Props_Wrappers.v`: `c34_hessp_arguments`, `c34_flat_round_trip`, `c34_point_name_refuted`.
* Model: `M_Primitives.v`, `M_Utilities.v`, `M_Wrappers.v`.
* Proof: composition of C01-C03.
* c34_point_name_refuted shows a parameter called <variable>_point being overwritten.

### C35 Fixing variables restricts a function to the free ones (partial)

* Theorems in `Props_Wrappers.v`: `c35_unknown_rejected`, `c35_always_raises_refuted`, `c35_mask_keeps_fixed_refuted`, `c35_result_refuted`.
* Model: `M_Primitives.v`, `M_Utilities.v`, `M_Wrappers.v`.
* Proof: composition of C01-C03.
* Refuted: every call of the wrapped function raises (c35_always_raises_refuted), and the mask keeps the fixed entries instead of the free ones (c35_mask_keeps_fixed_refuted; c35_result_refuted for rows and columns of any call that returns). Proved: unknown names are rejected, and only those.

### C36 Euler trajectories are cut into the right variables (proved)

* Theorems in `Props_Wrappers.v`: `c36_trajectory_cut`, `c36_empty_dimension_refuted`.
* Model: `M_Primitives.v`, `M_Utilities.v`, `M_Wrappers.v`.
* Proof: composition of C01-C03.
* An empty dimension raises (c36_empty_dimension_refuted).

### C37 The Euler path of the parameters is the straight line to the scenario (proved)

* Theorems in `Props_Euler.v`: `c37_line`.
* Model: `M_Primitives.v`, `M_Utilities.v`, `M_Wrappers.v`, `M_Euler.v`.
* Proof: the four implementations are reduced to one flat iteration (`S_Euler`); induction over the steps, polynomial identities for RK4.
* All four implementations (numba, jax and pytensor loops, pytensor scan), Euler and RK4 where offered; exact real arithmetic. Names that clash with the generated _initial/_final/n_steps keywords are excluded by the quantifier and make the loops raise (c40_keyword_clash_refuted).

### C38 Euler steps stay in equilibrium for linear models (proved)

* Theorems in `Props_Euler.v`: `c38_affine`.
* Model: `M_Primitives.v`, `M_Utilities.v`, `M_Wrappers.v`, `M_Euler.v`.
* Proof: the four implementations are reduced to one flat iteration (`S_Euler`); induction over the steps, polynomial identities for RK4.
* All implementations, Euler and RK4; the linear solver is an argument that solves systems with the model's matrix.

### C39 No shock, no change (proved)

* Theorems in `Props_Euler.v`: `c39_no_shock`.
* Model: `M_Primitives.v`, `M_Utilities.v`, `M_Wrappers.v`, `M_Euler.v`.
* Proof: the four implementations are reduced to one flat iteration (`S_Euler`); induction over the steps, polynomial identities for RK4.
* All implementations, Euler and RK4, any n including 0 (no returned rows in the loops).

### C40 All Euler backends return the same trajectory (partial)

* Theorems in `Props_Euler.v`: `c40_numba_scan`, `c40_python_shifted`, `c40_labels_refuted`, `c40_keyword_clash_refuted`, `c40_scan_unreachable`.
* Model: `M_Primitives.v`, `M_Utilities.v`, `M_Wrappers.v`, `M_Euler.v`.
* Proof: the four implementations are reduced to one flat iteration (`S_Euler`); induction over the steps, polynomial identities for RK4.
* Refuted as stated: the python loops drop the initial state, so their labels are one less for every model (c40_labels_refuted), they raise when a parameter's name is another's plus _final (c40_keyword_clash_refuted), and the scan is compiled with a keyword it does not accept (c40_scan_unreachable). Proved: numba and scan return identical arrays; loop row t is scan row t+1.

### C41 Internal symbols of the numba Euler step do not capture user names (partial)

* Theorems in `Props_NumbaStep.v`: `c41_step`, `c41_name_capture_refuted`, `c41_reserved_name_refuted`.
* Model: `M_SymExpr.v`, `M_Calculus.v`, `M_Lambdify.v`, `M_NumbaStep.v`.
* Proof: renaming substitution does not capture when no name extends another by _0; the generated locals are shown to hold the right numbers.
* Proved when no name is another name plus _0, all names are Python identifiers, and no parameter is called exog_inputs, endog_inputs, np or len; for every sp.cse that keeps values. Refuted otherwise: a parameter X_0 beside a variable X gets the value of X instead of its step, and a parameter called exog_inputs raises TypeError.

### C42 The RK4 step is a consistent refinement of the Euler step (proved)

* Theorems in `Props_Euler.v`: `c42_combination`, `c42_constant_slope`, `c42_polynomial_path`, `c42_polynomial_run`, `c42_degree_five_refuted`, `c42_refused`.
* Model: `M_Primitives.v`, `M_Utilities.v`, `M_Wrappers.v`, `M_Euler.v`.
* Proof: the four implementations are reduced to one flat iteration (`S_Euler`); induction over the steps, polynomial identities for RK4.
* c42_degree_five_refuted shows that degree four is the best possible; numba and pytensor loops refuse RK4 (c42_refused).

### C43 Newton reports convergence only at a root (proved)

* Theorems in `Props_Newton.v`: `c43_success_is_root`, `c43_empty_parameters_refuted`, `c43_empty_parameters_state`.
* Model: `M_Euler.v`, `M_Newton.v`.
* Proof: the scan body as a transition system; invariants over iterations.
* parameters={} is excluded by the quantifier: args[-0:] then passes every scan argument to the residual function, which raises (c43_empty_parameters_refuted).

### C44 Newton never moves to a worse point (proved)

* Theorems in `Props_Newton.v`: `c44_monotone`, `c44_never_worse`, `c44_step_sizes`.
* Model: `M_Euler.v`, `M_Newton.v`.
* Proof: the scan body as a transition system; invariants over iterations.
* Exact real arithmetic.

### C45 Newton stops changing once converged and counts its work (proved)

* Theorems in `Props_Newton.v`: `c45_frozen`, `c45_count`.
* Model: `M_Euler.v`, `M_Newton.v`.
* Proof: the scan body as a transition system; invariants over iterations.
* The count is the number of iterations that ended unconverged; they come first.

### C46 Newton solves linear systems in one step (proved)

* Theorems in `Props_Newton.v`: `c46_affine`.
* Model: `M_Euler.v`, `M_Newton.v`.
* Proof: the scan body as a transition system; invariants over iterations.
* tol > 0; any linear solver that solves systems with the system's matrix.

### C47 Sums and products over an index run over that index's labels (partial)

* Theorems in `Props_Reduce.v`: `c47_value`, `c47_numeral_labels_refuted`, `c47_fixed_index_refuted`.
* Model: `M_SymExpr.v`.
* Proof: denotational semantics of expressions (`S_Reduce`); `doit` and the label substitution keep the value; exhaustive refutation for the four nestings.
* Proved for reductions that are not nested and labels that are not numerals. Refuted for numeral labels (the position is substituted twice) and for a fixed label inside a reduction (KeyError).

### C48 Nested reductions are fully expanded (partial)

* Theorems in `Props_Reduce.v`: `c48_refuted`.
* Model: `M_SymExpr.v`.
* Proof: denotational semantics of expressions (`S_Reduce`); `doit` and the label substitution keep the value; exhaustive refutation for the four nestings.
* Refuted: for each of the four nestings of a sum or product in another, every visiting order and every substitution rule, the result is an error or still contains a reduction or a bare position.

### C49 The sparse Jacobian equals the dense Jacobian (proved)

* Theorems in `Props_Calculus.v`: `c49_same_matrix`, `c49_shapes_refuted`.
* Model: `M_SymExpr.v`, `M_Calculus.v`.
* Proof: structural induction on expressions; derivatives are the standard library derivable_pt_lim.
* For a non-empty list or column and at least one variable. For other shapes the two functions disagree (c49_shapes_refuted): a row matrix is accepted by the dense one and rejected by the sparse one, an empty list of variables the other way round.

### C50 The symbolic derivatives handed to the compilers are the derivatives of the residuals (proved)

* Theorems in `Props_Calculus.v`: `c50_jacobian`, `c50_gradient`, `c50_hessian`, `c50_hessp`.
* Model: `M_SymExpr.v`, `M_Calculus.v`.
* Proof: structural induction on expressions; derivatives are the standard library derivable_pt_lim.
* For the symbolic path (make_sympy_*, squared loss); pytensor.grad is external and not modelled.

### C51 Recursive calibration returns values that satisfy the equations (partial)

* Theorems in `Props_Recursive.v`: `c51_solution`, `c51_initial_kept`, `c51_stuck`, `c51_no_solution_refuted`, `c51_contradiction_refuted`, `c51_overwritten_refuted`, `c51_early_stop_refuted`.
* Model: `M_SymExpr.v`, `M_Calculus.v`, `M_Recursive.v`.
* Proof: invariant over passes with the solver as an argument.
* Proved: initial values are kept; if the first answers of sp.solve are the values of one solution of the system, a returned result satisfies every equation; a ValueError with enough iterations and another count of known values means every remaining equation has two unknowns. Refuted in general: an equation without solution is answered by 0, contradicted data are not noticed, two equations of one pass overwrite each other, and a solvable system is given up when the number of known values happens to equal the number of equations.

### C52 Scalar symbols are mapped to their own element of the packed arrays (proved)

* Theorems in `Props_Graph.v`: `c52_packed_value`.
* Model: `M_Primitives.v`, `M_Utilities.v`, `M_Expand.v`, `M_Equations.v`, `M_Registry.v`, `M_Graph.v`.
* Proof: C03 and C13 for the index; list inclusion for the validation.
* Graph replacement is modelled as reading the indexed element of the packed array.

### C53 Models whose declared inputs differ from the used inputs are rejected (proved)

* Theorems in `Props_Graph.v`: `c53_accepts_iff`, `c53_pt_rejected`.
* Model: `M_Primitives.v`, `M_Utilities.v`, `M_Expand.v`, `M_Equations.v`, `M_Registry.v`, `M_Graph.v`.
* Proof: C03 and C13 for the index; list inclusion for the validation.
* eval is modelled by the names an expression uses; an object called pt makes every model invalid (c53_pt_rejected).

### C54 Equations written with '=' become left minus right (partial)

* Theorems in `Props_Parsing.v`: `c54_grammar`, `c54_difference`, `c54_unchanged`, `c54_ravel`, `c54_keywords_refuted`, `c54_spaced_axis_refuted`.
* Model: `M_PyExpr.v`.
* Proof: the generated strings are tokenised and parsed by a model of the Python grammar; the resulting trees are evaluated over the reals; economic claims are real analysis (weighted AM-GM and convexity inequalities).
* Difference (syntax tree and value) proved for every left and right side of the modelled Python grammar; equations whose only '=' are axis= unchanged; the parser of the model accepts exactly the strings of the grammar (c54_grammar); the ravel wrapper applies to the whole equation (c54_ravel). Refuted: keyword arguments other than axis, and axis followed by a space, are split at (c54_keywords_refuted, c54_spaced_axis_refuted).

### C55 Cobb-Douglas equations describe a Cobb-Douglas producer (partial)

* Theorems in `Props_Production.v`: `c55_meaning`, `c55_zero_profit`, `c55_unit_cost`, `c55_minimises`, `c55_closures_partial`, `c55_closures_refuted`.
* Model: `M_PyExpr.v`, `M_Production.v`.
* Proof: the generated strings are tokenised and parsed by a model of the Python grammar; the resulting trees are evaluated over the reals; economic claims are real analysis (weighted AM-GM and convexity inequalities).
* Meaning of the equations, zero profit, unit cost and cost minimisation proved for every number of factors. Refuted: the two closures do not admit the same solutions; with shares summing to one the value definition follows from the demands and leaves output free (c55_closures_refuted). The production form implies the value form (c55_closures_partial).

### C56 CES equations describe a CES producer (proved)

* Theorems in `Props_Production.v`: `c56_equivalent`, `c56_minimises`.
* Model: `M_PyExpr.v`, `M_Production.v`.
* Proof: the generated strings are tokenised and parsed by a model of the Python grammar; the resulting trees are evaluated over the reals; economic claims are real analysis (weighted AM-GM and convexity inequalities).
* For scalar equations (expand_price_dim None), arguments written as units; additionally cost minimisation for positive elasticities. Powers have a value for positive bases only.

### C57 Leontief equations describe a Leontief producer (partial)

* Theorems in `Props_ProdTensor.v`, `Props_Production.v`: `c57_pytensor`, `c57_pytensor_default_refuted`, `c57_one_dim`, `c57_two_dims`, `c57_default_refuted`.
* Model: `M_Primitives.v`, `M_PyExpr.v`, `M_Production.v`, `M_Tensor.v`.
* Proof: the generated strings are tokenised and parsed by a model of the Python grammar; the resulting trees are evaluated over the reals; economic claims are real analysis (weighted AM-GM and convexity inequalities).
* One dimension: proved for every number of factors. Two dimensions: proved with the numba backend when output and its price do not vary along the summed dimension, and with the pytensor backend (residuals of the array equations, c57_pytensor) when the summed dimension is the first. Refuted for the default arguments with outputs along the second dimension as documented, for both backends (c57_default_refuted, c57_pytensor_default_refuted).

### C58 Dixit-Stiglitz equations describe a Dixit-Stiglitz aggregator (partial)

* Theorems in `Props_ProdTensor.v`, `Props_Production.v`: `c58_pytensor`, `c58_pytensor_minimises`, `c58_meaning`, `c58_minimises`, `c58_without_tfp`, `c58_tfp_refuted`, `c58_default_refuted`.
* Model: `M_Primitives.v`, `M_PyExpr.v`, `M_Production.v`, `M_Tensor.v`.
* Proof: the generated strings are tokenised and parsed by a model of the Python grammar; the resulting trees are evaluated over the reals; economic claims are real analysis (weighted AM-GM and convexity inequalities).
* With TFP given: meaning, zero profit and cost minimisation proved for every number of varieties, with the numba backend for the production definition and with the pytensor backend for both definitions (c58_pytensor, c58_pytensor_minimises). Refuted: without TFP the demand is the reciprocal power (c58_without_tfp, c58_tfp_refuted); the default value definition with the numba backend has no value (c58_default_refuted).

### C59 Production-function arguments are checked and left alone (partial)

* Theorems in `Props_Production.v`: `c59_accepts`, `c59_equations`, `c59_expand`, `c59_inferred`, `c59_inferred_refuted`, `c59_unmodified`, `c59_mutation_refuted`, `c59_shared_list_refuted`, `c59_again`, `c59_string_refuted`, `c59_leontief`, `c59_dixit_stiglitz`.
* Model: `M_PyExpr.v`, `M_Production.v`.
* Proof: the generated strings are tokenised and parsed by a model of the Python grammar; the resulting trees are evaluated over the reals; economic claims are real analysis (weighted AM-GM and convexity inequalities).
* Accepted lengths characterised for all four generators, equations the same when called again, argument unmodified outside one case. Refuted: one share of two given as a list is appended to in the caller's list (c59_mutation_refuted, c59_shared_list_refuted); the last share of three or more is not inferred (c59_inferred_refuted); a single factor given as a string is taken apart (c59_string_refuted).

### C60 Expression arguments are substituted as units (partial)

* Theorems in `Props_Production.v`: `c60_cobb_douglass`, `c60_CES`, `c60_leontief`, `c60_output_refuted`, `c60_share_refuted`, `c60_coefficient_refuted`.
* Model: `M_PyExpr.v`, `M_Production.v`.
* Proof: the generated strings are tokenised and parsed by a model of the Python grammar; the resulting trees are evaluated over the reals; economic claims are real analysis (weighted AM-GM and convexity inequalities).
* Proved for arguments that are units (names, numbers, calls, parenthesised expressions) and for arbitrary expressions as shares of Cobb-Douglas and CES and as the output price of Leontief. Refuted for sums in other positions (c60_output_refuted, c60_share_refuted, c60_coefficient_refuted).

### C61 The SAM transform is undone by its inverse (partial)

* Theorems in `Props_Rebalance.v`: `c61_round_trip`, `c61_transposed_refuted`, `c61_diagonal_refuted`, `c61_unfitted`.
* Model: `M_Euler.v`, `M_Newton.v`, `M_Rebalance.v`.
* Proof: cell-wise reasoning over matrices.
* Refuted as stated: a nonzero cell opposite a negative cell is lost, and so is a negative diagonal cell. Proved when every negative cell is off the diagonal and the opposite cell is zero.

### C62 Rebalancing yields a balanced SAM with the original zero pattern (proved)

* Theorems in `Props_Rebalance.v`: `c62_balanced`, `c62_two_way_refuted`.
* Model: `M_Euler.v`, `M_Newton.v`, `M_Rebalance.v`.
* Proof: cell-wise reasoning over matrices.
* Both optimizer paths; the optimizer is an argument. Also proved: with two opposite negative cells a feasible point gives an unbalanced SAM.

### C63 Nonzero cells are gathered and scattered consistently (proved)

* Theorems in `Props_Rebalance.v`: `c63_sparse`, `c63_mask`, `c63_mask_negative_refuted`.
* Model: `M_Euler.v`, `M_Newton.v`, `M_Rebalance.v`.
* Proof: cell-wise reasoning over matrices.
* Also proved: the mask (values > 0) drops negative cells, so it does not restore a matrix that has one.

### C64 A balanced SAM is already a solution of the rebalancing problem (proved)

* Theorems in `Props_Rebalance.v`: `c64_feasible`, `c64_negative_refuted`.
* Model: `M_Euler.v`, `M_Newton.v`, `M_Rebalance.v`.
* Proof: cell-wise reasoning over matrices.
* Also proved: a balanced SAM with a negative cell violates the constraint that the values sum to 1.

### C65 Plot grids have one cell per plot (proved)

* Theorems in `Props_Plotting.v`: `c65_grid`.
* Model: `M_Newton.v`, `M_Plotting.v`.
* Proof: integer division and disjointness of slices.
* for all n_cols and n_plots >= 1

### C66 Table headings align with table columns (partial)

* Theorems in `Props_Output.v`: `c66_headings`, `c66_table`, `c66_three_levels`, `c66_three_levels_refuted`, `c66_uneven_refuted`.
* Model: `M_Output.v`.
* Proof: induction over heading trees of depth two; witnesses for deeper ones.
* proved for tables of at most two levels (headings aligned, data columns in order); for three levels the rows below the first are always aligned and the first row exactly when, under every top entry, the groups have two columns on average; refuted for three levels in general and for columns of uneven depth (compute_padding counts inner nodes)

### C67 Bar data are the stated metrics (partial)

* Theorems in `Props_Plotting.v`: `c67_metrics`, `c67_negative_refuted`.
* Model: `M_Newton.v`, `M_Plotting.v`.
* Proof: pointwise list reasoning.
* proved for every metric with the code's meaning of non-negligible (initial value above the threshold); refuted for negative initial values, whose relative change is drawn as 0

### C68 Areas in a plot carry their own label (partial)

* Theorems in `Props_Plotting.v`: `c68_one_dim`, `c68_two_variables_refuted`, `c68_two_dims_refuted`.
* Model: `M_Newton.v`, `M_Plotting.v`.
* Proof: pointwise list reasoning.
* proved for one variable with one dim; refuted for two variables (the second has no labels) and for two dims (labels are concatenated, not combined)

### C69 Requested functions, and only those, are compiled (partial)

* Theorems in `Props_Build.v`: `c69_exact`, `c69_unknown_backend`, `c69_backend`, `c69_product_refuted`, `c69_dict_refuted`, `c69_all_list_refuted`.
* Model: `M_Build.v`.
* Proof: case analysis over requests and backends.
* proved for every backend and request without Euler options, and for the default backend of every list of equations; refuted: sympy's Product( is not seen as a reduction, a dict of equations raises AttributeError, a list holding all compiles nothing

### C70 A model that was never compiled can still be simulated (partial)

* Theorems in `Props_Build.v`: `c70_uncompiled_refuted`, `c70_none_request_refuted`, `c70_false_request_refuted`, `c70_missing_euler_refuted`, `c70_compiled`.
* Model: `M_Build.v`.
* Proof: case analysis over requests and backends.
* refuted: simulate and calibrate on an uncompiled model call the missing method _compile; a missing Euler function is called as None. Proved: when everything needed was requested simulate and calibrate find their functions, and missing optimizer functions raise ValueError compile=False leaves _compiled = [False], which counts as compiled: simulate with Euler and calibrate then call None (c70_false_request_refuted).

### C71 Generated numba source means the expression (partial)

* Theorems in `Props_NumbaSource.v`: `c71_items`, `c71_indices`, `c71_two_indices_refuted`, `c71_max_partial`, `c71_max_refuted`.
* Model: `M_NumbaSource.v`.
* Proof: induction over the source text with the character before as state.
* Literals, names and single integer subscripts survive the rewriting of every (ASCII) source text. Refuted for a subscript with several integers (the first 0 stays 0.0) and for Max of three or more arguments (numpy.maximum raises). Max of two arguments is proved; Min is not overridden by this code.

### C72 The requested Euler scheme is compiled (partial)

* Theorems in `Props_Build.v`: `c72_rk4`, `c72_numba_refuted`, `c72_scan_refuted`.
* Model: `M_Build.v`.
* Proof: case analysis over requests and backends.
* proved for every backend but numba: a successful use_rk4 compilation uses RK4; refuted: numba ignores use_rk4, and use_scan_euler fails to compile on both pytensor backends

### C73 Scalar residuals mean the written equation (proved)

* Theorems in `Props_Simplify.v`: `c73_value`, `c73_accepted`, `c73_view`, `c73_collision_refuted`.
* Model: `M_Primitives.v`, `M_Expand.v`, `M_SymExpr.v`, `M_Simplify.v`.
* Proof: composition of C47 with label substitution and the dict of scalar symbols; replacing a key by a symbol of equal value keeps the denotation, strictness of the denotation shows that every leaf is a declared element.
* Proved for flat reductions, non-numeral labels and distinct unpacked names. When the names collide (array X with label a beside a scalar X_a, which no check refuses) the residual of X[a] = X_a is identically 0 (c73_collision_refuted). Nested reductions are the subject of C48.

### C74 The numeraire is fixed at one in every equation (partial)

* Theorems in `Props_Simplify.v`: `c74_scalar`, `c74_normalisation`, `c74_indexed_refuted`, `c74_indexed_own`.
* Model: `M_Primitives.v`, `M_Expand.v`, `M_SymExpr.v`, `M_Simplify.v`.
* Proof: composition of C47 with label substitution and the dict of scalar symbols; replacing a key by a symbol of equal value keeps the denotation, strictness of the denotation shows that every leaf is a declared element.
* Proved for scalar numeraires in all equations and for numeraires with dims in equations without reductions, at their own indices. Refuted for a numeraire with dims inside a reduction over its index, where it is not replaced. An equation that only says numeraire = 1 is refused with ValueError. Without sympy parsing the equation text is not changed at all (base/cge.py:451-452).

### C75 Derivatives are put in the column of their own element (proved)

* Theorems in `Props_Jacobian.v`: `c75_jacobian`, `c75_gradient`, `c75_numba`, `c75_backends_agree`.
* Model: `M_Primitives.v`, `M_Utilities.v`, `M_Expand.v`, `M_SymExpr.v`, `M_Calculus.v`, `M_Euler.v`, `M_Jacobian.v`.
* Proof: every matrix is brought to the form of one row per equation, a concatenation of blocks of equal length; positions are a bijection between elements and columns.
* pytensor is represented by the derivative of each output in each element; the theorems say where the code puts it. n_eq = 0 and an empty list of arrays are excluded (both raise).

### C76 Jacobian-vector products agree with the Jacobian (partial)

* Theorems in `Props_Jacobian.v`: `c76_step_product`, `c76_hessp`, `c76_symmetric`, `c76_given_direction_refuted`.
* Model: `M_Primitives.v`, `M_Utilities.v`, `M_Expand.v`, `M_SymExpr.v`, `M_Calculus.v`, `M_Euler.v`, `M_Jacobian.v`.
* Proof: every matrix is brought to the form of one row per equation, a concatenation of blocks of equal length; positions are a bijection between elements and columns.
* Proved: the two ways to compute the step product agree and equal the first-order change; the Hessian-vector product is the transposed Hessian times the direction, hence the Hessian times the direction for symmetric second derivatives. Refuted: make_jvp with an explicit direction raises UnboundLocalError for every input (compile/pytensor.py:98-106).

### C77 One Euler step solves the linearised model (proved)

* Theorems in `Props_Jacobian.v`: `c77_linearised`.
* Model: `M_Primitives.v`, `M_Utilities.v`, `M_Expand.v`, `M_SymExpr.v`, `M_Calculus.v`, `M_Euler.v`, `M_Jacobian.v`.
* Proof: every matrix is brought to the form of one row per equation, a concatenation of blocks of equal length; positions are a bijection between elements and columns.
* Exact real arithmetic; the linear solver is an argument assumed to solve the systems it is given. Regularity of the Jacobian is implied by that assumption.

### C78 Index enumeration gives every instance (proved)

* Theorems in `Props_Indices.v`: `c78_exactly_the_instances`, `c78_enumerate`, `c78_order`, `c78_length`, `c78_same_labels_refuted`.
* Model: `M_Primitives.v`, `M_Expand.v`, `M_Indices.v`.
* Proof: induction over the indices; one level of expansion is a flat map of instances, and distinctness of the final instances implies distinctness at every level.
* has, subs and == of sympy are arguments. Without distinct instances the documented length is wrong: x[i] and x[j] over the same labels give 2, not 4 (c78_same_labels_refuted).

### C79 One name per indexed element (proved)

* Theorems in `Props_Indices.v`: `c79_name`, `c79_one_name`, `c79_distinct`, `c79_spaces_refuted`, `c79_collision_refuted`, `c79_scalar`.
* Model: `M_Primitives.v`, `M_Expand.v`, `M_Indices.v`.
* Proof: replacement of one character distributes over concatenation; a name splits at the first underscore after its base.
* The quantifier excludes labels with spaces (the space is dropped, so the symbol differs from that of the unpacked variable: c79_spaces_refuted) and labels with underscores for distinctness (x[a_b] and x[a, b] collide: c79_collision_refuted).

### C80 Compiled numba functions evaluate the model at the flat vectors (proved)

* Theorems in `Props_Lambdify.v`: `c80_system`, `c80_jacobian`, `c80_loss`, `c80_hessian`, `c80_syntax_refuted`, `c80_len_refuted`.
* Model: `M_SymExpr.v`, `M_Calculus.v`, `M_Lambdify.v`, `M_Primitives.v`, `M_Expand.v`.
* Proof: the generated function is run statement by statement: unpacking stores each entry under its name, the named sub-expressions keep the values by the contract of sp.cse; derivatives come from C50.
* For every sp.cse that keeps values and names its sub-expressions with fresh numbered symbols. Outside the quantifier the claim is false: a label with a space gives a name that is not an identifier and compilation raises SyntaxError, and a variable called len makes every call fail. That numba accepts the list of numbers and one array passed by f_hessp is not modelled.

### C81 Numba functions return the residuals of the written equations (proved)

* Theorems in `Props_NumbaModel.v`: `c81_system`, `c81_jacobian`, `c81_gradient`.
* Model: `M_Primitives.v`, `M_Utilities.v`, `M_Expand.v`, `M_SymExpr.v`, `M_Calculus.v`, `M_Simplify.v`, `M_Lambdify.v`, `M_NumbaModel.v`.
* Proof: C73 gives a scalar residual for every combination of labels, C13 and C03 give the name and place of every element in the flat vectors, so that the state that the generated function unpacks is the scalar view of the data; C80 then evaluates and differentiates the scalar residuals. A change of one element changes one name because names are distinct.
* From the written equations and the arrays of data to the numbers returned, for the functions asked for by root and minimize (f_hess and f_hessp are C80, f_euler C41). Smoothness is required of the scalar residual that equation_symbols returns. The dict of unpacked equations is taken to have distinct names (C19). Without the conditions on names see the refutations of C80 and C73.

### C82 Array equations mean their index equations (proved)

* Theorems in `Props_Tensor.v`: `c82_system`, `c82_shared`, `c82_solutions`, `c82_alignment_refuted`, `c82_cross_refuted`.
* Model: `M_Primitives.v`, `M_PyExpr.v`, `M_Tensor.v`.
* Proof: induction over the reading of an array expression: an array realises an index expression if its shape is the list of sizes and its element at every position is the value; broadcasting, indexing and reduction preserve this. For arithmetic with dims that are suffixes of one list the join of two lists is the longer one.
* The array operations of pytensor (broadcasting, indexing, reductions) are modelled on lists of numbers; numbers follow real arithmetic where it is defined. All residuals are zero just when every index equation holds (c82_solutions). What happens when dims do not line up but have equal lengths: another equation is compiled without an error (c82_alignment_refuted, c82_cross_refuted).

### C83 Unpacked string inputs (partial)

* Theorems in `Props_ProdTensor.v`: `c83_names`, `c83_missing`, `c83_lists`, `c83_singleton_refuted`, `c83_mixed_refuted`.
* Model: `M_Primitives.v`, `M_PyExpr.v`, `M_Production.v`, `M_Tensor.v`.
* Proof: the product of the label lists is indexed by the row-major offset; joining with underscores is a fold that appends one label at a time.
* Strings (and lists of one name) and missing dims: proved as stated; lists of two or more names, or of none, come back unchanged when all inputs are such lists. Refuted: a list of one name is treated as a string and expanded (c83_singleton_refuted); a list next to a string raises TypeError (c83_mixed_refuted).

### C84 Derivatives of the array backends (proved)

* Theorems in `Props_ArrayModel.v`: `c84_shared`, `c84_jacobian`, `c84_gradient`, `c84_hessian`, `c84_hessp`, `c84_pytensor_jacobian`, `c84_pytensor_gradient`, `c84_pytensor_hessian`.
* Model: `M_Primitives.v`, `M_PyExpr.v`, `M_Wrappers.v`, `M_Tensor.v`, `M_ArrayModel.v`.
* Proof: C82 gives the residuals at every flat vector; the residual function is therefore equal near the point to the function that the backend differentiates, and derivatives depend on values nearby only. Sums of squares and products are differentiated by the rules of the real numbers library; C75 gives the places.
* The differentiation rules of jax and pytensor are parameters, required to be exact (such functions exist: c84_exact_ex). f_euler is C41, C42 and C77. pytensor functions are modelled on flat vectors. With pytensor, f_hessp multiplies by the transposed Hessian, which is the Hessian when second derivatives commute (C76).

### C85 Functions of the sympytensor backend (proved)

* Theorems in `Props_SympyTensor.v`: `c85_system`, `c85_jacobian`, `c85_gradient`, `c85_hessian`, `c85_unused`, `c85_numeraire_refuted`.
* Model: `M_Primitives.v`, `M_Utilities.v`, `M_Expand.v`, `M_SymExpr.v`, `M_Calculus.v`, `M_Simplify.v`, `M_Lambdify.v`, `M_NumbaModel.v`, `M_SympyTensor.v`.
* Proof: the replacement of C52 gives every symbol of the scalar equations its element of the flat vector, so that graphs evaluate to the expressions of C79 and C81; a tensor is an input of the graph exactly if one of its elements is a symbol of an equation, which decides the validation; second derivatives by C50.
* as_tensor and the graph rewrites of pytensor are taken to preserve values. Sparse Jacobians and f_euler are elsewhere (C50, C41). With a numeraire the claim fails: the numeraire is deleted from the packed variables but not from the unpacked ones, so that f_jac has a column (of zeros) for a variable that is not an argument (c85_numeraire_refuted).

### C86 Calibration by recursive solution (partial)

* Theorems in `Props_Calibrate.v`: `c86_result`, `c86_success`, `c86_benchmark`, `c86_unknown_name`, `c86_needs`, `c86_backend_refuted`, `c86_nan_refuted`, `c86_residuals`, `c86_simulate`, `c86_dims_refuted`.
* Model: `M_Primitives.v`, `M_Utilities.v`, `M_Simulate.v`, `M_SymExpr.v`, `M_Calculus.v`, `M_Lambdify.v`, `M_Recursive.v`, `M_Build.v`, `M_Calibrate.v`, `M_Expand.v`.
* Proof: inversion of the run gives the solved dictionary of C51 and the two vectors read from it; the two halves of the fitted vector are the arguments of the error function, which reads the same table as to_dict. Whether every symbol has a number is decidable, so success is compared in both cases.
* Refuted in two places. Only the numba functions accept the positional call f_resid(x0, theta0): functions compiled by pytensor or sympytensor take one argument per object and those of jax keywords only, so calibrate raises TypeError after solving (c86_backend_refuted; with pytensor equations NotImplementedError before). The fitted values are named by scalar names, so simulate refuses them with ValueError as soon as one object has dims (c86_dims_refuted). success can be true although objects that no equation mentions are nan (c86_nan_refuted). The rest is proved.

### C87 Tables of a model (partial)

* Theorems in `Props_Tables.v`: `c87_summary`, `c87_unknown`, `c87_dims_refuted`, `c87_shared_refuted`, `c87_equations`, `c87_plain_refuted`, `c87_short_values_refuted`, `c87_plain_rows`, `c87_unsupported`.
* Model: `M_Primitives.v`, `M_Expand.v`, `M_SymExpr.v`, `M_Calibrate.v`, `M_Output.v`, `M_Tables.v`.
* Proof: the dictionary built by summary has two levels, so that C66 gives the columns and headings of the table; a row is the list of the elements of the columns at one position. C15 gives the text without markers.
* The claim fails for the results that calibrate returns as soon as an object has dims: results are indexed by scalar names, and summary looks up the name of the object, KeyError (c87_dims_refuted). A variable and a parameter of one name are both shown as the parameter (c87_shared_refuted). equation_table raises AttributeError for models that keep their equations as text (c87_plain_refuted). make_summary_table drops the objects beyond the number of values given (c87_short_values_refuted). The rest is proved. The drawing of the table by Texttable and latextable and the replacement of tabular by array are not modelled.

### C88 Collecting a calibration (partial)

* Theorems in `Props_Finalize.v`: `c88_collected`, `c88_usable`, `c88_wrong_shape_refuted`, `c88_missing_refuted`, `c88_unknown`, `c88_initialize`.
* Model: `M_Primitives.v`, `M_Utilities.v`, `M_Registry.v`, `M_Finalize.v`.
* Proof: the loop appends the entry and the messages of each object, so the result is the concatenation over the sorted objects; insertion sort gives a permutation in strictly increasing order as names are distinct. C01 gives the round trip.
* Nothing is refused: an array of the wrong shape is only reported and returned unchanged (c88_wrong_shape_refuted), and a missing value is only reported, so that the flattening of the result raises KeyError (c88_missing_refuted). An object named _ is never collected. The rest is proved.

### C89 Progress statistics of the Euler loop (partial)

* Theorems in `Props_Stats.v`: `c89_statistics`, `c89_rmse_refuted`, `c89_gradient_only_refuted`, `c89_empty_refuted`.
* Model: `M_Stats.v`.
* Proof: the divisor is min(1, n), which is 1 as soon as there is an error, so the field is the sum of the squares.
* The field called RMSE is the sum of squared errors, neither averaged nor rooted: it is the root mean square r only if r = 0 or n r = 1 (c89_rmse_refuted), and nan without equations (c89_empty_refuted). With a gradient but no system the format asks for a field that is absent (c89_gradient_only_refuted). What is returned is proved.

### C90 Greek letters in printed names (partial)

* Theorems in `Props_Greek.v`: `c90_escaped`, `c90_idempotent`, `c90_unchanged`, `c90_longer_word_refuted`, `c90_braces_refuted`, `c90_capitals`.
* Model: `M_Greek.v`.
* Proof: the substitution scans once from the left; letter names contain no mark, so no match can begin inside another, and the position of the backslashes does not depend on which alternative matches.
* A longer word that begins with the name of a letter gets a backslash and is an undefined macro, Piped becomes \Piped (c90_longer_word_refuted), and a letter after _{ is not escaped (c90_braces_refuted). The placement of the backslashes and idempotence are proved.

### C91 Data shown by plot_lines and plot_bar (partial)

* Theorems in `Props_PlotLines.v`: `c91_lines`, `c91_missing_group`, `c91_initial_refuted`, `c91_no_variables_refuted`, `c91_bars`, `c91_bars_all_refuted`, `c91_bars_scalar_refuted`.
* Model: `M_Newton.v`, `M_Plotting.v`, `M_PlotLines.v`.
* Proof: C65 gives one place per plot; the element at row-major position j of step k is entry k m + j of the data, which is what the lines, stars and bars read.
* plot_lines ignores the initial values passed to it (c91_initial_refuted) and fails with ZeroDivisionError for an empty list (c91_no_variables_refuted). plot_bar without var_names raises KeyError instead of plotting all variables (c91_bars_all_refuted), and for a variable without dims AttributeError (c91_bars_scalar_refuted). The rest is proved; selection by coords and groups are C97, plotting together is C100; colours are not modelled.

### C92 What simulate solves and returns (partial)

* Theorems in `Props_Solve.v`: `c92_root`, `c92_minimize`, `c92_mode`, `c92_euler_only`, `c92_equilibrium`, `c92_result_refuted`, `c92_dataset_refuted`, `c92_unchecked_refuted`.
* Model: `M_Primitives.v`, `M_Utilities.v`, `M_Wrappers.v`, `M_Simulate.v`, `M_SimResult.v`, `M_Build.v`, `M_Solve.v`.
* Proof: the dictionary a wrapped function gets is a state with the given vectors (from C33, C34), flattening a state gives its vectors back (C31), the rows kept after dropna are a prefix of the trajectory, and stacking the two states gives rows 0 and 1. Solver, Euler function and compiled functions are universally quantified.
* The docstring says that the initial state is checked to be an equilibrium and an error raised otherwise: it is not checked (c92_unchecked_refuted). A Result as initial state fails after solving, since it cannot be subscripted (c92_result_refuted); an xarray Dataset fails at once, since it has no attribute parameters (c92_dataset_refuted). Everything else is proved, with the solvers as arbitrary functions of the problem they are given. c92_mode: a Mode object is never equal to the string JAX, so the wrapped functions are used for every pytensor model.

### C93 A solved simulation satisfies the written equations (proved)

* Theorems in `Props_Solved.v`, `Props_Solved2.v`: `c93_sympytensor`, `c93_numba`, `c93_minimize`, `c93_loss`, `c93_pytensor`, `c93_minimize_numba`, `c93_minimize_pytensor`.
* Model: `M_Primitives.v`, `M_Utilities.v`, `M_Wrappers.v`, `M_Simulate.v`, `M_SimResult.v`, `M_Build.v`, `M_PyExpr.v`, `M_Expand.v`, `M_SymExpr.v`, `M_Calculus.v`, `M_Simplify.v`, `M_Lambdify.v`, `M_NumbaModel.v`, `M_SympyTensor.v`, `M_Tensor.v`, `M_Solve.v`, `M_ArrayModel.v`.
* Proof: composition of C92 with C81 (numba), C82 (pytensor) and C85 (sympytensor): compiled keyword functions only look their arguments up, two states with the same flat vectors have the same arrays, the rows of the returned groups at step 1 are the arrays of such a state, and a block of residuals is zero exactly if both sides of the equation have the same value for all labels.
* Numbers are exact reals; the functions of the solver are arbitrary. c93_sympytensor, c93_numba and c93_pytensor are the three backends with root, c93_minimize, c93_minimize_numba and c93_minimize_pytensor are minimize for the three, with gradient, Hessian and Hessian product handed over as compiled (for numba the last two are arbitrary functions), c93_loss is the zero of the loss. Equations must have a value at the returned data (no division by zero). A model with a numeraire is left out: see c85_numeraire_refuted.

### C94 Calls of simulate and their stored results (proved)

* Theorems in `Props_Run.v`: `c94_failed_call`, `c94_one_file`, `c94_notebook`, `c94_brackets_refuted`, `c94_given_name`.
* Model: `M_Primitives.v`, `M_Utilities.v`, `M_Simulate.v`, `M_SimResult.v`, `M_Build.v`, `M_Results.v`, `M_Solve.v`, `M_Run.v`.
* Proof: composition of the computation of C92 with the files of C28-C30; the invariant says that the directory has exactly the files n.pkl for the pages n and no file n(s).pkl, and each call keeps it.
* c94_brackets_refuted shows the condition on names is needed: after runs named f and f(1), a call named f is answered with the result of f(1).

### C95 The promise that products have no zeros (partial)

* Theorems in `Props_NoZero.v`: `c95_value`, `c95_axis_refuted`, `c95_derivative`, `c95_zero_refuted`.
* Model: `M_Tensor.v`, `M_NoZero.v`.
* Proof: case analysis on axis and rank; the product along the only axis of a vector is the product of everything, every other axis changes the number of dims and is refused by the graph; the derivative of a product of real numbers in one element from that of a linear function.
* Values are proved. The new node is made without the axis, so for arrays of two or more dims it is another function; only the refusal of the graph to accept a result with another number of dims keeps the value (c95_axis_refuted). The refusal and the two derivative rules of pytensor are external and modelled as documented. Derivatives are proved where no element is zero and refuted at zero elements: the derivative exists, is found without the rewrite, and is nan with it (c95_zero_refuted). The theorems of C84 about pytensor derivatives assume differentiation to be exact, which excludes such points.

### C96 Piecewise expressions printed for numba (partial)

* Theorems in `Props_Piecewise.v`: `c96_value`, `c96_no_default`, `c96_symbolic_refuted`.
* Model: `M_Piecewise.v`.
* Proof: induction on the cases with a reader of Python conditional expressions: brackets that are balanced hide the words if and else inside conditions, so the reader splits the text where the printer joined it.
* Proved for cases whose values are numbers and whose last condition is True. Refuted otherwise: a branch that is not a number is passed to sp.Float, which raises TypeError (c96_symbolic_refuted), and without a final True the value is None when no condition holds (c96_no_default). The texts of numbers and conditions come from the printer of sympy and are arguments; the grammar of conditional expressions is that of Python, restricted to brackets, if and else.

### C97 Bar plots of selected labels and of groups (partial)

* Theorems in `Props_PlotBars.v`: `c97_bars`, `c97_missing_dim_refuted`, `c97_all_selected_refuted`.
* Model: `M_Newton.v`, `M_Plotting.v`, `M_Finalize.v`, `M_PlotBars.v`.
* Proof: a variable is a table with one row per combination of labels; by induction on the dims, dropping the levels with one label leaves the product of the shown labels of the others, and the labels of a row determine the element; insertion sort of distinct names and induction on the rows for the sums of the groups.
* Proved for variables that have every dim with one selected label and at least one other dim. Refuted otherwise: a variable without such a dim raises KeyError (c97_missing_dim_refuted), and a variable all of whose dims are fixed raises AttributeError, since the fallback calls a method that a DataArray does not have (c97_all_selected_refuted). Initial values passed by the caller are C106; plot_together is C100; tables and groupby of pandas are external and modelled as documented.

### C98 Nodes and trees of nested tables with their references (partial)

* Theorems in `Props_Nodes.v`: `c98_lines`, `c98_descendents`, `c98_generations`, `c98_generations_refuted`, `c98_families`, `c98_selections`, `c98_split`, `c98_split_data_refuted`, `c98_build`.
* Model: `M_Output.v`, `M_Nodes.v`.
* Proof: nodes are cells of a heap and references are positions; the heap after any sequence of creations is described cell by cell, by induction on the sequence; parents come before their children, so that the number of cells bounds every walk.
* Refuted: get_n_generations counts the nodes that have children and not the generations (c98_generations proves what it counts, c98_generations_refuted gives a tree with two generations and the answer three), and split_tree loses the data of the nodes (c98_split_data_refuted). Everything else is proved, including that build_tree stores exactly the nested trees of the model of C66 (c98_build).

### C99 Descriptions of variables with their indices (partial)

* Theorems in `Props_Info.v`: `c99_latex`, `c99_description`, `c99_dicts`, `c99_ending_refuted`, `c99_doubled_refuted`, `c99_beginning_refuted`, `c99_chain_refuted`, `c99_description_refuted`, `c99_get_info`, `c99_assumptions_refuted`, `c99_shared_refuted`.
* Model: `M_Indices.v`, `M_Info.v`.
* Proof: latex names are lists of words and signs; each of the replacements is described on such lists, and a word that is not an index is shown to be left alone by every pattern.
* Proved for latex names in which no index begins an opened word or ends a closed one and whose replacements neither begin nor end with an index (c99_latex), and for descriptions of words with single spaces (c99_description, c99_dicts). Refuted beyond: a macro that ends with an index before a closing brace is broken (c99_ending_refuted), a label that ends with an index is doubled (c99_doubled_refuted), a script that begins with an index is rewritten (c99_beginning_refuted), replacements are replaced again (c99_chain_refuted), the first word, a repeated index and an index before punctuation are not replaced in descriptions (c99_description_refuted), get_info does not find a symbol with assumptions (c99_assumptions_refuted), and symbols gives one name to different variables (c99_shared_refuted).

### C100 Bars of several variables in one plot (partial)

* Theorems in `Props_PlotTogether.v`: `c100_together`, `c100_scalars`, `c100_rejected`, `c100_order_refuted`, `c100_repeated`.
* Model: `M_Newton.v`, `M_Plotting.v`, `M_Finalize.v`, `M_PlotBars.v`, `M_PlotTogether.v`.
* Proof: the column of a variable in a frame over the dims of all variables is read at the positions of its own dims; as all variables have the same remaining dims, the dims of the frame have these too, and the labels of a row determine the element as in C97.
* Proved whenever a dim remains (c100_together, with the specification of C97) and for scalars (c100_scalars); variables with different remaining dims are rejected (c100_rejected). Refuted: the same dims in another order are rejected too (c100_order_refuted). Not modelled: frames in which every dim has one selected label (what pandas does with indices of different levels), and initial values given by the caller (C106 for separate plots).

### C101 Root inputs of an expression (partial)

* Theorems in `Props_Inputs.v`: `c101_determined`, `c101_occurs`, `c101_constant`, `c101_repeated_refuted`, `c101_bound_refuted`, `c101_prod`.
* Model: `M_SymExpr.v`, `M_Inputs.v`.
* Proof: by induction on the expression, with the denotation of C01: the value under two assignments that agree on the listed names is the same; the list itself is compared with an inductive relation saying that a name occurs.
* Proved: the listed names are those that occur (c101_occurs), the value depends only on them (c101_determined, c101_constant), and _prod (c101_prod). Refuted: names are listed as often as they occur (c101_repeated_refuted), and a bound index is listed though the value does not depend on it (c101_bound_refuted).

### C102 Symbols made from descriptions (partial)

* Theorems in `Props_Declare.v`: `c102_symbols`, `c102_updates`, `c102_errors`, `c102_repeated_refuted`, `c102_string_keys`, `c102_union`, `c102_frozen_refuted`.
* Model: `M_Declare.v`.
* Proof: the loop over the descriptions is followed with the dictionary of symbols built so far; each description is related to its symbol by a separate relation.
* Proved: c102_symbols, c102_updates (for the last description of a name), c102_errors, c102_string_keys, c102_union. Refuted: of two descriptions with one name only the last is offered (c102_repeated_refuted), and union_many adds a frozen set as one element instead of its elements (c102_frozen_refuted).

### C103 Arrays replaced by plain symbols (partial)

* Theorems in `Props_Dummy.v`: `c103_value`, `c103_no_arrays`, `c103_other_index_refuted`.
* Model: `M_Primitives.v`, `M_SymExpr.v`, `M_Simplify.v`, `M_Dummy.v`.
* Proof: each substitution replaces one indexed array by a symbol with the name of the array; the value is followed by induction on the equation and on the dictionary in any order.
* Proved for equations without sums and products over indices in which the new names are not already used with another value (c103_value), and in which arrays have the indices of their declaration (c103_no_arrays). Refuted: an array used with other indices is left (c103_other_index_refuted). Not modelled: assumptions of the new symbols.

### C104 Equations printed as one LaTeX display (partial)

* Theorems in `Props_Declare.v`: `c104_single`, `c104_in_order`, `c104_missing`, `c104_balanced`, `c104_verbatim_refuted`.
* Model: `M_Declare.v`.
* Proof: the text of a list of equations is shown to be the concatenation of the texts of its parts; braces are counted along the string, escaped ones like the others.
* Proved: c104_single, c104_in_order, c104_missing, and c104_balanced for names, texts and numbers whose own braces are balanced. Refuted without that: names are inserted verbatim, so a brace in a name breaks the display (c104_verbatim_refuted).

### C105 Numpy results in every mode (partial)

* Theorems in `Props_Modes.v`: `c105_numpy`, `c105_defined`, `c105_direct_refuted`, `c105_direct_euler_refuted`, `c105_default_refuted`.
* Model: `M_Build.v`, `M_Modes.v`.
* Proof: compiled functions are described by their linker and wrappers; compile_model hands the backends a mode object, so the two tests for the name JAX decide in each case.
* Proved through compile_model whenever a pytensor function is compiled by jax only if jax is installed and the mode was given by its name (c105_numpy, c105_defined). Refuted: compile_pytensor_cge_functions called with the name JAX returns the unwrapped function with jax arrays (c105_direct_refuted), called with JAX or NUMBA and the Euler function requested it fails (c105_direct_euler_refuted), and with JAX as the configured default the pytensor backend returns jax arrays, unlike sympytensor (c105_default_refuted). Not modelled: sparse matrices, and what the linkers themselves can compile.

### C106 Bar plots against given initial values (partial)

* Theorems in `Props_PlotGiven.v`: `c106_given`, `c106_same`, `c106_squeezed_refuted`, `c106_unselected_refuted`.
* Model: `M_Newton.v`, `M_Plotting.v`, `M_Finalize.v`, `M_PlotBars.v`, `M_PlotGiven.v`.
* Proof: the frame of given values with exactly the labels shown is a frame of C97 with one step; the values of its rows are then those of the elements with the labels of the bars.
* Proved when the given values have the dims of the variable and exactly the labels shown (c106_given), and for the values of the first step without selection (c106_same). Refuted otherwise: the selection is not applied to given values, so with groups they are summed over all labels and compared with the selected ones (c106_unselected_refuted), and when the caller has selected a label the plot fails with KeyError (c106_squeezed_refuted). Not modelled: how pandas aligns frames with different labels.

### C107 Ops made from a model (partial)

* Theorems in `Props_Ops.v`: `c107_ops`, `c107_refused`, `c107_clones`, `c107_clash_refuted`.
* Model: `M_Primitives.v`, `M_PyExpr.v`, `M_Tensor.v`, `M_ArrayModel.v`, `M_Ops.v`.
* Proof: arrays of the declared shapes are the pieces of their concatenated elements, so the Ops are the functions of C84 at these vectors.
* Proved for constant arguments and exact differentiation (c107_ops, c107_refused, c107_clones). Refuted: the clone of a tensor can have the name of another tensor of the model, a and a_initial (c107_clash_refuted). Not modelled: Ops applied to symbolic arguments.

### C108 Order of model objects (partial)

* Theorems in `Props_Order.v`: `c108_equal`, `c108_strict`, `c108_order`, `c108_by_name`, `c108_sorted`, `c108_finalize`, `c108_mixed`, `c108_instances`, `c108_unpacked_refuted`.
* Model: `M_Primitives.v`, `M_Registry.v`, `M_Expand.v`, `M_Finalize.v`, `M_Order.v`.
* Proof: comparison of the tuples of fields by the first pair that differs; strings and tuples of strings are strictly ordered, and dictionaries with the same entries are equal.
* Proved: equality, strictness, order by name, and sorting of lists of one class with different names, which is what finalize_calibration sorts (c108_equal, c108_strict, c108_by_name, c108_sorted, c108_finalize). Refuted: dictionaries have no order, so two elements of one indexed object raise TypeError (c108_instances, c108_unpacked_refuted), as do a variable and a parameter (c108_mixed).

### C109 The same text gives the same residuals in every backend (partial)

* Theorems in `Props_Parse.v`, `Props_Parse2.v`: `c109_sides`, `c109_numba`, `c109_solved`, `c109_sympytensor`, `c109_agree`, `c109_order_refuted`, `c109_alignment_refuted`, `c109_read`.
* Model: `M_Primitives.v`, `M_Utilities.v`, `M_PyExpr.v`, `M_Expand.v`, `M_Graph.v`, `M_SymExpr.v`, `M_Calculus.v`, `M_Simplify.v`, `M_Lambdify.v`, `M_NumbaModel.v`, `M_SympyTensor.v`, `M_Equations.v`, `M_Tensor.v`, `M_Parse.v`.
* Proof: the translation of the syntax tree keeps the value at every position (induction on the notation); the blocks are then the residuals of C81 and C85, and for shared notation those of C82.
* Proved: the reading of a text (c109_sides), the residuals and the loss of numba and sympytensor in terms of the text (c109_numba, c109_sympytensor), solutions (c109_solved), and equality of the three residual vectors for arithmetic texts whose objects have dims that are the last ones of the dims of the equation, in the order of the coords (c109_agree). Refuted beyond that: with dims declared in another order than the coords the pytensor residuals come in another order (c109_order_refuted), and with dims that are not the last ones pytensor aligns by place, sympy by name (c109_alignment_refuted). Not modelled: what parse_expr makes of other texts; a numeraire. c109_read characterises the trees whose reading does not depend on the unmodelled parts of sympy.

### C110 A zero of the compiled system is a solution of the written model, and its producers behave as described (proved)

* Theorems in `Props_Written.v`: `c110_solved`, `c110_solved_sympytensor`, `c110_cobb_douglas_text`, `c110_ces_text`, `c110_leontief_text`, `c110_leontief_matrix_text`, `c110_dixit_stiglitz_text`, `c110_cobb_douglas`, `c110_ces`, `c110_leontief`, `c110_leontief_matrix`, `c110_dixit_stiglitz`.
* Model: `M_Primitives.v`, `M_Utilities.v`, `M_PyExpr.v`, `M_Expand.v`, `M_Graph.v`, `M_SymExpr.v`, `M_Calculus.v`, `M_Simplify.v`, `M_Lambdify.v`, `M_NumbaModel.v`, `M_SympyTensor.v`, `M_Equations.v`, `M_Tensor.v`, `M_Production.v`, `M_Parse.v`.
* Proof: C109 gives the residuals as values of the texts at the positions of the dims that run; positions are completed to all dims because a value depends on the dims that run only. The generated texts are shown to be in the notation piece by piece, and C55 to C58 turn the equations into the relations.
* One model with a block of every kind and a zero of its compiled system is the example of all parts.

### C111 The generated blocks do not depend on the units of prices and quantities (proved)

* Theorems in `Props_Scale.v`: `c111_cobb_douglas`, `c111_ces`, `c111_leontief`, `c111_leontief_matrix`, `c111_dixit_stiglitz`, `c111_shares_refuted`, `c111_model`, `c111_pytensor_matrix`, `c111_pytensor_dixit_stiglitz`.
* Model: `M_Primitives.v`, `M_Utilities.v`, `M_PyExpr.v`, `M_Expand.v`, `M_Graph.v`, `M_SymExpr.v`, `M_Calculus.v`, `M_Simplify.v`, `M_Lambdify.v`, `M_NumbaModel.v`, `M_SympyTensor.v`, `M_Equations.v`, `M_Tensor.v`, `M_Production.v`, `M_Parse.v`.
* Proof: C55 to C58 turn the generated equations into relations between the values; the relations are unchanged when prices and quantities are multiplied, by laws of real powers. c111_model carries this to compiled systems by C110. Two inputs with shares 1/2 that are multiplied by 3 and 2 are the example of the lists.
* The condition on the Cobb-Douglas shares is needed: c111_shares_refuted.

### C112 A model with a numeraire cannot be solved in any backend (proved)

* Theorems in `Props_Numeraire.v`: `c112_counts`, `c112_numba`, `c112_sympytensor`, `c112_pytensor`.
* Model: `M_Primitives.v`, `M_Utilities.v`, `M_Expand.v`, `M_Equations.v`, `M_Registry.v`, `M_Graph.v`, `M_PyExpr.v`, `M_SymExpr.v`, `M_Calculus.v`, `M_Simplify.v`, `M_Lambdify.v`, `M_NumbaModel.v`, `M_SympyTensor.v`, `M_Tensor.v`.
* Proof: Both lengths are sums of numbers of elements, over all variables and over those that are left. The generated numba functions check the length first. The sympytensor functions return one entry per equation or unpacked variable. Evaluation of a text stops at a name that is not in the cache.
* The docstring advises against the argument; the theorem says that it never works. Adding the equation P = 1 instead is the case without a numeraire (C110).

### C113 What a model object shows of itself (partial)

* Theorems in `Props_Access.v`: `c113_shown`, `c113_like_new`, `c113_refused`, `c113_getitem`, `c113_attributes`, `c113_latex_refuted`, `c113_description`, `c113_description_refuted`, `c113_variables`.
* Model: `M_Primitives.v`, `M_Equations.v`, `M_SymExpr.v`, `M_Calculus.v`, `M_Simplify.v`, `M_Registry.v`, `M_Access.v`.
* Proof: Induction over the set labels keeps the fields other than labels, printed name and description, and the printed name is recomputed from the labels each time. The variables of a model come from the additions of the constructor, which refuse a repeated name.
* Refuted in two clauses. Indexing by latex_name gives the name without indices, always shorter than the entry of to_dict for an object with dims. The default description keeps the name printed when the object was made: labels set later are not shown in it, while those given at once are. The greek rewriting is a parameter (C90); attributes that Python defines for every object and methods are left out.

### C114 Helpers that cannot be used (proved)

* Theorems in `Props_Access.v`: `c114_jacobian`, `c114_jvp`, `c114_print_latex`, `c114_progress`.
* Model: `M_Primitives.v`, `M_Equations.v`, `M_SymExpr.v`, `M_Calculus.v`, `M_Simplify.v`, `M_Registry.v`, `M_Access.v`.
* Proof: The models are run; the only way past the earlier steps ends in the call with the wrong number of arguments.
* That IPython.display is a module and that rich takes the columns in the order given are facts about these libraries, taken from their documentation. The cells of a Jacobian are passed to as_tensor as a list.

### C115 The Euler approximations converge to the path of equilibria (proved)

* Theorems in `Props_Converge.v`: `c115_bound`, `c115_limit`.
* Model: `M_Primitives.v`, `M_Utilities.v`, `M_Wrappers.v`, `M_Euler.v`.
* Proof: One step is compared with the path by the mean value theorem, the chain rule gives that the slope of the method on the path is the derivative of the path, and the errors add up to at most a multiple of exp(2 L) / n.
* The distance is measured per entry. The bound for RK4 is of first order too, as for Euler; C42 says more about RK4. Real arithmetic instead of floating point, and the solver of the linear systems is a parameter required to solve them around the path.

### C116 The Newton solver finds a solution near its starting point (proved)

* Theorems in `Props_Kantorovich.v`: `c116_converges`, `c116_solution`.
* Model: `M_Euler.v`, `M_Newton.v`.
* Proof: The remainder of the linear approximation bounds the new residual norm. The distance already covered plus the distance the remaining residual can still cause never grows, so the iterates stay in the region. They are a Cauchy sequence, and the residuals vanish at its limit.
* A theorem of Kantorovich type for the solver as written, with its backtracking and its convergence flag. Norms are sums of absolute values, as in the code. Real arithmetic; the linear solver is a parameter required to solve the systems in the region.

### C117 Maxima, logarithms and their derivatives in the generated numba code (proved)

* Theorems in `Props_Kink.v`: `c117_value`, `c117_derivatives`, `c117_tie_refuted`.
* Model: `M_NumbaSource.v`, `M_Kink.v`.
* Proof: Induction over the expression: near such a point a maximum is one of its arguments and Heaviside is constant, so the printed zero is the derivative. The points form an open set on every line.
* The rules of sympy for derivatives and the value 1/2 of numpy.heaviside at zero are library facts. Maxima of more than two expressions are treated in C71, powers in C50 and C80. Real arithmetic.

### C118 The Euler approximation compiled by numba reaches the solution (proved)

* Theorems in `Props_NumbaRows.v`, `Props_Stationary.v`, `Props_Trace.v`: `c118_rows`, `c118_solver`, `c118_rate`, `c118_limit`.
* Model: `M_SymExpr.v`, `M_Calculus.v`, `M_Lambdify.v`, `M_NumbaStep.v`, `M_Euler.v`, `M_NumbaEuler.v`.
* Proof: By induction over expressions, values and symbolic derivatives are locally Lipschitz and the derivatives give the total change (mean value theorem along lines). Inverse bounds of regular matrices carry over to nearby matrices, and compactness of the unit interval makes radius and constants uniform, so C115 applies; C41 says what the compiled step computes near the path, and the loop stays near it.
* Real arithmetic instead of floating point. np.linalg.solve is a parameter required to solve regular systems; numpy broadcasting of a vector of one entry in the loop and the progress bar are left out.

### C119 Near a regular solution the Newton solver converges to it (proved)

* Theorems in `Props_NewtonNear.v`: `c119_near`, `c119_singular_refuted`.
* Model: `M_SymExpr.v`, `M_Calculus.v`, `M_Euler.v`, `M_Newton.v`.
* Proof: The mean value theorem along lines and locally Lipschitz symbolic derivatives give the second-order remainder that C116 asks for; the inverse bound at the solution carries over to nearby points. The remainder at the solution itself bounds the distance by twice the inverse bound times the residual. The singular case is p p = a at a = 0.
* Real arithmetic. The linear solver is a parameter required to solve regular systems. The constants and the radius exist but are not computed.

### C120 Small shocks to a regular model have a solution, and both solvers find it (proved)

* Theorems in `Props_SmallShock.v`: `c120_newton`, `c120_euler`, `c120_large_refuted`.
* Model: `M_SymExpr.v`, `M_Calculus.v`, `M_Lambdify.v`, `M_NumbaStep.v`, `M_Euler.v`, `M_Newton.v`, `M_NumbaEuler.v`.
* Proof: Existence comes from the convergence of Newton iterates at the new parameters (C116, C119), whose starting residual is at most a constant times the shock. The remainder of the linear approximation gives that two nearby solutions at two parameter values are at most a constant times the change of the parameters apart. Hence solutions along the line of parameters form a Lipschitz path, chosen through least upper bounds of entries, and the linear approximation gives its derivative; C118 then applies.
* Real arithmetic. The linear solver is a parameter required to solve regular systems. Constants, radius and bound on the shock exist but are not computed; the bound of the Euler part depends on the shock.

### C121 The Euler functions of every backend reach the solution of the written equations (proved)

* Theorems in `Props_AllEuler.v`: `c121_path`, `c121_small`.
* Model: `M_SymExpr.v`, `M_Calculus.v`, `M_Primitives.v`, `M_Utilities.v`, `M_Wrappers.v`, `M_Euler.v`.
* Proof: Derivatives are unique, so near the path the given Jacobians are the matrices of symbolic derivatives, and the conditions of C115 carry over from C118. For small shocks the path is the one of C120.
* Real arithmetic. The Jacobians are functions required to be right at smooth points; C50, C75, C84 and C85 are about the Jacobians of the backends. The linear solver is a parameter required to solve regular systems.

### C122 A model that leaves the price level open has a singular Jacobian at every solution (proved)

* Theorems in `Props_PriceLevel.v`: `c122_singular`, `c122_numba`, `c122_newton`.
* Model: `M_SymExpr.v`, `M_Calculus.v`, `M_Lambdify.v`, `M_Euler.v`, `M_Newton.v`.
* Proof: The derivative of the equations along the direction of the prices is zero because they vanish on the whole ray, so the Jacobian sends a non-zero vector to zero.
* Real arithmetic: in floating point a singular matrix may be seen as a regular one that is badly conditioned. That solvers raise on singular matrices is a hypothesis of the Newton part only.

### C123 A model in which the equations obey Walras' law has a singular Jacobian at every solution (proved)

* Theorems in `Props_Walras.v`: `c123_singular`, `c123_numba`, `c123_newton`, `c123_dropped`.
* Model: `M_SymExpr.v`, `M_Calculus.v`, `M_Lambdify.v`, `M_Euler.v`, `M_Newton.v`.
* Proof: The weighted sum has derivative zero, and at a solution this is the weighted sum of the rows of the Jacobian. Dependent rows make a square matrix singular, because by elimination fewer equations than unknowns have a non-trivial solution.
* Real arithmetic: in floating point a singular matrix may be seen as a regular one that is badly conditioned. That solvers raise on singular matrices is a hypothesis of the Newton part only.

### C124 A zero gradient of the loss at a regular point is a solution (proved)

* Theorems in `Props_Stationary.v`: `c124_close`, `c124_stationary`, `c124_numba`, `c124_stuck_refuted`.
* Model: `M_SymExpr.v`, `M_Calculus.v`, `M_Lambdify.v`, `M_Euler.v`.
* Proof: The gradient is the transposed Jacobian times the residuals. A regular J reaches the vector of signs of the residuals, with a bound from its inverse, which turns the gradient into the sum of the absolute residuals.
* Real arithmetic. The first two parts hold for any function that returns the derivatives of the loss (C81 and C85 are about the gradients of numba and sympytensor models). c124_stuck_refuted is the counterexample for singular J.

### C125 The backtracking of the Newton solver ends at every regular point (proved)

* Theorems in `Props_Backtrack.v`: `c125_progress`.
* Model: `M_SymExpr.v`, `M_Calculus.v`, `M_Euler.v`, `M_Newton.v`.
* Proof: A Newton step of length a changes the residuals to (1 - a) times themselves up to a part that vanishes faster than a, so short steps are accepted; halving reaches them.
* Real arithmetic: the residual function returns numbers at all points tried, so NaN from logarithms or powers of negative numbers is not covered. The linear solver is a parameter required to solve regular systems.

### C126 The Newton solver never enters the region where residuals are NaN and does not leave it (proved)

* Theorems in `Props_NewtonNan.v`: `c126_defined`, `c126_progress`, `c126_stuck`, `c126_numbers`.
* Model: `M_SymExpr.v`, `M_Calculus.v`, `M_Euler.v`, `M_Newton.v`, `M_NewtonNan.v`.
* Proof: An invariant of the iterations for the norms with NaN; the progress argument of C125 with trial points that may be rejected because of NaN.
* Infinite values and rounding are not modelled. A step with NaN from the linear solver is assumed to give a NaN residual. The linear solver is a parameter required to solve regular systems of numbers.

### C127 The Newton solver does not depend on the units of the variables and equations (proved)

* Theorems in `Props_Units.v`: `c127_newton`.
* Model: `M_Euler.v`, `M_Newton.v`.
* Proof: The Newton step in new units is the old one in new units, since regular systems have one solution; all residual norms are multiplied by the same constant, so every comparison has the same result.
* Real arithmetic: in floating point the histories can differ by rounding. Different constants for different equations change the norm and hence the history; they are not covered.

### C128 The Euler approximation does not depend on the units of variables, parameters and equations (proved)

* Theorems in `Props_Units.v`: `c128_euler`, `c128_rk4`.
* Model: `M_Euler.v`, `M_Newton.v`.
* Proof: The increment in new units solves the rescaled linear system, which has one solution; induction over the steps.
* Real arithmetic. By C40 the backends compute the same rows; for Runge-Kutta the theorem is about one step.

## Trusted base

* The Coq 8.16.1 kernel (coqc, and coqchk as run by the checker).
* The axioms `Print Assumptions` lists, all from the standard library. There
  are four: `Classical_Prop.classic`,
  `FunctionalExtensionality.functional_extensionality_dep`,
  `ClassicalDedekindReals.sig_forall_dec` and
  `ClassicalDedekindReals.sig_not_dec`. They come with the real numbers of the
  standard library; no theorem adds another. coqchk also names axioms of
  library files that are loaded but not used by the theorems
  (`Coq.ssr.ssrunder`, `Coq.Reals`).
* The correspondence of the model with the Python code, as recorded by the
  citation comment on every definition, and the simplifications stated there.
  Nothing in this repository executes the Python code, so this correspondence
  is by reading only.
* The behaviour of numpy, sympy, xarray, pandas and pickle where a definition
  describes it (for example `reshape`, `subs`, `dropna`): by their
  documentation.

No definition uses `Axiom`, `Parameter`, `Admitted`, plugins, functors or
disabled kernel checks.

### Mutation testing

`seeded/LOG.jsonl` records edits of the model that mimic programming errors, the
claim each breaks, and the theorems whose proofs failed in a scratch copy. An
edit marked in `note` as a repair removes a defect: there the refutation theorem
must fail.

### Print Assumptions per theorem

`Print Assumptions` follows every theorem in the `Props_*.v` files. The answers of the last build:

**Closed under the global context** (297 theorems)

* `Props_Access.v`: c113_attributes, c113_description, c113_description_refuted, c113_getitem, c113_latex_refuted, c113_like_new, c113_refused, c113_shown, c113_variables, c114_jacobian, c114_jvp, c114_print_latex, c114_progress
* `Props_Build.v`: c69_all_list_refuted, c69_backend, c69_dict_refuted, c69_exact, c69_product_refuted, c69_unknown_backend, c70_compiled, c70_false_request_refuted, c70_missing_euler_refuted, c70_none_request_refuted, c70_uncompiled_refuted, c72_numba_refuted, c72_rk4, c72_scan_refuted
* `Props_Calculus.v`: c49_shapes_refuted
* `Props_Calibrate.v`: c86_dims_refuted, c86_simulate
* `Props_Declare.v`: c102_errors, c102_frozen_refuted, c102_repeated_refuted, c102_string_keys, c102_symbols, c102_union, c102_updates, c104_balanced, c104_in_order, c104_missing, c104_single, c104_verbatim_refuted
* `Props_Dummy.v`: c103_no_arrays, c103_other_index_refuted
* `Props_Euler.v`: c40_scan_unreachable
* `Props_Expand.v`: c11_description, c11_enumerates, c11_original_unchanged, c11_requested_dims, c11_unused_dims, c12_attributes_refuted, c12_default_attributes_kept, c12_enumerates, c12_foreign_dim_rejected, c13_kth_name, c14_distinct, c14_same_object_collision_refuted, c14_two_objects_collision_refuted, c15_equations_in_order, c15_marker_names, c15_markers_replaced, c15_no_marker, c15_repeated_marker_refuted, c16_pytensor_labels, c16_pytensor_order_refuted, c16_sympy_labels, c16_unmarked_name_refuted, c17_comma_label_refuted, c17_dims_string, c17_empty_string_refuted, c17_latex_tokens, c17_other_forms
* `Props_Finalize.v`: c88_collected, c88_initialize, c88_missing_refuted, c88_unknown, c88_usable, c88_wrong_shape_refuted
* `Props_Graph.v`: c52_packed_value, c53_accepts_iff, c53_pt_rejected
* `Props_Greek.v`: c90_braces_refuted, c90_capitals, c90_escaped, c90_idempotent, c90_longer_word_refuted, c90_unchanged
* `Props_Indices.v`: c78_enumerate, c78_exactly_the_instances, c78_length, c78_order, c78_same_labels_refuted, c79_collision_refuted, c79_distinct, c79_name, c79_one_name, c79_scalar, c79_spaces_refuted
* `Props_Info.v`: c99_assumptions_refuted, c99_beginning_refuted, c99_chain_refuted, c99_description, c99_description_refuted, c99_dicts, c99_doubled_refuted, c99_ending_refuted, c99_get_info, c99_latex, c99_shared_refuted
* `Props_Inputs.v`: c101_occurs, c101_repeated_refuted
* `Props_Jacobian.v`: c75_backends_agree, c75_gradient, c75_jacobian, c75_numba
* `Props_Layout.v`: c01_no_parameters_refuted, c01_other_entries_irrelevant, c01_pack_unpack, c02_unpack_pack, c03_addressing, c04_excess_accepted, c04_short_rejected, c04_wrong_length_rejected_refuted, c05_return_mask, c06_param_mask, c06_unknown_name_rejected
* `Props_ListArrays.v`: c25_euler_refused
* `Props_Modes.v`: c105_default_refuted, c105_defined, c105_direct_euler_refuted, c105_direct_refuted, c105_numpy
* `Props_Nodes.v`: c98_build, c98_descendents, c98_families, c98_generations, c98_generations_refuted, c98_lines, c98_selections, c98_split, c98_split_data_refuted
* `Props_NumbaSource.v`: c71_indices, c71_items, c71_two_indices_refuted
* `Props_Numeraire.v`: c112_counts
* `Props_Ops.v`: c107_clash_refuted, c107_clones
* `Props_Order.v`: c108_by_name, c108_equal, c108_finalize, c108_instances, c108_mixed, c108_order, c108_sorted, c108_strict, c108_unpacked_refuted
* `Props_Output.v`: c66_headings, c66_table, c66_three_levels, c66_three_levels_refuted, c66_uneven_refuted
* `Props_Parse2.v`: c109_read
* `Props_Parsing.v`: c54_grammar, c54_keywords_refuted, c54_ravel, c54_spaced_axis_refuted, c54_unchanged
* `Props_Piecewise.v`: c96_no_default, c96_symbolic_refuted, c96_value
* `Props_Plotting.v`: c65_grid
* `Props_ProdTensor.v`: c83_lists, c83_missing, c83_mixed_refuted, c83_names, c83_singleton_refuted
* `Props_Production.v`: c59_accepts, c59_again, c59_dixit_stiglitz, c59_equations, c59_expand, c59_inferred, c59_inferred_refuted, c59_leontief, c59_mutation_refuted, c59_shared_list_refuted, c59_string_refuted, c59_unmodified
* `Props_Reduce.v`: c18_dims
* `Props_Registry.v`: c19_call, c19_constructed, c19_history, c19_readd_rejected, c19_spec_deterministic, c19_unique_names, c20_batch_refuted, c20_fresh_batch, c20_single_atomic, c20_wrong_class_atomic, c21_all_symbols_refuted, c21_get_all, c21_get_by_name, c21_same_object_refuted, c21_symbol_by_name, c22_numeraire_refuted, c22_square_counts, c22_text_ignored_refuted, c23_numeraire_not_variable, c23_unpacked_refuted
* `Props_Results.v`: c28_fresh, c28_other_scenario_refuted, c28_saved, c29_existing_files_kept, c29_no_overwrite, c29_terminates, c30_latest_overwriting, c30_latest_without_overwrite, c30_overwrite_after_suffix_refuted, c30_pkl_name_refuted, c30_with_extension_refuted, c31_no_overwrite_keeps_files, c31_overwrite_refuted, c31_read_by_name_refuted, c31_readable_by_file_name
* `Props_Run.v`: c24_simulate_accepts, c24_simulate_refuses, c94_brackets_refuted, c94_failed_call, c94_given_name, c94_notebook, c94_one_file
* `Props_Scenario.v`: c07_caller_data_unchanged, c07_in_place_refines, c07_scenario_values, c07_shared_array_refuted, c08_accepted_iff, c08_error_class, c09_ignored_shock_refuted, c09_nonparameter_shock_has_no_effect, c09_unknown_relative_shock_rejected, c10_explicit_hess_dropped, c10_flags, c10_hess_needs_gradient, c10_hessp_without_gradient_refuted, c10_unknown_method, c24_initial_state_names, c24_right_names_accepted
* `Props_SimResult.v`: c25_euler_cells, c25_optimizer_cells, c25_step_dimension_refuted, c26_fixed_last, c26_fixed_not_returned_refuted, c26_misaligned_refuted, c26_no_fixed_values, c27_gap_raises_refuted, c27_nan_suffix, c27_warning_refuted, c32_decision, c32_explained, c32_unexplained_refuted
* `Props_Simplify.v`: c73_view, c74_normalisation
* `Props_Solve.v`: c92_dataset_refuted, c92_equilibrium, c92_euler_only, c92_minimize, c92_mode, c92_result_refuted, c92_root, c92_unchecked_refuted
* `Props_Tables.v`: c87_dims_refuted, c87_equations, c87_plain_refuted, c87_plain_rows, c87_shared_refuted, c87_short_values_refuted, c87_summary, c87_unknown, c87_unsupported
* `Props_Wrappers.v`: c33_flat_round_trip, c33_keyword_round_trip, c33_no_parameters_refuted, c33_own_array, c34_flat_round_trip, c34_hessp_arguments, c34_point_name_refuted, c35_always_raises_refuted, c35_mask_keeps_fixed_refuted, c35_result_refuted, c35_unknown_rejected, c36_empty_dimension_refuted, c36_trajectory_cut
* `Props_Written.v`: c110_ces_text, c110_cobb_douglas_text, c110_dixit_stiglitz_text, c110_leontief_matrix_text, c110_leontief_text

**Axioms `ClassicalDedekindReals.sig_forall_dec`** (5 theorems)

* `Props_Jacobian.v`: c76_given_direction_refuted
* `Props_NoZero.v`: c95_axis_refuted, c95_value
* `Props_Numeraire.v`: c112_pytensor
* `Props_Ops.v`: c107_refused

**Axioms `FunctionalExtensionality.functional_extensionality_dep`, `ClassicalDedekindReals.sig_forall_dec`** (75 theorems)

* `Props_Euler.v`: c37_line, c38_affine, c39_no_shock, c40_keyword_clash_refuted, c40_labels_refuted, c40_numba_scan, c40_python_shifted, c42_combination, c42_constant_slope, c42_degree_five_refuted, c42_polynomial_path, c42_polynomial_run, c42_refused
* `Props_Inputs.v`: c101_prod
* `Props_Jacobian.v`: c76_hessp, c76_step_product, c76_symmetric, c77_linearised
* `Props_Kantorovich.v`: c116_converges
* `Props_Newton.v`: c43_empty_parameters_refuted, c43_empty_parameters_state, c43_success_is_root, c44_monotone, c44_never_worse, c44_step_sizes, c45_count, c45_frozen, c46_affine
* `Props_NewtonNan.v`: c126_defined, c126_numbers, c126_stuck
* `Props_NoZero.v`: c95_derivative, c95_zero_refuted
* `Props_NumbaSource.v`: c71_max_partial, c71_max_refuted
* `Props_PlotBars.v`: c97_all_selected_refuted, c97_bars, c97_missing_dim_refuted
* `Props_PlotGiven.v`: c106_given, c106_same, c106_squeezed_refuted, c106_unselected_refuted
* `Props_PlotLines.v`: c91_bars, c91_bars_all_refuted, c91_bars_scalar_refuted, c91_initial_refuted, c91_lines, c91_missing_group, c91_no_variables_refuted
* `Props_PlotTogether.v`: c100_order_refuted, c100_rejected, c100_repeated, c100_scalars, c100_together
* `Props_Plotting.v`: c67_metrics, c67_negative_refuted, c68_one_dim, c68_two_dims_refuted, c68_two_variables_refuted
* `Props_Rebalance.v`: c61_diagonal_refuted, c61_round_trip, c61_transposed_refuted, c61_unfitted, c62_balanced, c62_two_way_refuted, c63_mask, c63_mask_negative_refuted, c63_sparse, c64_feasible, c64_negative_refuted
* `Props_Solved.v`: c93_loss
* `Props_Stationary.v`: c118_solver
* `Props_Units.v`: c127_newton, c128_euler, c128_rk4

**Axioms `FunctionalExtensionality.functional_extensionality_dep`, `ClassicalDedekindReals.sig_forall_dec`, `ClassicalDedekindReals.sig_not_dec`** (5 theorems)

* `Props_Kantorovich.v`: c116_solution
* `Props_Stats.v`: c89_empty_refuted, c89_gradient_only_refuted, c89_rmse_refuted, c89_statistics

**Axioms `Classical_Prop.classic`, `FunctionalExtensionality.functional_extensionality_dep`, `ClassicalDedekindReals.sig_forall_dec`, `ClassicalDedekindReals.sig_not_dec`** (153 theorems)

* `Props_AllEuler.v`: c121_path, c121_small
* `Props_ArrayModel.v`: c84_gradient, c84_hessian, c84_hessp, c84_jacobian, c84_pytensor_gradient, c84_pytensor_hessian, c84_pytensor_jacobian, c84_shared
* `Props_Backtrack.v`: c125_progress
* `Props_Calculus.v`: c49_same_matrix, c50_gradient, c50_hessian, c50_hessp, c50_jacobian
* `Props_Calibrate.v`: c86_backend_refuted, c86_benchmark, c86_nan_refuted, c86_needs, c86_residuals, c86_result, c86_success, c86_unknown_name
* `Props_Converge.v`: c115_bound, c115_limit
* `Props_Dummy.v`: c103_value
* `Props_Inputs.v`: c101_bound_refuted, c101_constant, c101_determined
* `Props_Kink.v`: c117_derivatives, c117_tie_refuted, c117_value
* `Props_Lambdify.v`: c80_hessian, c80_jacobian, c80_len_refuted, c80_loss, c80_syntax_refuted, c80_system
* `Props_NewtonNan.v`: c126_progress
* `Props_NewtonNear.v`: c119_near, c119_singular_refuted
* `Props_NumbaModel.v`: c81_gradient, c81_jacobian, c81_system
* `Props_NumbaRows.v`: c118_rows
* `Props_NumbaStep.v`: c41_name_capture_refuted, c41_reserved_name_refuted, c41_step
* `Props_Numeraire.v`: c112_numba, c112_sympytensor
* `Props_Ops.v`: c107_ops
* `Props_Parse.v`: c109_agree, c109_alignment_refuted, c109_numba, c109_order_refuted, c109_sides, c109_solved, c109_sympytensor
* `Props_Parsing.v`: c54_difference
* `Props_PriceLevel.v`: c122_newton, c122_numba, c122_singular
* `Props_ProdTensor.v`: c57_pytensor, c57_pytensor_default_refuted, c58_pytensor, c58_pytensor_minimises
* `Props_Production.v`: c55_closures_partial, c55_closures_refuted, c55_meaning, c55_minimises, c55_unit_cost, c55_zero_profit, c56_equivalent, c56_minimises, c57_default_refuted, c57_one_dim, c57_two_dims, c58_default_refuted, c58_meaning, c58_minimises, c58_tfp_refuted, c58_without_tfp, c60_CES, c60_cobb_douglass, c60_coefficient_refuted, c60_leontief, c60_output_refuted, c60_share_refuted
* `Props_Recursive.v`: c51_contradiction_refuted, c51_early_stop_refuted, c51_initial_kept, c51_no_solution_refuted, c51_overwritten_refuted, c51_solution, c51_stuck
* `Props_Reduce.v`: c18_reductions, c47_fixed_index_refuted, c47_numeral_labels_refuted, c47_value, c48_refuted
* `Props_Scale.v`: c111_ces, c111_cobb_douglas, c111_dixit_stiglitz, c111_leontief, c111_leontief_matrix, c111_model, c111_pytensor_dixit_stiglitz, c111_pytensor_matrix, c111_shares_refuted
* `Props_Simplify.v`: c73_accepted, c73_collision_refuted, c73_value, c74_indexed_own, c74_indexed_refuted, c74_scalar
* `Props_SmallShock.v`: c120_euler, c120_large_refuted, c120_newton
* `Props_Solved.v`: c93_minimize, c93_numba, c93_pytensor, c93_sympytensor
* `Props_Solved2.v`: c93_minimize_numba, c93_minimize_pytensor
* `Props_Stationary.v`: c124_close, c124_numba, c124_stationary, c124_stuck_refuted
* `Props_SympyTensor.v`: c85_gradient, c85_hessian, c85_jacobian, c85_numeraire_refuted, c85_system, c85_unused
* `Props_Tensor.v`: c82_alignment_refuted, c82_cross_refuted, c82_shared, c82_solutions, c82_system
* `Props_Trace.v`: c118_limit, c118_rate
* `Props_Walras.v`: c123_dropped, c123_newton, c123_numba, c123_singular
* `Props_Written.v`: c110_ces, c110_cobb_douglas, c110_dixit_stiglitz, c110_leontief, c110_leontief_matrix, c110_solved, c110_solved_sympytensor

## Coverage of /repo/cge_modeling

Function by function, from the citations in the model files. "not modelled" means that no definition cites the lines.


**base/build.py**

* determine_default_backend (22-34): `M_Build`
* _parse_compile_kwarg (37-46): `M_Build`
* compile_model (49-95): `M_Build`, `M_Modes`, `M_Solve`
* cge_model (98-132): `M_Build`

**base/cge.py**

* CGEModel (70-1188): `M_Access`, `M_Build`, `M_Calculus`, `M_Calibrate`, `M_Equations`, `M_Expand`, `M_Finalize`, `M_NumbaModel`, `M_Order`, `M_Parse`, `M_PyExpr`, `M_Registry`, `M_Results`, `M_Run`, `M_SimResult`, `M_Simplify`, `M_Simulate`, `M_Solve`, `M_SymExpr`, `M_SympyTensor`, `M_Tables`, `M_Utilities`
* CGEModel.__init__ (71-191): `M_Build`, `M_Calibrate`, `M_Registry`, `M_Simplify`, `M_Solve`, `M_SymExpr`, `M_SympyTensor`
* CGEModel.check_initialization (193-198): `M_Registry`, `M_SympyTensor`
* CGEModel._initialize_group (200-208): `M_Registry`, `M_SympyTensor`
* CGEModel._simplify_unpacked_sympy_representation (210-230): `M_Calculus`, `M_NumbaModel`, `M_Registry`, `M_Simplify`, `M_SympyTensor`
* CGEModel.variable_names (233-234): `M_Calculus`, `M_Registry`
* CGEModel.variables (237-238): `M_Access`
* CGEModel.unpacked_variable_names (241-242): `M_Calibrate`
* CGEModel.unpacked_variables (245-249): `M_Calibrate`
* CGEModel.unpacked_variable_symbols (252-256): `M_Calibrate`, `M_NumbaModel`, `M_Registry`
* CGEModel.parameter_names (259-260): `M_Calibrate`, `M_NumbaModel`
* CGEModel.parameters (263-264): `M_Calibrate`, `M_NumbaModel`
* CGEModel.unpacked_parameter_names (267-268): `M_Calibrate`, `M_NumbaModel`
* CGEModel.unpacked_parameters (271-275): `M_Calibrate`, `M_NumbaModel`
* CGEModel.unpacked_parameter_symbols (278-282): `M_Calibrate`, `M_NumbaModel`, `M_Registry`
* CGEModel.equation_names (285-286): `M_Calibrate`, `M_NumbaModel`
* CGEModel.equations (289-290): `M_Calibrate`, `M_Equations`, `M_NumbaModel`
* CGEModel.unpacked_equation_names (293-294): `M_Calibrate`, `M_Equations`, `M_NumbaModel`
* CGEModel.unpacked_equation_symbols (297-306): `M_Calibrate`, `M_Equations`, `M_NumbaModel`, `M_Registry`
* CGEModel.unpacked_equations (309-316): `M_Calibrate`, `M_Equations`
* CGEModel._add_object (318-331): `M_Registry`
* CGEModel._unpack_objects (333-355): `M_Equations`, `M_Expand`, `M_Registry`, `M_Simplify`
* CGEModel._add_objects (357-364): `M_Registry`
* CGEModel.add_parameter (366-368): `M_Registry`
* CGEModel.add_parameters (370-373): `M_Registry`
* CGEModel._unpack_parameters (375-379): `M_Expand`, `M_Registry`
* CGEModel.add_variable (381-383): `M_Registry`
* CGEModel.add_variables (385-388): `M_Registry`
* CGEModel._unpack_variables (390-394): `M_Expand`, `M_Registry`
* CGEModel.add_sympy_equation (396-449): `M_Parse`, `M_PyExpr`, `M_Registry`, `M_Simplify`, `M_SymExpr`
* CGEModel.add_pytensor_equation (451-452): `M_Registry`, `M_SymExpr`
* CGEModel.add_equations (454-461): `M_Parse`, `M_Registry`
* CGEModel._unpack_equations (463-473): `M_Equations`, `M_Registry`, `M_Simplify`
* CGEModel._get_object (475-476): `M_Registry`
* CGEModel.get_parameter (478-479): `M_Registry`
* CGEModel.get_parameters (481-485): `M_Registry`
* CGEModel.get_variable (487-488): `M_Registry`
* CGEModel.get_variables (490-494): `M_Registry`
* CGEModel.get (496-526): `M_Finalize`, `M_Registry`
* CGEModel.get_symbol (528-549): `M_Calibrate`, `M_Registry`
* CGEModel.get_unpacked_parent_object (551-557): `M_Registry`
* CGEModel.get_shape (559-561): `M_Finalize`
* CGEModel.summary (563-605): `M_Tables`
* CGEModel.equation_table (608-616): `M_Tables`
* CGEModel.calibrate (618-652): `M_Build`, `M_Calibrate`
* CGEModel._solve_with_euler_approximation (654-656): `M_Build`, `M_Run`, `M_Solve`
* CGEModel._solve_with_root (658-703): `M_Build`, `M_Run`, `M_SimResult`, `M_Simulate`, `M_Solve`
* CGEModel._solve_with_minimize (705-759): `M_Build`, `M_Run`, `M_SimResult`, `M_Simulate`, `M_Solve`
* CGEModel.generate_SAM (761-861): `M_SimResult`, `M_Utilities`
* CGEModel.simulate (863-1081): `M_Build`, `M_Calibrate`, `M_Results`, `M_Run`, `M_SimResult`, `M_Simulate`, `M_Solve`
* CGEModel.print_residuals (1083-1088): `M_Calibrate`
* CGEModel.check_for_equilibrium (1090-1157): `M_Equations`, `M_SimResult`, `M_Solve`, `M_SympyTensor`
* CGEModel.check_shape (1159-1169): `M_Finalize`
* CGEModel.finalize_calibration (1171-1183): `M_Finalize`, `M_Order`
* CGEModel.initialize_parameter (1185-1188): `M_Finalize`
* write_results (1191-1220): `M_Results`
* read_results (1223-1249): `M_Results`

**base/function_wrappers.py**

* wrap_pytensor_func_for_scipy (18-74): `M_Solve`, `M_SympyTensor`, `M_Wrappers`
* wrap_pytensor_func_for_scipy.inner_f (53-57): `M_Solve`, `M_SympyTensor`, `M_Wrappers`
* wrap_pytensor_func_for_scipy.inner_f (62-72): `M_Solve`, `M_Wrappers`
* wrap_scipy_func_for_pytensor (77-104): `M_Wrappers`
* wrap_scipy_func_for_pytensor.inner (86-95): `M_Wrappers`
* wrap_scipy_func_for_pytensor.inner (100-102): `M_Wrappers`
* wrap_fixed_values (107-167): `M_Wrappers`
* wrap_fixed_values.inner (149-165): `M_Wrappers`
* wrap_numba_euler_function (170-197): `M_Euler`, `M_Wrappers`
* wrap_numba_euler_function.f_euler (172-195): `M_Euler`, `M_Wrappers`
* return_array_from_jax_wrapper (200-205): `M_Modes`
* return_array_from_jax_wrapper.f_array_return (202-203): `M_Modes`

**base/primitives.py**

* _pretty_print_dim_flags (22-29): `M_Primitives`
* _tokenize_latex_subscript (32-43): `M_Primitives`
* ModelObject (47-212): `M_Access`, `M_ExpandHeap`, `M_Greek`, `M_Order`, `M_Primitives`, `M_Simplify`, `M_SymExpr`
* ModelObject.__post_init__ (60-70): `M_Order`, `M_Primitives`
* ModelObject._make_latex_subscript (72-82): `M_Primitives`
* ModelObject._initialize_index (84-108): `M_Primitives`
* ModelObject._initialize_dim_vals (110-133): `M_Primitives`
* ModelObject._initialize_latex_name (135-138): `M_Greek`
* ModelObject._initialize_full_latex_name (140-166): `M_Primitives`
* ModelObject._initialize_description (168-172): `M_Primitives`
* ModelObject.__getitem__ (174-175): `M_Access`
* ModelObject.__repr__ (177-178): `M_Access`
* ModelObject.to_dict (180-188): `M_Access`
* ModelObject.to_sympy (190-201): `M_Simplify`, `M_SymExpr`
* ModelObject.update_dim_value (203-209): `M_ExpandHeap`, `M_Primitives`
* ModelObject.copy (211-212): `M_ExpandHeap`
* Variable (216-217): `M_Order`, `M_Primitives`
* Parameter (221-222): `M_Order`, `M_Primitives`
* Equation (226-238): `M_Registry`, `M_Tables`
* Equation._set_eq_id (231-232): `M_Registry`, `M_Tables`
* Equation.__getitem__ (234-235): `M_Registry`, `M_Tables`
* Equation.__repr__ (237-238): `M_Registry`, `M_Tables`
* _SympyEquation (243-280): `M_Equations`, `M_Simplify`, `M_Tables`
* _SympyEquation.__repr__ (250-251): `M_Equations`, `M_Tables`
* _SympyEquation._repr_latex_ (253-255): `M_Equations`, `M_Tables`
* _SympyEquation.copy (257-258): `M_Equations`, `M_Tables`
* _SympyEquation.update_dim_value (260-270): `M_Equations`, `M_Simplify`, `M_Tables`
* _SympyEquation.to_dict (272-280): `M_Tables`
* Result (283-316): `M_Calibrate`, `M_Solve`, `M_Tables`
* Result.__init__ (284-301): `M_Calibrate`, `M_Solve`
* Result.to_dict (303-308): `M_Calibrate`, `M_Solve`, `M_Tables`
* Result.to_frame (310-311): `M_Calibrate`, `M_Solve`, `M_Tables`
* Result.format_datetime (313-316): `M_Calibrate`, `M_Solve`

**base/utilities.py**

* unpack_equation_strings (25-63): `M_Expand`, `M_Primitives`
* _validate_input (66-79): `M_Registry`
* ensure_input_is_sequence (82-98): `M_Registry`
* _expand_var_by_index (101-173): `M_Expand`
* _replace_dim_marker_with_dim_name (176-207): `M_Expand`
* infer_object_shape_from_coords (210-256): `M_Utilities`
* make_flat_array_return_mask (259-275): `M_Utilities`
* flat_array_to_variable_dict (278-341): `M_Utilities`
* variable_dict_to_flat_array (344-389): `M_Utilities`
* flat_mask_from_param_names (392-412): `M_Utilities`
* get_method_defaults (415-423): `M_Utilities`
* create_final_param_dict (426-464): `M_ScenarioHeap`, `M_Utilities`

**compile/euler.py**

* pytensor_euler_function_with_python_loop (20-77): `M_Euler`, `M_Stats`
* symbolic_euler_approximation (80-224): `M_Build`, `M_Euler`
* symbolic_euler_approximation.step_func (153-206): `M_Euler`
* get_step_statistics (227-239): `M_Stats`
* _make_euler_matrices (242-254): `M_Jacobian`

**compile/jax.py**

* graph_to_jax_function (29-49): `M_ArrayModel`, `M_Calibrate`
* graph_to_jax_function.f_jax (46-47): `M_ArrayModel`, `M_Calibrate`
* make_jax_system_and_jacobian (52-64): `M_ArrayModel`, `M_Calibrate`
* make_jax_system_and_jacobian.f_sys_wrapped (56-60): `M_ArrayModel`, `M_Calibrate`
* jax_euler_step (67-115): `M_Euler`
* jax_euler_step.f_step (77-113): `M_Euler`
* jax_loss_grad_hessp (118-145): `M_ArrayModel`
* jax_loss_grad_hessp.f_loss_wrapped (125-129): `M_ArrayModel`
* jax_loss_grad_hessp.f_grad_jax (133-134): `M_ArrayModel`
* jax_loss_grad_hessp.f_hess_jax (138-139): `M_ArrayModel`
* jax_loss_grad_hessp.f_hessp_jax (141-143): `M_ArrayModel`
* compile_jax_cge_functions (148-203): `M_ArrayModel`, `M_Build`, `M_Euler`, `M_Modes`

**compile/numba.py**

* compile_numba_jacobian_function (19-24): `M_Lambdify`
* compile_numba_error_function (27-32): `M_Calculus`, `M_Lambdify`, `S_Stationary`
* compile_numba_gradient_function (35-40): `M_Lambdify`
* compile_numba_hessp_function (43-53): `M_Lambdify`
* compile_numba_hessp_function.f_hessp (50-51): `M_Lambdify`
* float_to_array (57-58): `M_Euler`
* euler_approx (62-129): `M_Euler`, `M_NumbaEuler`
* compile_numba_euler_func (132-164): `M_Calculus`, `M_Euler`, `M_NumbaEuler`, `M_NumbaStep`
* compile_numba_euler_func.f_dX (156-160): `M_Euler`, `M_NumbaEuler`, `M_NumbaStep`
* compile_numba_cge_functions (167-228): `M_Build`, `M_Calibrate`, `M_Equations`, `M_Lambdify`, `M_NumbaModel`

**compile/numba_tools.py**

* NumbaFriendlyNumPyPrinter (17-61): `M_Kink`, `M_NumbaSource`, `M_Piecewise`
* NumbaFriendlyNumPyPrinter._print_Max (20-25): `M_Kink`, `M_NumbaSource`
* NumbaFriendlyNumPyPrinter._print_Piecewise (27-50): `M_Piecewise`
* NumbaFriendlyNumPyPrinter._print_DiracDelta (52-55): `M_Kink`
* NumbaFriendlyNumPyPrinter._print_log (57-61): `M_Kink`
* numba_lambdify (64-225): `M_Kink`, `M_Lambdify`, `M_NumbaModel`, `M_NumbaSource`, `M_Piecewise`

**compile/pytensor.py**

* vars_and_params_to_pytensor (35-47): `M_Graph`, `M_SympyTensor`, `M_Tensor`
* cge_primitives_to_pytensor (50-72): `M_Equations`, `M_Graph`, `M_PyExpr`, `M_Tensor`
* make_jvp (75-106): `M_Jacobian`
* validate_pytensor_parsing_result (109-127): `M_ArrayModel`, `M_Graph`, `M_SympyTensor`
* compile_pytensor_jacobian_function (130-150): `M_ArrayModel`, `M_Jacobian`
* compile_pytensor_error_function (153-167): `M_ArrayModel`, `M_Jacobian`
* compile_pytensor_gradient_function (170-189): `M_ArrayModel`, `M_Jacobian`, `M_NoZero`
* compile_pytensor_hess_function (192-209): `M_ArrayModel`, `M_Calibrate`, `M_Jacobian`
* compile_pytensor_hessp_function (212-225): `M_ArrayModel`, `M_Calibrate`, `M_Jacobian`
* pytensor_euler_step (228-269): `M_Calibrate`, `M_Euler`, `M_Jacobian`
* compile_pytensor_cge_functions (272-358): `M_ArrayModel`, `M_Build`, `M_Calibrate`, `M_Euler`, `M_Modes`
* compile_pytensor_cge_functions.unwrap_jit_fn (351-354): `M_ArrayModel`, `M_Build`, `M_Modes`
* compile_cge_model_to_pytensor_Op (361-395): `M_Ops`

**compile/pytensor_tools.py**

* prod_to_no_zero_prod (19-30): `M_NoZero`
* rewrite_pregrad (33-37): `M_NoZero`
* clone_and_rename (40-61): `M_Ops`
* flatten_equations (64-99): `M_Equations`, `M_Jacobian`, `M_Tensor`
* make_printer_cache (102-125): `M_Graph`, `M_SympyTensor`, `M_Tensor`
* make_printer_cache.make_key (121-122): `M_Graph`, `M_SympyTensor`, `M_Tensor`
* flat_tensor_to_ragged_list (128-138): `M_Euler`
* object_to_pytensor (141-182): `M_Tensor`
* make_unpacked_to_packed_map (185-215): `M_Graph`, `M_SympyTensor`
* unpacked_graph_to_packed_graph (218-222): `M_Access`, `M_SympyTensor`
* make_jacobian (225-259): `M_ArrayModel`, `M_Jacobian`, `M_Ops`

**compile/sympy.py**

* make_sympy_jacobian (6-11): `M_Calculus`, `M_Kink`
* make_sympy_gradient (14-16): `M_Calculus`, `M_Kink`
* make_sympy_hessp (19-28): `M_Calculus`, `M_Kink`

**compile/sympytensor.py**

* sympy_cge_primitives_to_pytensor (36-63): `M_Equations`, `M_SympyTensor`
* make_sympytensor_jacobian (66-90): `M_Access`
* make_sympytensor_jvp (93-135): `M_Access`
* compile_sympytensor_jacobian (138-170): `M_Calibrate`, `M_Modes`, `M_SympyTensor`
* compile_sympytensor_error_function (173-198): `M_Calculus`, `M_Calibrate`, `M_Modes`, `M_SympyTensor`
* compile_sympytensor_gradient_function (201-232): `M_Calibrate`, `M_Modes`, `M_SympyTensor`
* compile_sympytensor_hess_function (235-266): `M_Calibrate`, `M_Modes`, `M_SympyTensor`
* compile_sympytensor_hessp_function (269-304): `M_Build`, `M_Modes`, `M_SympyTensor`
* compile_sympytensor_cge_functions (307-429): `M_Build`, `M_Modes`, `M_SympyTensor`

**optimize.py**

* eval_func_maybe_exog (10-16): `M_Newton`, `M_NewtonNan`
* _newton_step (19-30): `M_Newton`, `M_NewtonNan`
* no_op (33-34): `M_Newton`, `M_NewtonNan`
* compute_norms (37-44): `M_Newton`, `M_NewtonNan`
* _check_convergence (47-50): `M_Newton`, `M_NewtonNan`
* check_convergence (53-54): `M_Newton`, `M_NewtonNan`
* check_stepsize (57-64): `M_Newton`, `M_NewtonNan`
* backtrack_if_not_decreasing (67-68): `M_Newton`, `M_NewtonNan`
* scan_body (71-99): `M_Newton`, `M_NewtonNan`
* _process_root_data (102-110): `M_Newton`, `M_NewtonNan`
* root (113-194): `M_Newton`, `M_NewtonNan`

**plotting.py**

* prepare_gridspec_figure (14-53): `M_Plotting`
* plot_lines (56-197): `M_PlotLines`
* plot_lines.f_cmap (142-143): `M_PlotLines`
* plot_lines.f_cmap (146-147): `M_PlotLines`
* plot_areas (200-301): `M_Plotting`
* _compute_bar_data (304-324): `M_PlotGiven`, `M_PlotLines`, `M_Plotting`
* _plot_one_bar (327-382): `M_PlotBars`, `M_PlotGiven`, `M_PlotLines`, `M_PlotTogether`, `M_Plotting`
* plot_bar (385-505): `M_PlotBars`, `M_PlotGiven`, `M_PlotLines`, `M_PlotTogether`

**production_functions.py**

* _check_pairwise_lengths_match (13-19): `M_Production`
* unwrap_singleton_list (22-26): `M_Production`
* unpack_string_inputs (29-80): `M_Production`
* _add_second_alpha (83-95): `M_Production`
* cobb_douglass (98-205): `M_Production`
* CES (208-334): `M_Production`
* dixit_stiglitz (337-476): `M_Production`
* _1d_leontief (479-499): `M_Production`
* _2d_leontief (502-594): `M_Production`
* _2d_leontief._swapaxes (556-558): `M_Production`
* _2d_leontief._T (560-565): `M_Production`
* leontief (597-710): `M_Production`

**tools/output_tools.py**

* get_node_level (22-26): `M_Nodes`
* get_n_descendents (29-33): `M_Nodes`, `M_Output`
* get_n_generations (36-39): `M_Nodes`
* compute_padding (42-46): `M_Nodes`, `M_Output`
* Node (49-109): `M_Nodes`, `M_Output`
* Node.__init__ (60-67): `M_Nodes`, `M_Output`
* Node.add_child (69-70): `M_Nodes`, `M_Output`
* Node.n_children (73-74): `M_Nodes`, `M_Output`
* Node.n_descendents (77-78): `M_Nodes`, `M_Output`
* Node.n_generations (81-82): `M_Nodes`, `M_Output`
* Node.update_parent (84-86): `M_Nodes`, `M_Output`
* Node.get_parent (88-89): `M_Nodes`, `M_Output`
* Node.get_all_descendents (91-97): `M_Nodes`, `M_Output`
* Node.get_all_ancestors (99-106): `M_Nodes`, `M_Output`
* Node.__repr__ (108-109): `M_Nodes`, `M_Output`
* Tree (112-191): `M_Nodes`, `M_Output`
* Tree.__init__ (118-120): `M_Nodes`
* Tree.add_node (122-124): `M_Nodes`
* Tree.n_nodes (127-128): `M_Nodes`
* Tree.max_level (131-132): `M_Nodes`, `M_Output`
* Tree.get_nodes (134-135): `M_Nodes`, `M_Output`
* Tree.get_roots (137-138): `M_Nodes`
* Tree.get_leaves (140-141): `M_Nodes`, `M_Output`
* Tree.get_family_trees (143-145): `M_Nodes`
* Tree.get_subtree (147-149): `M_Nodes`
* Tree.split_tree (151-165): `M_Nodes`
* Tree.make_headings (167-191): `M_Output`
* build_tree (194-227): `M_Nodes`, `M_Output`
* heading_to_latex (230-231): `M_Tables`
* parse_data (234-248): `M_Tables`
* make_table (251-275): `M_Output`, `M_Tables`
* make_summary_table (278-299): `M_Tables`
* make_equation_table (302-318): `M_Tables`
* convert_table_to_array (321-336): `M_Tables`
* display_latex_table (339-341): `M_Tables`
* display_info_as_table (344-346): `M_Tables`
* display_eqs_as_table (349-351): `M_Tables`
* sub_info_dicts (354-383): `M_Info`
* get_info (386-391): `M_Info`
* latex_print_equations (394-409): `M_Declare`
* list_of_array_to_idata (412-456): `M_SimResult`
* optimizer_result_to_idata (459-487): `M_SimResult`, `M_Solve`

**tools/parsing.py**

* normalize_eq (4-22): `M_PyExpr`
* wrap_in_ravel (25-26): `M_PyExpr`

**tools/rebalance.py**

* SAMTransformer (20-81): `M_Rebalance`
* SAMTransformer.__init__ (23-27): `M_Rebalance`
* SAMTransformer.fit (29-52): `M_Rebalance`
* SAMTransformer.transform (54-64): `M_Rebalance`
* SAMTransformer.fit_transform (66-68): `M_Rebalance`
* SAMTransformer.inverse_transform (70-81): `M_Rebalance`
* get_flat_nonzero_values (84-86): `M_Rebalance`
* _crossentropy_method_setup (89-156): `M_Rebalance`
* sparse_to_vector_and_matrix (159-171): `M_Rebalance`
* _balance_with_cvxpy (174-201): `M_Rebalance`
* _balance_with_scipy (204-268): `M_Rebalance`
* balance_SAM (271-314): `M_Rebalance`

**tools/sympy_tools.py**

* get_inputs (14-32): `M_Inputs`
* _prod (35-50): `M_Inputs`
* expand_indices (60-81): `M_Indices`
* make_symbol (84-90): `M_Declare`
* sub_all_eqs (93-96): `M_Simplify`
* make_indexed_name (99-117): `M_Expand`, `M_Simplify`
* indexed_variable_to_sympy_symbol (120-139): `M_Simplify`
* indexed_variables_to_sub_dict (142-166): `M_Simplify`
* enumerate_indexbase (169-217): `M_Indices`
* indexed_var_to_symbol (220-221): `M_Indices`
* make_indexbase_sub_dict (224-228): `M_Indices`
* info_to_symbols (231-247): `M_Declare`
* info_to_symbols.inject_index (237-240): `M_Declare`
* symbol (250-258): `M_Indices`, `M_Info`
* symbols (261-262): `M_Info`
* dict_info_to_symbols (265-270): `M_Declare`
* remove_string_keys (273-278): `M_Declare`
* find_equation_dims (281-284): `M_SymExpr`
* substitute_reduce_ops (287-349): `M_Simplify`, `M_SymExpr`
* substitute_reduce_ops.make_sub_dict (304-322): `M_Simplify`, `M_SymExpr`
* _validate_dims (352-384): `M_Expand`
* expand_obj_by_indices (387-430): `M_Equations`, `M_Expand`, `M_ExpandHeap`, `M_Simplify`
* make_dummy_sub_dict (433-464): `M_Dummy`
* replace_indexed_variables (467-472): `M_Dummy`
* jacobian_as_dok_data (475-503): `M_Calculus`
* sparse_jacobian (506-529): `M_Calculus`
* recursive_solve_symbolic (532-591): `M_Recursive`

**tools/utils.py**

* initialize_progress_bar (15-28): `M_Access`
* print_latex (31-33): `M_Access`
* union_many (36-41): `M_Declare`
* brackets_to_snake_case (44-52): `M_Indices`
* at_least_list (55-72): `M_Production`
