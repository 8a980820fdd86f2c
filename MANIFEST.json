{
 "claims": [
  {
   "property": "C01",
   "status": "proved",
   "theorems": [
    "c01_pack_unpack",
    "c01_other_entries_irrelevant",
    "c01_no_parameters_refuted"
   ],
   "note": "Round trip dict -> vector -> dict for all models, ranks and sizes. The hypotheses vars<>[] and params<>[] are necessary: c01_no_parameters_refuted shows np.concatenate([]) makes every model without parameters fail."
  },
  {
   "property": "C02",
   "status": "proved",
   "theorems": [
    "c02_unpack_pack"
   ],
   "note": "Round trip vector -> dict -> vector."
  },
  {
   "property": "C03",
   "status": "proved",
   "theorems": [
    "c03_addressing"
   ],
   "note": "Row-major addressing, existence and uniqueness."
  },
  {
   "property": "C04",
   "status": "partial",
   "theorems": [
    "c04_short_rejected",
    "c04_excess_accepted",
    "c04_wrong_length_rejected_refuted"
   ],
   "note": "Too-short vectors are rejected (proved); too-long vectors are silently truncated, so the property as stated is refuted."
  },
  {
   "property": "C05",
   "status": "proved",
   "theorems": [
    "c05_return_mask"
   ],
   "note": "Mask of make_flat_array_return_mask, length, selection and position-wise."
  },
  {
   "property": "C06",
   "status": "proved",
   "theorems": [
    "c06_param_mask",
    "c06_unknown_name_rejected"
   ],
   "note": "Mask of flat_mask_from_param_names; unknown names raise KeyError."
  },
  {
   "property": "C07",
   "status": "partial",
   "theorems": [
    "c07_scenario_values",
    "c07_caller_data_unchanged",
    "c07_in_place_refines",
    "c07_shared_array_refuted"
   ],
   "note": "Values, key order and untouched caller data proved for every scenario; the in-place (+=, *=) heap version is proved equal to the pure one when no two initial entries share an array object. Refuted without that condition: deepcopy keeps sharing, so a delta on one name also changes the other (c07_shared_array_refuted)."
  },
  {
   "property": "C08",
   "status": "proved",
   "theorems": [
    "c08_accepted_iff",
    "c08_error_class"
   ],
   "note": "Acceptance iff, and the error classes."
  },
  {
   "property": "C09",
   "status": "partial",
   "theorems": [
    "c09_unknown_relative_shock_rejected",
    "c09_nonparameter_shock_has_no_effect",
    "c09_ignored_shock_refuted"
   ],
   "note": "Refuted as stated: final_values with an unknown name or a variable name is accepted and has no effect on the simulated parameter vector (c09_ignored_shock_refuted, c09_nonparameter_shock_has_no_effect). Proved: unknown names in final_delta/final_delta_pct are rejected."
  },
  {
   "property": "C10",
   "status": "partial",
   "theorems": [
    "c10_flags",
    "c10_unknown_method",
    "c10_hess_needs_gradient",
    "c10_hessp_without_gradient_refuted",
    "c10_explicit_hess_dropped"
   ],
   "note": "Flag resolution proved in full, and that a full Hessian is never passed without gradient. Refuted: with use_jac=False simulate passes hessp without a gradient for every method; an explicit use_hess=True is dropped because use_hessp defaults to True."
  },
  {
   "property": "C11",
   "status": "proved",
   "theorems": [
    "c11_enumerates",
    "c11_requested_dims",
    "c11_unused_dims",
    "c11_description",
    "c11_original_unchanged"
   ],
   "note": "Texts derived from the labels (displayed latex name, description markers) are updated; every other attribute is unchanged. The heap version shows every existing object and dictionary is untouched."
  },
  {
   "property": "C12",
   "status": "partial",
   "theorems": [
    "c12_enumerates",
    "c12_foreign_dim_rejected",
    "c12_default_attributes_kept",
    "c12_attributes_refuted"
   ],
   "note": "Enumeration and rejection proved. The attribute part is refuted: latex name, assumptions and subscript option are replaced by constructor defaults (c12_attributes_refuted); kept exactly when they are the defaults."
  },
  {
   "property": "C13",
   "status": "proved",
   "theorems": [
    "c13_kth_name"
   ],
   "note": ""
  },
  {
   "property": "C14",
   "status": "partial",
   "theorems": [
    "c14_distinct",
    "c14_same_object_collision_refuted",
    "c14_two_objects_collision_refuted"
   ],
   "note": "Refuted as stated: names collide (two c14_*_refuted witnesses). Proved when names are not extensions of one another, labels read differently and labels of multi-dim objects have no underscore."
  },
  {
   "property": "C15",
   "status": "partial",
   "theorems": [
    "c15_no_marker",
    "c15_markers_replaced",
    "c15_equations_in_order",
    "c15_marker_names",
    "c15_repeated_marker_refuted"
   ],
   "note": "Proved for texts with distinct markers; refuted for a marker written twice (names are duplicated)."
  },
  {
   "property": "C16",
   "status": "partial",
   "theorems": [
    "c16_sympy_labels",
    "c16_unmarked_name_refuted",
    "c16_pytensor_labels",
    "c16_pytensor_order_refuted"
   ],
   "note": "Proved for sympy parsing with distinct unpacked names and for pytensor parsing with markers in array order; refuted otherwise."
  },
  {
   "property": "C17",
   "status": "partial",
   "theorems": [
    "c17_dims_string",
    "c17_other_forms",
    "c17_empty_string_refuted",
    "c17_latex_tokens",
    "c17_comma_label_refuted"
   ],
   "note": "Proved for non-empty lists of dims and comma-free labels; refuted for the empty string and for labels with commas."
  },
  {
   "property": "C18",
   "status": "proved",
   "theorems": [
    "c18_dims",
    "c18_reductions"
   ],
   "note": "find_equation_dims on any expression; and after the reductions have been expanded (non-nested reductions, labels that are not numerals)."
  },
  {
   "property": "C19",
   "status": "proved",
   "theorems": [
    "c19_call",
    "c19_history",
    "c19_spec_deterministic",
    "c19_unique_names",
    "c19_constructed",
    "c19_readd_rejected"
   ],
   "note": "Every call refines an ordered-map specification (call_spec); names stay unique and objects filed under their own name and kind over any history; construction establishes the invariant. sympy parsing is an arbitrary function argument."
  },
  {
   "property": "C20",
   "status": "partial",
   "theorems": [
    "c20_single_atomic",
    "c20_wrong_class_atomic",
    "c20_fresh_batch",
    "c20_batch_refuted"
   ],
   "note": "Refuted for batches: a duplicate name or unparsable equation leaves the objects before it registered (c20_batch_refuted). Proved: single additions are atomic, a wrong class anywhere rejects the whole batch, and a batch of fresh names is added entirely."
  },
  {
   "property": "C21",
   "status": "partial",
   "theorems": [
    "c21_get_by_name",
    "c21_get_all",
    "c21_symbol_by_name",
    "c21_all_symbols_refuted",
    "c21_same_object_refuted"
   ],
   "note": "Refuted: get_symbol() without names raises in every model that has a parameter; get prefers variables, get_symbol parameters, when a name is shared. Proved: lookup by name for get and get_symbol, get() without names when variable and parameter names are disjoint, agreement when no unpacked name is shared."
  },
  {
   "property": "C22",
   "status": "partial",
   "theorems": [
    "c22_square_counts",
    "c22_numeraire_refuted",
    "c22_text_ignored_refuted"
   ],
   "note": "Refuted with a numeraire (it is still counted) and on the pytensor path (only equation names are counted). Proved for the sympy path: accepted iff the scalar counts of variables (numeraire included) and equations agree, otherwise ValueError."
  },
  {
   "property": "C23",
   "status": "partial",
   "theorems": [
    "c23_numeraire_not_variable",
    "c23_unpacked_refuted"
   ],
   "note": "Refuted: the numeraire stays among the unpacked variables and is not a parameter. Proved: it is removed from the packed variables, the order of the others kept, and get no longer finds it."
  },
  {
   "property": "C24",
   "status": "proved",
   "theorems": [
    "c24_simulate_refuses",
    "c24_simulate_accepts",
    "c24_initial_state_names",
    "c24_right_names_accepted"
   ],
   "note": "For the whole call of simulate (c24_simulate_refuses, c24_simulate_accepts) and for the stage that checks names (c24_initial_state_names, c24_right_names_accepted). Calls answered from a stored result return before the check; that is C28 and C94."
  },
  {
   "property": "C25",
   "status": "proved",
   "theorems": [
    "c25_euler_refused",
    "c25_optimizer_cells",
    "c25_step_dimension_refuted",
    "c25_euler_cells"
   ],
   "note": "Dictionary initial state. c25_step_dimension_refuted shows why the restriction on a dimension called step is needed. Solver output is any vector of the right length. c25_euler_cells covers the Euler dataset built from one trajectory per object."
  },
  {
   "property": "C26",
   "status": "partial",
   "theorems": [
    "c26_no_fixed_values",
    "c26_fixed_last",
    "c26_fixed_not_returned_refuted",
    "c26_misaligned_refuted"
   ],
   "note": "Refuted with fixed values: the solver's vector covers all variables but is decoded over the free ones (c26_misaligned_refuted), and fixed variables are never returned. Proved without fixed values, and for the free variables when the fixed ones are declared last."
  },
  {
   "property": "C27",
   "status": "partial",
   "theorems": [
    "c27_nan_suffix",
    "c27_gap_raises_refuted",
    "c27_warning_refuted"
   ],
   "note": "Refuted: a finite step after a NaN step raises IndexError (c27_gap_raises_refuted), and on backends returning n+1 rows the warning is wrong both ways (c27_warning_refuted). Proved for NaNs forming a suffix, with the exact condition of the warning."
  },
  {
   "property": "C28",
   "status": "partial",
   "theorems": [
    "c28_fresh",
    "c28_saved",
    "c28_other_scenario_refuted"
   ],
   "note": "Refuted as stated: with an existing file of the (scenario-independent) name, simulate without overwrite returns the stored result whatever the scenario (c28_other_scenario_refuted). Proved: with overwrite or without such a file the result is the one computed for this call (c28_fresh), and a saved result reads back (c28_saved)."
  },
  {
   "property": "C29",
   "status": "proved",
   "theorems": [
    "c29_terminates",
    "c29_no_overwrite",
    "c29_existing_files_kept"
   ],
   "note": "First free name among stem.pkl, stem(1).pkl, ...; all other files unchanged; the loop ends. c29_existing_files_kept has no condition on the name."
  },
  {
   "property": "C30",
   "status": "partial",
   "theorems": [
    "c30_latest_without_overwrite",
    "c30_latest_overwriting",
    "c30_overwrite_after_suffix_refuted",
    "c30_with_extension_refuted",
    "c30_pkl_name_refuted"
   ],
   "note": "Refuted for histories mixing overwrite=False and True (older suffix returned), for reading with the extension after a numbered save (first result returned) and for names ending in pkl without a dot. Proved for histories without overwrite and for histories always overwriting, interleaved with saves under unrelated names, reading by the bare name."
  },
  {
   "property": "C31",
   "status": "partial",
   "theorems": [
    "c31_no_overwrite_keeps_files",
    "c31_readable_by_file_name",
    "c31_overwrite_refuted",
    "c31_read_by_name_refuted"
   ],
   "note": "Refuted: overwriting truncates the only copy (c31_overwrite_refuted), and a crash of a non-overwriting save leaves a partial file that reading by name picks (c31_read_by_name_refuted). Proved: without overwrite every existing file is kept at every crash point and a complete file can be read by its full name."
  },
  {
   "property": "C32",
   "status": "partial",
   "theorems": [
    "c32_decision",
    "c32_explained",
    "c32_unexplained_refuted"
   ],
   "note": "Over exact rationals. The decision and the exact list are proved as stated; 'lists at least one' is refuted (c32_unexplained_refuted) and proved when there are fewer than 1/tol residuals."
  },
  {
   "property": "C33",
   "status": "proved",
   "theorems": [
    "c33_own_array",
    "c33_flat_round_trip",
    "c33_keyword_round_trip",
    "c33_no_parameters_refuted"
   ],
   "note": "Both compositions; a model without parameters always raises (c33_no_parameters_refuted)."
  },
  {
   "property": "C34",
   "status": "proved",
   "theorems": [
    "c34_hessp_arguments",
    "c34_flat_round_trip",
    "c34_point_name_refuted"
   ],
   "note": "c34_point_name_refuted shows a parameter called <variable>_point being overwritten."
  },
  {
   "property": "C35",
   "status": "partial",
   "theorems": [
    "c35_unknown_rejected",
    "c35_always_raises_refuted",
    "c35_mask_keeps_fixed_refuted",
    "c35_result_refuted"
   ],
   "note": "Refuted: every call of the wrapped function raises (c35_always_raises_refuted), and the mask keeps the fixed entries instead of the free ones (c35_mask_keeps_fixed_refuted; c35_result_refuted for rows and columns of any call that returns). Proved: unknown names are rejected, and only those."
  },
  {
   "property": "C36",
   "status": "proved",
   "theorems": [
    "c36_trajectory_cut",
    "c36_empty_dimension_refuted"
   ],
   "note": "An empty dimension raises (c36_empty_dimension_refuted)."
  },
  {
   "property": "C37",
   "status": "proved",
   "theorems": [
    "c37_line"
   ],
   "note": "All four implementations (numba, jax and pytensor loops, pytensor scan), Euler and RK4 where offered; exact real arithmetic. Names that clash with the generated _initial/_final/n_steps keywords are excluded by the quantifier and make the loops raise (c40_keyword_clash_refuted)."
  },
  {
   "property": "C38",
   "status": "proved",
   "theorems": [
    "c38_affine"
   ],
   "note": "All implementations, Euler and RK4; the linear solver is an argument that solves systems with the model's matrix."
  },
  {
   "property": "C39",
   "status": "proved",
   "theorems": [
    "c39_no_shock"
   ],
   "note": "All implementations, Euler and RK4, any n including 0 (no returned rows in the loops)."
  },
  {
   "property": "C40",
   "status": "partial",
   "theorems": [
    "c40_numba_scan",
    "c40_python_shifted",
    "c40_labels_refuted",
    "c40_keyword_clash_refuted",
    "c40_scan_unreachable"
   ],
   "note": "Refuted as stated: the python loops drop the initial state, so their labels are one less for every model (c40_labels_refuted), they raise when a parameter's name is another's plus _final (c40_keyword_clash_refuted), and the scan is compiled with a keyword it does not accept (c40_scan_unreachable). Proved: numba and scan return identical arrays; loop row t is scan row t+1."
  },
  {
   "property": "C41",
   "status": "partial",
   "theorems": [
    "c41_step",
    "c41_name_capture_refuted",
    "c41_reserved_name_refuted"
   ],
   "note": "Proved when no name is another name plus _0, all names are Python identifiers, and no parameter is called exog_inputs, endog_inputs, np or len; for every sp.cse that keeps values. Refuted otherwise: a parameter X_0 beside a variable X gets the value of X instead of its step, and a parameter called exog_inputs raises TypeError."
  },
  {
   "property": "C42",
   "status": "proved",
   "theorems": [
    "c42_combination",
    "c42_constant_slope",
    "c42_polynomial_path",
    "c42_polynomial_run",
    "c42_degree_five_refuted",
    "c42_refused"
   ],
   "note": "c42_degree_five_refuted shows that degree four is the best possible; numba and pytensor loops refuse RK4 (c42_refused)."
  },
  {
   "property": "C43",
   "status": "proved",
   "theorems": [
    "c43_success_is_root",
    "c43_empty_parameters_refuted",
    "c43_empty_parameters_state"
   ],
   "note": "parameters={} is excluded by the quantifier: args[-0:] then passes every scan argument to the residual function, which raises (c43_empty_parameters_refuted)."
  },
  {
   "property": "C44",
   "status": "proved",
   "theorems": [
    "c44_monotone",
    "c44_never_worse",
    "c44_step_sizes"
   ],
   "note": "Exact real arithmetic."
  },
  {
   "property": "C45",
   "status": "proved",
   "theorems": [
    "c45_frozen",
    "c45_count"
   ],
   "note": "The count is the number of iterations that ended unconverged; they come first."
  },
  {
   "property": "C46",
   "status": "proved",
   "theorems": [
    "c46_affine"
   ],
   "note": "tol > 0; any linear solver that solves systems with the system's matrix."
  },
  {
   "property": "C47",
   "status": "partial",
   "theorems": [
    "c47_value",
    "c47_numeral_labels_refuted",
    "c47_fixed_index_refuted"
   ],
   "note": "Proved for reductions that are not nested and labels that are not numerals. Refuted for numeral labels (the position is substituted twice) and for a fixed label inside a reduction (KeyError)."
  },
  {
   "property": "C48",
   "status": "partial",
   "theorems": [
    "c48_refuted"
   ],
   "note": "Refuted: for each of the four nestings of a sum or product in another, every visiting order and every substitution rule, the result is an error or still contains a reduction or a bare position."
  },
  {
   "property": "C49",
   "status": "proved",
   "theorems": [
    "c49_same_matrix",
    "c49_shapes_refuted"
   ],
   "note": "For a non-empty list or column and at least one variable. For other shapes the two functions disagree (c49_shapes_refuted): a row matrix is accepted by the dense one and rejected by the sparse one, an empty list of variables the other way round."
  },
  {
   "property": "C50",
   "status": "proved",
   "theorems": [
    "c50_jacobian",
    "c50_gradient",
    "c50_hessian",
    "c50_hessp"
   ],
   "note": "For the symbolic path (make_sympy_*, squared loss); pytensor.grad is external and not modelled."
  },
  {
   "property": "C51",
   "status": "partial",
   "theorems": [
    "c51_solution",
    "c51_initial_kept",
    "c51_stuck",
    "c51_no_solution_refuted",
    "c51_contradiction_refuted",
    "c51_overwritten_refuted",
    "c51_early_stop_refuted"
   ],
   "note": "Proved: initial values are kept; if the first answers of sp.solve are the values of one solution of the system, a returned result satisfies every equation; a ValueError with enough iterations and another count of known values means every remaining equation has two unknowns. Refuted in general: an equation without solution is answered by 0, contradicted data are not noticed, two equations of one pass overwrite each other, and a solvable system is given up when the number of known values happens to equal the number of equations."
  },
  {
   "property": "C52",
   "status": "proved",
   "theorems": [
    "c52_packed_value"
   ],
   "note": "Graph replacement is modelled as reading the indexed element of the packed array."
  },
  {
   "property": "C53",
   "status": "proved",
   "theorems": [
    "c53_accepts_iff",
    "c53_pt_rejected"
   ],
   "note": "eval is modelled by the names an expression uses; an object called pt makes every model invalid (c53_pt_rejected)."
  },
  {
   "property": "C54",
   "status": "partial",
   "theorems": [
    "c54_grammar",
    "c54_difference",
    "c54_unchanged",
    "c54_ravel",
    "c54_keywords_refuted",
    "c54_spaced_axis_refuted"
   ],
   "note": "Difference (syntax tree and value) proved for every left and right side of the modelled Python grammar; equations whose only '=' are axis= unchanged; the parser of the model accepts exactly the strings of the grammar (c54_grammar); the ravel wrapper applies to the whole equation (c54_ravel). Refuted: keyword arguments other than axis, and axis followed by a space, are split at (c54_keywords_refuted, c54_spaced_axis_refuted)."
  },
  {
   "property": "C55",
   "status": "partial",
   "theorems": [
    "c55_meaning",
    "c55_zero_profit",
    "c55_unit_cost",
    "c55_minimises",
    "c55_closures_partial",
    "c55_closures_refuted"
   ],
   "note": "Meaning of the equations, zero profit, unit cost and cost minimisation proved for every number of factors. Refuted: the two closures do not admit the same solutions; with shares summing to one the value definition follows from the demands and leaves output free (c55_closures_refuted). The production form implies the value form (c55_closures_partial)."
  },
  {
   "property": "C56",
   "status": "proved",
   "theorems": [
    "c56_equivalent",
    "c56_minimises"
   ],
   "note": "For scalar equations (expand_price_dim None), arguments written as units; additionally cost minimisation for positive elasticities. Powers have a value for positive bases only."
  },
  {
   "property": "C57",
   "status": "partial",
   "theorems": [
    "c57_pytensor",
    "c57_pytensor_default_refuted",
    "c57_one_dim",
    "c57_two_dims",
    "c57_default_refuted"
   ],
   "note": "One dimension: proved for every number of factors. Two dimensions: proved with the numba backend when output and its price do not vary along the summed dimension, and with the pytensor backend (residuals of the array equations, c57_pytensor) when the summed dimension is the first. Refuted for the default arguments with outputs along the second dimension as documented, for both backends (c57_default_refuted, c57_pytensor_default_refuted)."
  },
  {
   "property": "C58",
   "status": "partial",
   "theorems": [
    "c58_pytensor",
    "c58_pytensor_minimises",
    "c58_meaning",
    "c58_minimises",
    "c58_without_tfp",
    "c58_tfp_refuted",
    "c58_default_refuted"
   ],
   "note": "With TFP given: meaning, zero profit and cost minimisation proved for every number of varieties, with the numba backend for the production definition and with the pytensor backend for both definitions (c58_pytensor, c58_pytensor_minimises). Refuted: without TFP the demand is the reciprocal power (c58_without_tfp, c58_tfp_refuted); the default value definition with the numba backend has no value (c58_default_refuted)."
  },
  {
   "property": "C59",
   "status": "partial",
   "theorems": [
    "c59_accepts",
    "c59_equations",
    "c59_expand",
    "c59_inferred",
    "c59_inferred_refuted",
    "c59_unmodified",
    "c59_mutation_refuted",
    "c59_shared_list_refuted",
    "c59_again",
    "c59_string_refuted",
    "c59_leontief",
    "c59_dixit_stiglitz"
   ],
   "note": "Accepted lengths characterised for all four generators, equations the same when called again, argument unmodified outside one case. Refuted: one share of two given as a list is appended to in the caller's list (c59_mutation_refuted, c59_shared_list_refuted); the last share of three or more is not inferred (c59_inferred_refuted); a single factor given as a string is taken apart (c59_string_refuted)."
  },
  {
   "property": "C60",
   "status": "partial",
   "theorems": [
    "c60_cobb_douglass",
    "c60_CES",
    "c60_leontief",
    "c60_output_refuted",
    "c60_share_refuted",
    "c60_coefficient_refuted"
   ],
   "note": "Proved for arguments that are units (names, numbers, calls, parenthesised expressions) and for arbitrary expressions as shares of Cobb-Douglas and CES and as the output price of Leontief. Refuted for sums in other positions (c60_output_refuted, c60_share_refuted, c60_coefficient_refuted)."
  },
  {
   "property": "C61",
   "status": "partial",
   "theorems": [
    "c61_round_trip",
    "c61_transposed_refuted",
    "c61_diagonal_refuted",
    "c61_unfitted"
   ],
   "note": "Refuted as stated: a nonzero cell opposite a negative cell is lost, and so is a negative diagonal cell. Proved when every negative cell is off the diagonal and the opposite cell is zero."
  },
  {
   "property": "C62",
   "status": "proved",
   "theorems": [
    "c62_balanced",
    "c62_two_way_refuted"
   ],
   "note": "Both optimizer paths; the optimizer is an argument. Also proved: with two opposite negative cells a feasible point gives an unbalanced SAM."
  },
  {
   "property": "C63",
   "status": "proved",
   "theorems": [
    "c63_sparse",
    "c63_mask",
    "c63_mask_negative_refuted"
   ],
   "note": "Also proved: the mask (values > 0) drops negative cells, so it does not restore a matrix that has one."
  },
  {
   "property": "C64",
   "status": "proved",
   "theorems": [
    "c64_feasible",
    "c64_negative_refuted"
   ],
   "note": "Also proved: a balanced SAM with a negative cell violates the constraint that the values sum to 1."
  },
  {
   "property": "C65",
   "status": "proved",
   "theorems": [
    "c65_grid"
   ],
   "note": "for all n_cols and n_plots >= 1"
  },
  {
   "property": "C66",
   "status": "partial",
   "theorems": [
    "c66_headings",
    "c66_table",
    "c66_three_levels",
    "c66_three_levels_refuted",
    "c66_uneven_refuted"
   ],
   "note": "proved for tables of at most two levels (headings aligned, data columns in order); for three levels the rows below the first are always aligned and the first row exactly when, under every top entry, the groups have two columns on average; refuted for three levels in general and for columns of uneven depth (compute_padding counts inner nodes)"
  },
  {
   "property": "C67",
   "status": "partial",
   "theorems": [
    "c67_metrics",
    "c67_negative_refuted"
   ],
   "note": "proved for every metric with the code's meaning of non-negligible (initial value above the threshold); refuted for negative initial values, whose relative change is drawn as 0"
  },
  {
   "property": "C68",
   "status": "partial",
   "theorems": [
    "c68_one_dim",
    "c68_two_variables_refuted",
    "c68_two_dims_refuted"
   ],
   "note": "proved for one variable with one dim; refuted for two variables (the second has no labels) and for two dims (labels are concatenated, not combined)"
  },
  {
   "property": "C69",
   "status": "partial",
   "theorems": [
    "c69_exact",
    "c69_unknown_backend",
    "c69_backend",
    "c69_product_refuted",
    "c69_dict_refuted",
    "c69_all_list_refuted"
   ],
   "note": "proved for every backend and request without Euler options, and for the default backend of every list of equations; refuted: sympy's Product( is not seen as a reduction, a dict of equations raises AttributeError, a list holding all compiles nothing"
  },
  {
   "property": "C70",
   "status": "partial",
   "theorems": [
    "c70_uncompiled_refuted",
    "c70_none_request_refuted",
    "c70_false_request_refuted",
    "c70_missing_euler_refuted",
    "c70_compiled"
   ],
   "note": "refuted: simulate and calibrate on an uncompiled model call the missing method _compile; a missing Euler function is called as None. Proved: when everything needed was requested simulate and calibrate find their functions, and missing optimizer functions raise ValueError compile=False leaves _compiled = [False], which counts as compiled: simulate with Euler and calibrate then call None (c70_false_request_refuted)."
  },
  {
   "property": "C71",
   "status": "partial",
   "theorems": [
    "c71_items",
    "c71_indices",
    "c71_two_indices_refuted",
    "c71_max_partial",
    "c71_max_refuted"
   ],
   "note": "Literals, names and single integer subscripts survive the rewriting of every (ASCII) source text. Refuted for a subscript with several integers (the first 0 stays 0.0) and for Max of three or more arguments (numpy.maximum raises). Max of two arguments is proved; Min is not overridden by this code."
  },
  {
   "property": "C72",
   "status": "partial",
   "theorems": [
    "c72_rk4",
    "c72_numba_refuted",
    "c72_scan_refuted"
   ],
   "note": "proved for every backend but numba: a successful use_rk4 compilation uses RK4; refuted: numba ignores use_rk4, and use_scan_euler fails to compile on both pytensor backends"
  },
  {
   "property": "C73",
   "status": "proved",
   "theorems": [
    "c73_value",
    "c73_accepted",
    "c73_view",
    "c73_collision_refuted"
   ],
   "note": "Proved for flat reductions, non-numeral labels and distinct unpacked names. When the names collide (array X with label a beside a scalar X_a, which no check refuses) the residual of X[a] = X_a is identically 0 (c73_collision_refuted). Nested reductions are the subject of C48."
  },
  {
   "property": "C74",
   "status": "partial",
   "theorems": [
    "c74_scalar",
    "c74_normalisation",
    "c74_indexed_refuted",
    "c74_indexed_own"
   ],
   "note": "Proved for scalar numeraires in all equations and for numeraires with dims in equations without reductions, at their own indices. Refuted for a numeraire with dims inside a reduction over its index, where it is not replaced. An equation that only says numeraire = 1 is refused with ValueError. Without sympy parsing the equation text is not changed at all (base/cge.py:451-452)."
  },
  {
   "property": "C75",
   "status": "proved",
   "theorems": [
    "c75_jacobian",
    "c75_gradient",
    "c75_numba",
    "c75_backends_agree"
   ],
   "note": "pytensor is represented by the derivative of each output in each element; the theorems say where the code puts it. n_eq = 0 and an empty list of arrays are excluded (both raise)."
  },
  {
   "property": "C76",
   "status": "partial",
   "theorems": [
    "c76_step_product",
    "c76_hessp",
    "c76_symmetric",
    "c76_given_direction_refuted"
   ],
   "note": "Proved: the two ways to compute the step product agree and equal the first-order change; the Hessian-vector product is the transposed Hessian times the direction, hence the Hessian times the direction for symmetric second derivatives. Refuted: make_jvp with an explicit direction raises UnboundLocalError for every input (compile/pytensor.py:98-106)."
  },
  {
   "property": "C77",
   "status": "proved",
   "theorems": [
    "c77_linearised"
   ],
   "note": "Exact real arithmetic; the linear solver is an argument assumed to solve the systems it is given. Regularity of the Jacobian is implied by that assumption."
  },
  {
   "property": "C78",
   "status": "proved",
   "theorems": [
    "c78_exactly_the_instances",
    "c78_enumerate",
    "c78_order",
    "c78_length",
    "c78_same_labels_refuted"
   ],
   "note": "has, subs and == of sympy are arguments. Without distinct instances the documented length is wrong: x[i] and x[j] over the same labels give 2, not 4 (c78_same_labels_refuted)."
  },
  {
   "property": "C79",
   "status": "proved",
   "theorems": [
    "c79_name",
    "c79_one_name",
    "c79_distinct",
    "c79_spaces_refuted",
    "c79_collision_refuted",
    "c79_scalar"
   ],
   "note": "The quantifier excludes labels with spaces (the space is dropped, so the symbol differs from that of the unpacked variable: c79_spaces_refuted) and labels with underscores for distinctness (x[a_b] and x[a, b] collide: c79_collision_refuted)."
  },
  {
   "property": "C80",
   "status": "proved",
   "theorems": [
    "c80_system",
    "c80_jacobian",
    "c80_loss",
    "c80_hessian",
    "c80_syntax_refuted",
    "c80_len_refuted"
   ],
   "note": "For every sp.cse that keeps values and names its sub-expressions with fresh numbered symbols. Outside the quantifier the claim is false: a label with a space gives a name that is not an identifier and compilation raises SyntaxError, and a variable called len makes every call fail. That numba accepts the list of numbers and one array passed by f_hessp is not modelled."
  },
  {
   "property": "C81",
   "status": "proved",
   "theorems": [
    "c81_system",
    "c81_jacobian",
    "c81_gradient"
   ],
   "note": "From the written equations and the arrays of data to the numbers returned, for the functions asked for by root and minimize (f_hess and f_hessp are C80, f_euler C41). Smoothness is required of the scalar residual that equation_symbols returns. The dict of unpacked equations is taken to have distinct names (C19). Without the conditions on names see the refutations of C80 and C73."
  },
  {
   "property": "C82",
   "status": "proved",
   "theorems": [
    "c82_system",
    "c82_shared",
    "c82_solutions",
    "c82_alignment_refuted",
    "c82_cross_refuted"
   ],
   "note": "The array operations of pytensor (broadcasting, indexing, reductions) are modelled on lists of numbers; numbers follow real arithmetic where it is defined. All residuals are zero just when every index equation holds (c82_solutions). What happens when dims do not line up but have equal lengths: another equation is compiled without an error (c82_alignment_refuted, c82_cross_refuted)."
  },
  {
   "property": "C83",
   "status": "partial",
   "theorems": [
    "c83_names",
    "c83_missing",
    "c83_lists",
    "c83_singleton_refuted",
    "c83_mixed_refuted"
   ],
   "note": "Strings (and lists of one name) and missing dims: proved as stated; lists of two or more names, or of none, come back unchanged when all inputs are such lists. Refuted: a list of one name is treated as a string and expanded (c83_singleton_refuted); a list next to a string raises TypeError (c83_mixed_refuted)."
  },
  {
   "property": "C84",
   "status": "proved",
   "theorems": [
    "c84_shared",
    "c84_jacobian",
    "c84_gradient",
    "c84_hessian",
    "c84_hessp",
    "c84_pytensor_jacobian",
    "c84_pytensor_gradient",
    "c84_pytensor_hessian"
   ],
   "note": "The differentiation rules of jax and pytensor are parameters, required to be exact (such functions exist: c84_exact_ex). f_euler is C41, C42 and C77. pytensor functions are modelled on flat vectors. With pytensor, f_hessp multiplies by the transposed Hessian, which is the Hessian when second derivatives commute (C76)."
  },
  {
   "property": "C85",
   "status": "proved",
   "theorems": [
    "c85_system",
    "c85_jacobian",
    "c85_gradient",
    "c85_hessian",
    "c85_unused",
    "c85_numeraire_refuted"
   ],
   "note": "as_tensor and the graph rewrites of pytensor are taken to preserve values. Sparse Jacobians and f_euler are elsewhere (C50, C41). With a numeraire the claim fails: the numeraire is deleted from the packed variables but not from the unpacked ones, so that f_jac has a column (of zeros) for a variable that is not an argument (c85_numeraire_refuted)."
  },
  {
   "property": "C86",
   "status": "partial",
   "theorems": [
    "c86_result",
    "c86_success",
    "c86_benchmark",
    "c86_unknown_name",
    "c86_needs",
    "c86_backend_refuted",
    "c86_nan_refuted",
    "c86_residuals",
    "c86_simulate",
    "c86_dims_refuted"
   ],
   "note": "Refuted in two places. Only the numba functions accept the positional call f_resid(x0, theta0): functions compiled by pytensor or sympytensor take one argument per object and those of jax keywords only, so calibrate raises TypeError after solving (c86_backend_refuted; with pytensor equations NotImplementedError before). The fitted values are named by scalar names, so simulate refuses them with ValueError as soon as one object has dims (c86_dims_refuted). success can be true although objects that no equation mentions are nan (c86_nan_refuted). The rest is proved."
  },
  {
   "property": "C87",
   "status": "partial",
   "theorems": [
    "c87_summary",
    "c87_unknown",
    "c87_dims_refuted",
    "c87_shared_refuted",
    "c87_equations",
    "c87_plain_refuted",
    "c87_short_values_refuted",
    "c87_plain_rows",
    "c87_unsupported"
   ],
   "note": "The claim fails for the results that calibrate returns as soon as an object has dims: results are indexed by scalar names, and summary looks up the name of the object, KeyError (c87_dims_refuted). A variable and a parameter of one name are both shown as the parameter (c87_shared_refuted). equation_table raises AttributeError for models that keep their equations as text (c87_plain_refuted). make_summary_table drops the objects beyond the number of values given (c87_short_values_refuted). The rest is proved. The drawing of the table by Texttable and latextable and the replacement of tabular by array are not modelled."
  },
  {
   "property": "C88",
   "status": "partial",
   "theorems": [
    "c88_collected",
    "c88_usable",
    "c88_wrong_shape_refuted",
    "c88_missing_refuted",
    "c88_unknown",
    "c88_initialize"
   ],
   "note": "Nothing is refused: an array of the wrong shape is only reported and returned unchanged (c88_wrong_shape_refuted), and a missing value is only reported, so that the flattening of the result raises KeyError (c88_missing_refuted). An object named _ is never collected. The rest is proved."
  },
  {
   "property": "C89",
   "status": "partial",
   "theorems": [
    "c89_statistics",
    "c89_rmse_refuted",
    "c89_gradient_only_refuted",
    "c89_empty_refuted"
   ],
   "note": "The field called RMSE is the sum of squared errors, neither averaged nor rooted: it is the root mean square r only if r = 0 or n r = 1 (c89_rmse_refuted), and nan without equations (c89_empty_refuted). With a gradient but no system the format asks for a field that is absent (c89_gradient_only_refuted). What is returned is proved."
  },
  {
   "property": "C90",
   "status": "partial",
   "theorems": [
    "c90_escaped",
    "c90_idempotent",
    "c90_unchanged",
    "c90_longer_word_refuted",
    "c90_braces_refuted",
    "c90_capitals"
   ],
   "note": "A longer word that begins with the name of a letter gets a backslash and is an undefined macro, Piped becomes \\Piped (c90_longer_word_refuted), and a letter after _{ is not escaped (c90_braces_refuted). The placement of the backslashes and idempotence are proved."
  },
  {
   "property": "C91",
   "status": "partial",
   "theorems": [
    "c91_lines",
    "c91_missing_group",
    "c91_initial_refuted",
    "c91_no_variables_refuted",
    "c91_bars",
    "c91_bars_all_refuted",
    "c91_bars_scalar_refuted"
   ],
   "note": "plot_lines ignores the initial values passed to it (c91_initial_refuted) and fails with ZeroDivisionError for an empty list (c91_no_variables_refuted). plot_bar without var_names raises KeyError instead of plotting all variables (c91_bars_all_refuted), and for a variable without dims AttributeError (c91_bars_scalar_refuted). The rest is proved; selection by coords and groups are C97, plotting together is C100; colours are not modelled."
  },
  {
   "property": "C92",
   "status": "partial",
   "theorems": [
    "c92_root",
    "c92_minimize",
    "c92_mode",
    "c92_euler_only",
    "c92_equilibrium",
    "c92_result_refuted",
    "c92_dataset_refuted",
    "c92_unchecked_refuted"
   ],
   "note": "The docstring says that the initial state is checked to be an equilibrium and an error raised otherwise: it is not checked (c92_unchecked_refuted). A Result as initial state fails after solving, since it cannot be subscripted (c92_result_refuted); an xarray Dataset fails at once, since it has no attribute parameters (c92_dataset_refuted). Everything else is proved, with the solvers as arbitrary functions of the problem they are given. c92_mode: a Mode object is never equal to the string JAX, so the wrapped functions are used for every pytensor model."
  },
  {
   "property": "C93",
   "status": "proved",
   "theorems": [
    "c93_sympytensor",
    "c93_numba",
    "c93_minimize",
    "c93_loss",
    "c93_pytensor",
    "c93_minimize_numba",
    "c93_minimize_pytensor"
   ],
   "note": "Numbers are exact reals; the functions of the solver are arbitrary. c93_sympytensor, c93_numba and c93_pytensor are the three backends with root, c93_minimize, c93_minimize_numba and c93_minimize_pytensor are minimize for the three, with gradient, Hessian and Hessian product handed over as compiled (for numba the last two are arbitrary functions), c93_loss is the zero of the loss. Equations must have a value at the returned data (no division by zero). A model with a numeraire is left out: see c85_numeraire_refuted."
  },
  {
   "property": "C94",
   "status": "proved",
   "theorems": [
    "c94_failed_call",
    "c94_one_file",
    "c94_notebook",
    "c94_brackets_refuted",
    "c94_given_name"
   ],
   "note": "c94_brackets_refuted shows the condition on names is needed: after runs named f and f(1), a call named f is answered with the result of f(1)."
  },
  {
   "property": "C95",
   "status": "partial",
   "theorems": [
    "c95_value",
    "c95_axis_refuted",
    "c95_derivative",
    "c95_zero_refuted"
   ],
   "note": "Values are proved. The new node is made without the axis, so for arrays of two or more dims it is another function; only the refusal of the graph to accept a result with another number of dims keeps the value (c95_axis_refuted). The refusal and the two derivative rules of pytensor are external and modelled as documented. Derivatives are proved where no element is zero and refuted at zero elements: the derivative exists, is found without the rewrite, and is nan with it (c95_zero_refuted). The theorems of C84 about pytensor derivatives assume differentiation to be exact, which excludes such points."
  },
  {
   "property": "C96",
   "status": "partial",
   "theorems": [
    "c96_value",
    "c96_no_default",
    "c96_symbolic_refuted"
   ],
   "note": "Proved for cases whose values are numbers and whose last condition is True. Refuted otherwise: a branch that is not a number is passed to sp.Float, which raises TypeError (c96_symbolic_refuted), and without a final True the value is None when no condition holds (c96_no_default). The texts of numbers and conditions come from the printer of sympy and are arguments; the grammar of conditional expressions is that of Python, restricted to brackets, if and else."
  },
  {
   "property": "C97",
   "status": "partial",
   "theorems": [
    "c97_bars",
    "c97_missing_dim_refuted",
    "c97_all_selected_refuted"
   ],
   "note": "Proved for variables that have every dim with one selected label and at least one other dim. Refuted otherwise: a variable without such a dim raises KeyError (c97_missing_dim_refuted), and a variable all of whose dims are fixed raises AttributeError, since the fallback calls a method that a DataArray does not have (c97_all_selected_refuted). Initial values passed by the caller are C106; plot_together is C100; tables and groupby of pandas are external and modelled as documented."
  },
  {
   "property": "C98",
   "status": "partial",
   "theorems": [
    "c98_lines",
    "c98_descendents",
    "c98_generations",
    "c98_generations_refuted",
    "c98_families",
    "c98_selections",
    "c98_split",
    "c98_split_data_refuted",
    "c98_build"
   ],
   "note": "Refuted: get_n_generations counts the nodes that have children and not the generations (c98_generations proves what it counts, c98_generations_refuted gives a tree with two generations and the answer three), and split_tree loses the data of the nodes (c98_split_data_refuted). Everything else is proved, including that build_tree stores exactly the nested trees of the model of C66 (c98_build)."
  },
  {
   "property": "C99",
   "status": "partial",
   "theorems": [
    "c99_latex",
    "c99_description",
    "c99_dicts",
    "c99_ending_refuted",
    "c99_doubled_refuted",
    "c99_beginning_refuted",
    "c99_chain_refuted",
    "c99_description_refuted",
    "c99_get_info",
    "c99_assumptions_refuted",
    "c99_shared_refuted"
   ],
   "note": "Proved for latex names in which no index begins an opened word or ends a closed one and whose replacements neither begin nor end with an index (c99_latex), and for descriptions of words with single spaces (c99_description, c99_dicts). Refuted beyond: a macro that ends with an index before a closing brace is broken (c99_ending_refuted), a label that ends with an index is doubled (c99_doubled_refuted), a script that begins with an index is rewritten (c99_beginning_refuted), replacements are replaced again (c99_chain_refuted), the first word, a repeated index and an index before punctuation are not replaced in descriptions (c99_description_refuted), get_info does not find a symbol with assumptions (c99_assumptions_refuted), and symbols gives one name to different variables (c99_shared_refuted)."
  },
  {
   "property": "C100",
   "status": "partial",
   "theorems": [
    "c100_together",
    "c100_scalars",
    "c100_rejected",
    "c100_order_refuted",
    "c100_repeated"
   ],
   "note": "Proved whenever a dim remains (c100_together, with the specification of C97) and for scalars (c100_scalars); variables with different remaining dims are rejected (c100_rejected). Refuted: the same dims in another order are rejected too (c100_order_refuted). Not modelled: frames in which every dim has one selected label (what pandas does with indices of different levels), and initial values given by the caller (C106 for separate plots)."
  },
  {
   "property": "C101",
   "status": "partial",
   "theorems": [
    "c101_determined",
    "c101_occurs",
    "c101_constant",
    "c101_repeated_refuted",
    "c101_bound_refuted",
    "c101_prod"
   ],
   "note": "Proved: the listed names are those that occur (c101_occurs), the value depends only on them (c101_determined, c101_constant), and _prod (c101_prod). Refuted: names are listed as often as they occur (c101_repeated_refuted), and a bound index is listed though the value does not depend on it (c101_bound_refuted)."
  },
  {
   "property": "C102",
   "status": "partial",
   "theorems": [
    "c102_symbols",
    "c102_updates",
    "c102_errors",
    "c102_repeated_refuted",
    "c102_string_keys",
    "c102_union",
    "c102_frozen_refuted"
   ],
   "note": "Proved: c102_symbols, c102_updates (for the last description of a name), c102_errors, c102_string_keys, c102_union. Refuted: of two descriptions with one name only the last is offered (c102_repeated_refuted), and union_many adds a frozen set as one element instead of its elements (c102_frozen_refuted)."
  },
  {
   "property": "C103",
   "status": "partial",
   "theorems": [
    "c103_value",
    "c103_no_arrays",
    "c103_other_index_refuted"
   ],
   "note": "Proved for equations without sums and products over indices in which the new names are not already used with another value (c103_value), and in which arrays have the indices of their declaration (c103_no_arrays). Refuted: an array used with other indices is left (c103_other_index_refuted). Not modelled: assumptions of the new symbols."
  },
  {
   "property": "C104",
   "status": "partial",
   "theorems": [
    "c104_single",
    "c104_in_order",
    "c104_missing",
    "c104_balanced",
    "c104_verbatim_refuted"
   ],
   "note": "Proved: c104_single, c104_in_order, c104_missing, and c104_balanced for names, texts and numbers whose own braces are balanced. Refuted without that: names are inserted verbatim, so a brace in a name breaks the display (c104_verbatim_refuted)."
  },
  {
   "property": "C105",
   "status": "partial",
   "theorems": [
    "c105_numpy",
    "c105_defined",
    "c105_direct_refuted",
    "c105_direct_euler_refuted",
    "c105_default_refuted"
   ],
   "note": "Proved through compile_model whenever a pytensor function is compiled by jax only if jax is installed and the mode was given by its name (c105_numpy, c105_defined). Refuted: compile_pytensor_cge_functions called with the name JAX returns the unwrapped function with jax arrays (c105_direct_refuted), called with JAX or NUMBA and the Euler function requested it fails (c105_direct_euler_refuted), and with JAX as the configured default the pytensor backend returns jax arrays, unlike sympytensor (c105_default_refuted). Not modelled: sparse matrices, and what the linkers themselves can compile."
  },
  {
   "property": "C106",
   "status": "partial",
   "theorems": [
    "c106_given",
    "c106_same",
    "c106_squeezed_refuted",
    "c106_unselected_refuted"
   ],
   "note": "Proved when the given values have the dims of the variable and exactly the labels shown (c106_given), and for the values of the first step without selection (c106_same). Refuted otherwise: the selection is not applied to given values, so with groups they are summed over all labels and compared with the selected ones (c106_unselected_refuted), and when the caller has selected a label the plot fails with KeyError (c106_squeezed_refuted). Not modelled: how pandas aligns frames with different labels."
  },
  {
   "property": "C107",
   "status": "partial",
   "theorems": [
    "c107_ops",
    "c107_refused",
    "c107_clones",
    "c107_clash_refuted"
   ],
   "note": "Proved for constant arguments and exact differentiation (c107_ops, c107_refused, c107_clones). Refuted: the clone of a tensor can have the name of another tensor of the model, a and a_initial (c107_clash_refuted). Not modelled: Ops applied to symbolic arguments."
  },
  {
   "property": "C108",
   "status": "partial",
   "theorems": [
    "c108_equal",
    "c108_strict",
    "c108_order",
    "c108_by_name",
    "c108_sorted",
    "c108_finalize",
    "c108_mixed",
    "c108_instances",
    "c108_unpacked_refuted"
   ],
   "note": "Proved: equality, strictness, order by name, and sorting of lists of one class with different names, which is what finalize_calibration sorts (c108_equal, c108_strict, c108_by_name, c108_sorted, c108_finalize). Refuted: dictionaries have no order, so two elements of one indexed object raise TypeError (c108_instances, c108_unpacked_refuted), as do a variable and a parameter (c108_mixed)."
  },
  {
   "property": "C109",
   "status": "partial",
   "theorems": [
    "c109_sides",
    "c109_numba",
    "c109_solved",
    "c109_sympytensor",
    "c109_agree",
    "c109_order_refuted",
    "c109_alignment_refuted",
    "c109_read"
   ],
   "note": "Proved: the reading of a text (c109_sides), the residuals and the loss of numba and sympytensor in terms of the text (c109_numba, c109_sympytensor), solutions (c109_solved), and equality of the three residual vectors for arithmetic texts whose objects have dims that are the last ones of the dims of the equation, in the order of the coords (c109_agree). Refuted beyond that: with dims declared in another order than the coords the pytensor residuals come in another order (c109_order_refuted), and with dims that are not the last ones pytensor aligns by place, sympy by name (c109_alignment_refuted). Not modelled: what parse_expr makes of other texts; a numeraire. c109_read characterises the trees whose reading does not depend on the unmodelled parts of sympy."
  },
  {
   "property": "C110",
   "status": "proved",
   "theorems": [
    "c110_solved",
    "c110_solved_sympytensor",
    "c110_cobb_douglas_text",
    "c110_ces_text",
    "c110_leontief_text",
    "c110_leontief_matrix_text",
    "c110_dixit_stiglitz_text",
    "c110_cobb_douglas",
    "c110_ces",
    "c110_leontief",
    "c110_leontief_matrix",
    "c110_dixit_stiglitz"
   ],
   "note": "One model with a block of every kind and a zero of its compiled system is the example of all parts."
  },
  {
   "property": "C111",
   "status": "proved",
   "theorems": [
    "c111_cobb_douglas",
    "c111_ces",
    "c111_leontief",
    "c111_leontief_matrix",
    "c111_dixit_stiglitz",
    "c111_shares_refuted",
    "c111_model",
    "c111_pytensor_matrix",
    "c111_pytensor_dixit_stiglitz"
   ],
   "note": "The condition on the Cobb-Douglas shares is needed: c111_shares_refuted."
  },
  {
   "property": "C112",
   "status": "proved",
   "theorems": [
    "c112_counts",
    "c112_numba",
    "c112_sympytensor",
    "c112_pytensor"
   ],
   "note": "The docstring advises against the argument; the theorem says that it never works. Adding the equation P = 1 instead is the case without a numeraire (C110)."
  },
  {
   "property": "C113",
   "status": "partial",
   "theorems": [
    "c113_shown",
    "c113_like_new",
    "c113_refused",
    "c113_getitem",
    "c113_attributes",
    "c113_latex_refuted",
    "c113_description",
    "c113_description_refuted",
    "c113_variables"
   ],
   "note": "Refuted in two clauses. Indexing by latex_name gives the name without indices, always shorter than the entry of to_dict for an object with dims. The default description keeps the name printed when the object was made: labels set later are not shown in it, while those given at once are. The greek rewriting is a parameter (C90); attributes that Python defines for every object and methods are left out."
  },
  {
   "property": "C114",
   "status": "proved",
   "theorems": [
    "c114_jacobian",
    "c114_jvp",
    "c114_print_latex",
    "c114_progress"
   ],
   "note": "That IPython.display is a module and that rich takes the columns in the order given are facts about these libraries, taken from their documentation. The cells of a Jacobian are passed to as_tensor as a list."
  },
  {
   "property": "C115",
   "status": "proved",
   "theorems": [
    "c115_bound",
    "c115_limit"
   ],
   "note": "The distance is measured per entry. The bound for RK4 is of first order too, as for Euler; C42 says more about RK4. Real arithmetic instead of floating point, and the solver of the linear systems is a parameter required to solve them around the path."
  },
  {
   "property": "C116",
   "status": "proved",
   "theorems": [
    "c116_converges",
    "c116_solution"
   ],
   "note": "A theorem of Kantorovich type for the solver as written, with its backtracking and its convergence flag. Norms are sums of absolute values, as in the code. Real arithmetic; the linear solver is a parameter required to solve the systems in the region."
  },
  {
   "property": "C117",
   "status": "proved",
   "theorems": [
    "c117_value",
    "c117_derivatives",
    "c117_tie_refuted"
   ],
   "note": "The rules of sympy for derivatives and the value 1/2 of numpy.heaviside at zero are library facts. Maxima of more than two expressions are treated in C71, powers in C50 and C80. Real arithmetic."
  },
  {
   "property": "C118",
   "status": "proved",
   "theorems": [
    "c118_rows",
    "c118_solver",
    "c118_rate",
    "c118_limit"
   ],
   "note": "Real arithmetic instead of floating point. np.linalg.solve is a parameter required to solve regular systems; numpy broadcasting of a vector of one entry in the loop and the progress bar are left out."
  },
  {
   "property": "C119",
   "status": "proved",
   "theorems": [
    "c119_near",
    "c119_singular_refuted"
   ],
   "note": "Real arithmetic. The linear solver is a parameter required to solve regular systems. The constants and the radius exist but are not computed."
  },
  {
   "property": "C120",
   "status": "proved",
   "theorems": [
    "c120_newton",
    "c120_euler",
    "c120_large_refuted"
   ],
   "note": "Real arithmetic. The linear solver is a parameter required to solve regular systems. Constants, radius and bound on the shock exist but are not computed; the bound of the Euler part depends on the shock."
  },
  {
   "property": "C121",
   "status": "proved",
   "theorems": [
    "c121_path",
    "c121_small"
   ],
   "note": "Real arithmetic. The Jacobians are functions required to be right at smooth points; C50, C75, C84 and C85 are about the Jacobians of the backends. The linear solver is a parameter required to solve regular systems."
  },
  {
   "property": "C122",
   "status": "proved",
   "theorems": [
    "c122_singular",
    "c122_numba",
    "c122_newton"
   ],
   "note": "Real arithmetic: in floating point a singular matrix may be seen as a regular one that is badly conditioned. That solvers raise on singular matrices is a hypothesis of the Newton part only."
  },
  {
   "property": "C123",
   "status": "proved",
   "theorems": [
    "c123_singular",
    "c123_numba",
    "c123_newton",
    "c123_dropped"
   ],
   "note": "Real arithmetic: in floating point a singular matrix may be seen as a regular one that is badly conditioned. That solvers raise on singular matrices is a hypothesis of the Newton part only."
  },
  {
   "property": "C124",
   "status": "proved",
   "theorems": [
    "c124_close",
    "c124_stationary",
    "c124_numba",
    "c124_stuck_refuted"
   ],
   "note": "Real arithmetic. The first two parts hold for any function that returns the derivatives of the loss (C81 and C85 are about the gradients of numba and sympytensor models). c124_stuck_refuted is the counterexample for singular J."
  },
  {
   "property": "C125",
   "status": "proved",
   "theorems": [
    "c125_progress"
   ],
   "note": "Real arithmetic: the residual function returns numbers at all points tried, so NaN from logarithms or powers of negative numbers is not covered. The linear solver is a parameter required to solve regular systems."
  },
  {
   "property": "C126",
   "status": "proved",
   "theorems": [
    "c126_defined",
    "c126_progress",
    "c126_stuck",
    "c126_numbers"
   ],
   "note": "Infinite values and rounding are not modelled. A step with NaN from the linear solver is assumed to give a NaN residual. The linear solver is a parameter required to solve regular systems of numbers."
  },
  {
   "property": "C127",
   "status": "proved",
   "theorems": [
    "c127_newton"
   ],
   "note": "Real arithmetic: in floating point the histories can differ by rounding. Different constants for different equations change the norm and hence the history; they are not covered."
  },
  {
   "property": "C128",
   "status": "proved",
   "theorems": [
    "c128_euler",
    "c128_rk4"
   ],
   "note": "Real arithmetic. By C40 the backends compute the same rows; for Runge-Kutta the theorem is about one step."
  }
 ]
}