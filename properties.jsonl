{"id": "C01", "title": "Packing then unpacking returns the same data", "statement": "For every list of model objects with distinct names and every dictionary holding, for each of them, an array of the shape its dims and the coords imply, flattening the dictionary with variable_dict_to_flat_array and decoding with flat_array_to_variable_dict returns, without error, exactly those objects' names with exactly the original arrays; entries of other names in the dictionary do not matter.", "quantifier": "every coords mapping, every list of objects of any number of dimensions with at least one variable and one parameter, every dictionary of arrays", "why_tests_cant": "the test round-trips one model; layout mistakes only show for particular combinations of ranks, sizes and orders", "anchors": ["cge_modeling/base/utilities.py:variable_dict_to_flat_array", "cge_modeling/base/utilities.py:flat_array_to_variable_dict", "cge_modeling/base/utilities.py:infer_object_shape_from_coords"]}
{"id": "C02", "title": "Unpacking then packing returns the same vector", "statement": "For every vector whose length is the total size of the objects (distinct names), flat_array_to_variable_dict succeeds, gives every object an array of its declared shape, and variable_dict_to_flat_array of the result is the original vector.", "quantifier": "every vector, every list of objects with at least one variable and one parameter, and coords", "why_tests_cant": "a solver hands over arbitrary vectors; a test samples one", "anchors": ["cge_modeling/base/utilities.py:flat_array_to_variable_dict", "cge_modeling/base/utilities.py:variable_dict_to_flat_array"]}
{"id": "C03", "title": "Every element has one row-major position in the flat vector", "statement": "In the flat vector, the value of an object at a multi-index sits at (sum of the sizes of the objects before it) + (row-major offset of the multi-index), and every position of the vector belongs to exactly one (object, multi-index).", "quantifier": "every list of objects, every object in it, every in-range multi-index, every position", "why_tests_cant": "aliasing of two positions depends on shapes; no finite set of shapes excludes it", "anchors": ["cge_modeling/base/utilities.py:variable_dict_to_flat_array", "cge_modeling/base/utilities.py:flat_array_to_variable_dict"]}
{"id": "C04", "title": "Vectors of the wrong length are not silently decoded", "statement": "flat_array_to_variable_dict rejects a vector whose length differs from the total size of the objects, instead of returning some assignment.", "quantifier": "every vector length, every object list", "why_tests_cant": "there are infinitely many wrong lengths; whether an excess is noticed depends on the last object only", "anchors": ["cge_modeling/base/utilities.py:flat_array_to_variable_dict"]}
{"id": "C05", "title": "The return mask drops exactly the omitted objects", "statement": "For a flat vector holding all objects, the mask of make_flat_array_return_mask has one entry per entry of the vector, is false exactly on the positions of the omitted objects, and selecting with it yields the concatenation of the remaining objects' data in their order.", "quantifier": "every list of objects, every list of omitted names, every vector", "why_tests_cant": "mask/slice alignment for arbitrary subsets is combinatorial", "anchors": ["cge_modeling/base/utilities.py:make_flat_array_return_mask"]}
{"id": "C06", "title": "The parameter mask selects exactly the named parameters", "statement": "flat_mask_from_param_names over a dictionary yields a mask of the length of the flattened dictionary that is true exactly on the positions of the named keys; selecting with it gives the concatenation of the named arrays.", "quantifier": "every non-empty parameter dictionary, every list of names in it; for other names a KeyError", "why_tests_cant": "subset combinatorics over arbitrary array sizes", "anchors": ["cge_modeling/base/utilities.py:flat_mask_from_param_names"]}
{"id": "C07", "title": "A shock changes the shocked parameters as stated and nothing else", "statement": "When create_final_param_dict accepts a scenario, a parameter in final_values has that value, one in final_delta its initial value plus the delta, one in final_delta_pct its initial value times the factor, every other parameter its initial value; the result has the initial keys in the initial order followed by any new final_values keys; and the caller's initial dictionary is unchanged.", "quantifier": "every initial dictionary and every triple of shock dictionaries", "why_tests_cant": "interactions between overlapping, reordered and partial shocks are unbounded", "anchors": ["cge_modeling/base/utilities.py:create_final_param_dict", "cge_modeling/base/cge.py:CGEModel.simulate"]}
{"id": "C08", "title": "Exactly the malformed scenarios are rejected", "statement": "create_final_param_dict fails if and only if no shocked parameter is given, or some name occurs in more than one of the three shock dictionaries, or a name in final_delta/final_delta_pct is not an initial parameter (given elementwise-compatible values).", "quantifier": "every triple of shock dictionaries and every initial dictionary", "why_tests_cant": "an if-and-only-if over all inputs, including combinations of errors", "anchors": ["cge_modeling/base/utilities.py:create_final_param_dict"]}
{"id": "C09", "title": "A shock to a name that is not a model parameter is not silently ignored", "statement": "If simulate's scenario names something that is not a parameter of the model (a typo, or a variable), the call fails rather than simulating a scenario without that shock.", "quantifier": "every model, every scenario", "why_tests_cant": "the failure is silent: tests that only check accepted scenarios cannot see it", "anchors": ["cge_modeling/base/utilities.py:create_final_param_dict", "cge_modeling/base/cge.py:CGEModel.simulate", "cge_modeling/base/utilities.py:variable_dict_to_flat_array"]}
{"id": "C10", "title": "Derivative options given to the optimizer are consistent", "statement": "For every method and every combination of use_jac/use_hess/use_hessp (True, False, None), the resolved flags never enable both hess and hessp, an explicit True/False for use_jac is kept, an explicit False is kept for every flag, and None takes the method's default; a Hessian is never passed to scipy without a gradient.", "quantifier": "every method name (known or not) and all combinations of flags", "why_tests_cant": "the interaction of defaults and overrides over all methods is not enumerated by tests", "anchors": ["cge_modeling/base/utilities.py:get_method_defaults", "cge_modeling/base/cge.py:CGEModel._solve_with_minimize"]}
{"id": "C11", "title": "Expanding an indexed object enumerates its label combinations exactly once", "statement": "expand_obj_by_indices on an object with distinct dims returns one copy per combination of labels of its dims, in row-major order of its dims, each carrying exactly its own labels, with every other attribute unchanged, and leaves the original object unchanged.", "quantifier": "every object, every coords mapping, every subset of dims requested", "why_tests_cant": "the number of dims and labels is unbounded", "anchors": ["cge_modeling/tools/sympy_tools.py:expand_obj_by_indices", "cge_modeling/tools/sympy_tools.py:_validate_dims", "cge_modeling/base/primitives.py:ModelObject.update_dim_value"]}
{"id": "C12", "title": "_expand_var_by_index enumerates combinations and keeps the object's attributes", "statement": "_expand_var_by_index returns one object per combination of the labels of the object's own dims in coords, in coords order, each with the same name, description, type and assumptions; it fails if coords has a dim the object lacks.", "quantifier": "every object and coords mapping with and without on_unused_dim", "why_tests_cant": "attribute loss is invisible to tests that only compare names", "anchors": ["cge_modeling/base/utilities.py:_expand_var_by_index"]}
{"id": "C13", "title": "The k-th unpacked name labels the k-th entry of the flat vector", "statement": "For every model whose unpacked names are distinct, the k-th entry of unpacked_variable_names (resp. parameters) names exactly the object and labels whose value is the k-th entry of the flat variable (parameter) vector used by the solvers.", "quantifier": "every model whose objects have distinct dims, every data dictionary, every position k", "why_tests_cant": "the two orders are computed by unrelated code (itertools.product over labels vs numpy ravel)", "anchors": ["cge_modeling/base/cge.py:CGEModel._unpack_objects", "cge_modeling/tools/sympy_tools.py:expand_obj_by_indices", "cge_modeling/tools/sympy_tools.py:make_indexed_name", "cge_modeling/base/utilities.py:variable_dict_to_flat_array"]}
{"id": "C14", "title": "Distinct elements of the model have distinct unpacked names", "statement": "n_variables equals the total number of scalar elements of the declared variables: no two (object, labels) pairs share an unpacked name, so none is dropped.", "quantifier": "every list of declared objects and coords", "why_tests_cant": "collisions depend on the characters of names and labels", "anchors": ["cge_modeling/tools/sympy_tools.py:make_indexed_name", "cge_modeling/base/cge.py:CGEModel._unpack_variables"]}
{"id": "C15", "title": "Dimension markers in names and descriptions are replaced by labels", "statement": "For a name made of literal text and <dim:d> markers, unpacking produces one name per combination of labels of the markers in order, where each marker is replaced by its label and literal text is unchanged; names without markers are kept as they are.", "quantifier": "every sequence of literal segments and markers, every coords mapping", "why_tests_cant": "string rewriting over arbitrary text", "anchors": ["cge_modeling/base/utilities.py:unpack_equation_strings", "cge_modeling/base/primitives.py:_pretty_print_dim_flags", "cge_modeling/base/utilities.py:_replace_dim_marker_with_dim_name"]}
{"id": "C16", "title": "Residuals are reported under the name of their own equation", "statement": "The k-th unpacked equation name printed by check_for_equilibrium belongs to the equation and labels whose residual is the k-th residual.", "quantifier": "every model, both parsing backends", "why_tests_cant": "mislabelling leaves all numbers right; tests compare numbers", "anchors": ["cge_modeling/base/cge.py:CGEModel.check_for_equilibrium", "cge_modeling/base/cge.py:CGEModel._unpack_equations", "cge_modeling/base/utilities.py:unpack_equation_strings", "cge_modeling/compile/pytensor_tools.py:flatten_equations"]}
{"id": "C17", "title": "Declared dims are read as written", "statement": "A comma-separated dims string yields the stripped dim names in order, None yields no dims, a list or tuple is kept; joining dims with commas and any surrounding spaces and reading them back is the identity; and tokenizing a generated latex subscript gives back its parts.", "quantifier": "every list of dim names without commas or surrounding whitespace", "why_tests_cant": "string parsing over arbitrary names", "anchors": ["cge_modeling/base/primitives.py:ModelObject._initialize_index", "cge_modeling/base/primitives.py:_tokenize_latex_subscript", "cge_modeling/base/primitives.py:_make_latex_subscript"]}
{"id": "C18", "title": "An equation is indexed by exactly the dims that occur free in it", "statement": "The dims of an equation are exactly the coords dims whose index occurs in the equation after reductions have been expanded, each once, in coords order.", "quantifier": "every equation and coords mapping; for the expansion of reductions, equations whose reductions are not nested and labels that are not numerals", "why_tests_cant": "depends on arbitrary nesting of expressions", "anchors": ["cge_modeling/tools/sympy_tools.py:find_equation_dims", "cge_modeling/base/cge.py:CGEModel.add_sympy_equation"]}
{"id": "C19", "title": "Objects stay uniquely named under every history of additions", "statement": "After any sequence of add_variable(s)/add_parameter(s)/add_equation(s) calls, with or without overwrite and whether or not calls failed, each registry has unique names, and its contents equal those of an ordered map fed the successful additions; re-adding a name without overwrite fails and keeps the old object.", "quantifier": "every finite history of calls", "why_tests_cant": "histories are unbounded", "anchors": ["cge_modeling/base/cge.py:CGEModel._add_object", "cge_modeling/base/cge.py:CGEModel._add_objects"]}
{"id": "C20", "title": "A failed addition leaves the model as it was", "statement": "If a call adding several objects raises, none of them has been added.", "quantifier": "every list of objects and every prior state", "why_tests_cant": "depends on the position of the offending object", "anchors": ["cge_modeling/base/cge.py:CGEModel._add_objects", "cge_modeling/base/cge.py:CGEModel.add_variables", "cge_modeling/base/utilities.py:_validate_input"]}
{"id": "C21", "title": "Lookup by name returns the object registered under that name", "statement": "get and get_symbol return the object (symbol) whose name was asked for, fail for unknown names, and return all objects when no name is given; a name denotes the same object in both.", "quantifier": "every model and every list of names", "why_tests_cant": "depends on name overlaps between the registries", "anchors": ["cge_modeling/base/cge.py:CGEModel.get", "cge_modeling/base/cge.py:CGEModel.get_symbol", "cge_modeling/base/cge.py:CGEModel.get_unpacked_parent_object"]}
{"id": "C22", "title": "A model is accepted exactly when it has as many equations as unknowns", "statement": "Construction fails with ValueError if and only if the number of scalar equations differs from the number of scalar unknowns (the declared variables other than the numeraire), assuming distinct unpacked names.", "quantifier": "every declaration of variables, parameters, equations and numeraire", "why_tests_cant": "counting over arbitrary dims", "anchors": ["cge_modeling/base/cge.py:CGEModel.check_initialization", "cge_modeling/base/cge.py:CGEModel.__init__"]}
{"id": "C23", "title": "The numeraire is removed from the unknowns", "statement": "A variable named as numeraire no longer appears among the model's variables in packed or unpacked form and is a parameter instead.", "quantifier": "every model with a numeraire", "why_tests_cant": "packed and unpacked registries are updated separately", "anchors": ["cge_modeling/base/cge.py:CGEModel.__init__"]}
{"id": "C24", "title": "Initial states are accepted exactly when complete", "statement": "simulate accepts a dictionary initial state iff its keys are exactly the names of the model's variables and parameters; otherwise it raises ValueError before anything is computed or written.", "quantifier": "every dictionary, every compiled model, every directory of results and all solvers, for calls that are not answered from a stored result; acceptance (the Euler function or the solver is called) for models with a variable and a parameter and scenarios that can be applied", "why_tests_cant": "subset relations over arbitrary key sets", "anchors": ["cge_modeling/base/cge.py:CGEModel.simulate"]}
{"id": "C25", "title": "A simulation result carries the requested scenario in the right cells", "statement": "For any optimizer output vector, the returned optimizer dataset holds at step 0 the initial value of every variable and parameter and at the last step, for every parameter, the scenario value requested and, for every variable, its own slice of the solver's vector. The Euler dataset holds for every variable and parameter its own trajectory, labelled with its own dimensions.", "quantifier": "every model with at least one variable and one parameter, distinct names, and no dimension called step; initial state given as a dictionary; every scenario, every solver result", "why_tests_cant": "solver output is external; alignment must hold for all of it", "anchors": ["cge_modeling/base/cge.py:CGEModel.simulate", "cge_modeling/tools/output_tools.py:optimizer_result_to_idata", "cge_modeling/tools/output_tools.py:list_of_array_to_idata", "cge_modeling/base/utilities.py:flat_array_to_variable_dict"]}
{"id": "C26", "title": "generate_SAM returns each variable's own solution and honours fixed values", "statement": "For any solver output, generate_SAM returns for every free variable its own slice of the solution and for every fixed variable the fixed value.", "quantifier": "every model, every set of fixed values, every solver result", "why_tests_cant": "misalignment depends on the position of the fixed variables", "anchors": ["cge_modeling/base/cge.py:CGEModel.generate_SAM", "cge_modeling/base/utilities.py:flat_array_to_variable_dict"]}
{"id": "C27", "title": "After NaNs, the optimizer starts from the last finite Euler step", "statement": "simulate starts the optimizer from the last Euler step without NaNs, for every pattern of NaNs in the trajectory, and warns exactly when some step was lost, on every backend.", "quantifier": "every trajectory and pattern of NaN rows", "why_tests_cant": "patterns of NaN are unbounded; label- vs position-based selection differ only on some", "anchors": ["cge_modeling/base/cge.py:CGEModel.simulate", "cge_modeling/compile/numba.py:euler_approx", "cge_modeling/compile/euler.py:pytensor_euler_function_with_python_loop"]}
{"id": "C28", "title": "simulate returns results of the scenario it was given", "statement": "The result of simulate is the result of the scenario passed to that call, whatever result files exist on disk.", "quantifier": "every file system state and history of calls", "why_tests_cant": "depends on call history and files left by earlier runs", "anchors": ["cge_modeling/base/cge.py:CGEModel.simulate", "cge_modeling/base/cge.py:CGEModel.read_results"]}
{"id": "C29", "title": "Saving without overwrite never destroys results", "statement": "write_results(overwrite=False) terminates, leaves every existing file unchanged, and stores the results in the first free name among base.pkl, base(1).pkl, base(2).pkl, \u2026.", "quantifier": "every directory content and every file name that is not made of dots only before .pkl (\".pkl\" is a dotfile without extension)", "why_tests_cant": "directory contents and counters are unbounded", "anchors": ["cge_modeling/base/cge.py:CGEModel.write_results"]}
{"id": "C30", "title": "Reading returns the most recently saved results", "statement": "After any history of write_results calls for a name in a directory that held no file for it, read_results for that name returns the results of the last write.", "quantifier": "every history of writes, with or without overwrite, with or without the .pkl suffix", "why_tests_cant": "needs all histories, not one write/read pair", "anchors": ["cge_modeling/base/cge.py:CGEModel.read_results", "cge_modeling/base/cge.py:CGEModel.write_results"]}
{"id": "C31", "title": "A crash while saving loses no earlier results", "statement": "If the process dies at any point of write_results, every result saved earlier can still be read.", "quantifier": "every crash point, every directory state, both overwrite modes", "why_tests_cant": "crash points are not exercised by tests", "anchors": ["cge_modeling/base/cge.py:CGEModel.write_results"]}
{"id": "C32", "title": "The equilibrium check decides on the sum of squared residuals and explains failures", "statement": "check_for_equilibrium reports equilibrium iff the sum of squared residuals is below the tolerance, and otherwise lists at least one equation, listing exactly those whose absolute residual exceeds the tolerance.", "quantifier": "every residual vector and tolerance", "why_tests_cant": "two thresholds on different scales only disagree for many small residuals", "anchors": ["cge_modeling/base/cge.py:CGEModel.check_for_equilibrium"]}
{"id": "C33", "title": "Wrapping a function for scipy and for pytensor are inverse", "statement": "For any function of two flat vectors, wrapping it for keyword arguments with wrap_scipy_func_for_pytensor and then back with wrap_pytensor_func_for_scipy gives the same function on vectors of the model's sizes; for any keyword function the wrapped call passes each object its own array.", "quantifier": "every function, every model with at least one variable and one parameter and distinct names, every pair of vectors", "why_tests_cant": "quantifies over functions", "anchors": ["cge_modeling/base/function_wrappers.py:wrap_pytensor_func_for_scipy", "cge_modeling/base/function_wrappers.py:wrap_scipy_func_for_pytensor"]}
{"id": "C34", "title": "Hessian-vector products receive the right point and direction", "statement": "A wrapped hessp called with (x, p, theta) evaluates the function at the variables x, parameters theta and direction p, each variable's slice of p passed as its own <name>_point argument.", "quantifier": "every model with at least one variable and one parameter, distinct names and no object called <variable>_point, every triple of vectors", "why_tests_cant": "depends on name overlaps and sizes", "anchors": ["cge_modeling/base/function_wrappers.py:wrap_pytensor_func_for_scipy", "cge_modeling/base/function_wrappers.py:wrap_scipy_func_for_pytensor"]}
{"id": "C35", "title": "Fixing variables restricts a function to the free ones", "statement": "The function returned by wrap_fixed_values evaluates the original function with the fixed variables at their fixed values and returns the entries of the free variables.", "quantifier": "every model, every non-empty set of fixed values, every input", "why_tests_cant": "never exercised by tests; holds for no input if the data is assembled wrongly", "anchors": ["cge_modeling/base/function_wrappers.py:wrap_fixed_values", "cge_modeling/base/utilities.py:make_flat_array_return_mask"]}
{"id": "C36", "title": "Euler trajectories are cut into the right variables", "statement": "wrap_numba_euler_function returns, for each object and each step, the object's own slice of that step's state in its declared shape.", "quantifier": "every trajectory matrix and model whose dimensions have at least one label", "why_tests_cant": "quantifies over sizes, ranks and number of steps", "anchors": ["cge_modeling/base/function_wrappers.py:wrap_numba_euler_function"]}
{"id": "C37", "title": "The Euler path of the parameters is the straight line to the scenario", "statement": "In every Euler implementation, the parameters after t of n steps equal initial + t/n (final - initial) regardless of the model, hence exactly the scenario after the last step.", "quantifier": "every number of steps n>=1, every model with at least one variable and one parameter whose names stay distinct when _initial and _final are appended, every scenario, every t", "why_tests_cant": "induction over steps", "anchors": ["cge_modeling/compile/numba.py:euler_approx", "cge_modeling/compile/euler.py:pytensor_euler_function_with_python_loop", "cge_modeling/compile/euler.py:symbolic_euler_approximation", "cge_modeling/compile/jax.py:jax_euler_step"]}
{"id": "C38", "title": "Euler steps stay in equilibrium for linear models", "statement": "If the model's equations are affine in variables and parameters and the initial state is an equilibrium, every Euler step (and every RK4 step) is an equilibrium for its parameters, and the last one for the scenario.", "quantifier": "every affine system with an exact linear solver, every number of steps n>=1 (names as in C37)", "why_tests_cant": "induction over steps for arbitrary dimension", "anchors": ["cge_modeling/compile/numba.py:euler_approx", "cge_modeling/compile/euler.py:pytensor_euler_function_with_python_loop", "cge_modeling/compile/jax.py:jax_euler_step"]}
{"id": "C39", "title": "No shock, no change", "statement": "If the scenario equals the initial parameters, every Euler step equals the initial state.", "quantifier": "every model with a linear solver that maps zero to zero (names as in C37), every number of steps", "why_tests_cant": "induction over steps, all models", "anchors": ["cge_modeling/compile/numba.py:euler_approx", "cge_modeling/compile/euler.py:pytensor_euler_function_with_python_loop"]}
{"id": "C40", "title": "All Euler backends return the same trajectory", "statement": "For the same model, scenario and number of steps, the numba, python-loop and scan implementations return the same states under the same step labels.", "quantifier": "every model, every scenario, every number of steps", "why_tests_cant": "backends are tested separately", "anchors": ["cge_modeling/compile/numba.py:euler_approx", "cge_modeling/compile/euler.py:pytensor_euler_function_with_python_loop", "cge_modeling/compile/euler.py:symbolic_euler_approximation"]}
{"id": "C41", "title": "Internal symbols of the numba Euler step do not capture user names", "statement": "The numba Euler step evaluates the model's Jacobians at the current state and contracts them with the parameter step, for every choice of variable and parameter names.", "quantifier": "every set of names, every model expression", "why_tests_cant": "name capture needs particular names", "anchors": ["cge_modeling/compile/numba.py:compile_numba_euler_func", "cge_modeling/compile/numba_tools.py:numba_lambdify"]}
{"id": "C42", "title": "The RK4 step is a consistent refinement of the Euler step", "statement": "The RK4 increment is the (1,2,2,1)/6 combination of four Euler increments; it equals the Euler increment when the slope does not depend on the state, and reproduces polynomial paths up to degree four exactly when the slope depends on the path parameter only.", "quantifier": "every slope function, every state and step", "why_tests_cant": "all slope functions", "anchors": ["cge_modeling/compile/jax.py:jax_euler_step", "cge_modeling/compile/euler.py:symbolic_euler_approximation", "cge_modeling/compile/pytensor.py:pytensor_euler_step"]}
{"id": "C43", "title": "Newton reports convergence only at a root", "statement": "If the Newton solver reports success, the returned point's residual norm is below the tolerance.", "quantifier": "every system, Jacobian, starting point with at least one variable, parameters None or not empty, step size, tolerance and iteration limit", "why_tests_cant": "the flag is computed at the point before the step", "anchors": ["cge_modeling/optimize.py:root", "cge_modeling/optimize.py:scan_body"]}
{"id": "C44", "title": "Newton never moves to a worse point", "statement": "Along every run the residual norm is non-increasing and strictly decreases whenever the point changes; the accepted step sizes are the initial step times a power of one half.", "quantifier": "every system, starting point with at least one variable, parameters None or not empty, and every number of iterations", "why_tests_cant": "induction over iterations", "anchors": ["cge_modeling/optimize.py:root"]}
{"id": "C45", "title": "Newton stops changing once converged and counts its work", "statement": "After the iteration at which convergence is detected the point no longer changes, the iteration count no longer grows, and the count is the number of iterations run before detection, at most the limit.", "quantifier": "every system, starting point with at least one variable, parameters None or not empty, and every later iteration", "why_tests_cant": "induction over iterations", "anchors": ["cge_modeling/optimize.py:root"]}
{"id": "C46", "title": "Newton solves linear systems in one step", "statement": "For an affine system with exact linear solves and unit step size, the point after one iteration is a root and the second iteration reports convergence.", "quantifier": "every affine system, starting point with at least one variable, parameters None or not empty, and positive tolerance", "why_tests_cant": "all systems", "anchors": ["cge_modeling/optimize.py:root"]}
{"id": "C47", "title": "Sums and products over an index run over that index's labels", "statement": "Expanding the reductions of an equation yields an expression whose value is the sum (product) over the labels of the index, for every valuation of the variables.", "quantifier": "every expression, label set and valuation", "why_tests_cant": "label sets that look like positions behave differently from the tested ones", "anchors": ["cge_modeling/tools/sympy_tools.py:substitute_reduce_ops", "cge_modeling/tools/sympy_tools.py:indexed_variables_to_sub_dict"]}
{"id": "C48", "title": "Nested reductions are fully expanded", "statement": "An equation with a reduction inside the summand of another reduction is expanded to an expression without reductions and without positional indices.", "quantifier": "every nesting, every order in which the reductions are visited", "why_tests_cant": "visiting order comes from a hash set", "anchors": ["cge_modeling/tools/sympy_tools.py:substitute_reduce_ops"]}
{"id": "C49", "title": "The sparse Jacobian equals the dense Jacobian", "statement": "The coordinates and values collected by the sparse Jacobian describe the same matrix as the dense one, for every system and valuation.", "quantifier": "every non-empty list or column of expressions and non-empty list of variables", "why_tests_cant": "all expressions", "anchors": ["cge_modeling/tools/sympy_tools.py:jacobian_as_dok_data", "cge_modeling/tools/sympy_tools.py:sparse_jacobian", "cge_modeling/compile/sympy.py:make_sympy_jacobian"]}
{"id": "C50", "title": "The symbolic derivatives handed to the compilers are the derivatives of the residuals", "statement": "Entry (i,j) of the Jacobian is the derivative of residual i in variable j; the gradient of the loss is J^T F; the Hessian is its Jacobian and symmetric; and hessp is the Hessian times the direction.", "quantifier": "every system of differentiable expressions, every point in its domain", "why_tests_cant": "all expressions and points", "anchors": ["cge_modeling/compile/sympy.py:make_sympy_jacobian", "cge_modeling/compile/sympy.py:make_sympy_gradient", "cge_modeling/compile/sympy.py:make_sympy_hessp", "cge_modeling/compile/numba.py:compile_numba_gradient_function"]}
{"id": "C51", "title": "Recursive calibration returns values that satisfy the equations", "statement": "If recursive_solve_symbolic returns, the returned values satisfy all equations it was given and agree with the given initial values; it fails only if some equation cannot be reached by solving one unknown at a time.", "quantifier": "every system of equations, every initial data, every solver behaviour", "why_tests_cant": "depends on the order of discovery and on redundancy between data and equations", "anchors": ["cge_modeling/tools/sympy_tools.py:recursive_solve_symbolic"]}
{"id": "C52", "title": "Scalar symbols are mapped to their own element of the packed arrays", "statement": "The map from unpacked symbols to packed arrays sends each symbol to the element of its parent array at its labels' positions, so that evaluating an unpacked equation on packed data gives the value on the flat vectors.", "quantifier": "every model whose unpacked names and whose labels within a dimension are distinct, and all data", "why_tests_cant": "all dims and label positions", "anchors": ["cge_modeling/compile/pytensor_tools.py:make_unpacked_to_packed_map"]}
{"id": "C53", "title": "Models whose declared inputs differ from the used inputs are rejected", "statement": "The pytensor parser accepts a model iff the set of symbols its equations use is exactly the set of declared variables and parameters.", "quantifier": "every set of equations and declarations with distinct names, none called pt", "why_tests_cant": "set comparisons over arbitrary names", "anchors": ["cge_modeling/compile/pytensor.py:validate_pytensor_parsing_result"]}
{"id": "C54", "title": "Equations written with '=' become left minus right", "statement": "normalize_eq turns 'lhs = rhs' into an expression whose value is value(lhs) - value(rhs) for every arithmetic lhs and rhs, keeps equations without '=' unchanged, and does not split at keyword arguments.", "quantifier": "every equation string", "why_tests_cant": "all strings and expressions", "anchors": ["cge_modeling/tools/parsing.py:normalize_eq"]}
{"id": "C55", "title": "Cobb-Douglas equations describe a Cobb-Douglas producer", "statement": "The generated demand equations say every factor is paid its share of revenue; together with the production function (shares summing to one) they imply zero profit; both ways of closing the block (value or production definition) admit the same solutions.", "quantifier": "every number of factors, all positive prices and quantities", "why_tests_cant": "all numbers of factors and values", "anchors": ["cge_modeling/production_functions.py:cobb_douglass"]}
{"id": "C56", "title": "CES equations describe a CES producer", "statement": "Given the generated demand equations, the value definition and the production-function definition are equivalent, and both hold iff the output price is the CES unit cost.", "quantifier": "every number of factors, every elasticity other than 0 and 1, all positive prices and quantities; arguments that are names or bracketed expressions, without expand_price_dim", "why_tests_cant": "all values", "anchors": ["cge_modeling/production_functions.py:CES"]}
{"id": "C57", "title": "Leontief equations describe a Leontief producer", "statement": "The generated demand equations fix each input in proportion to output, and together with the zero-profit equation say that the output price is the sum of input prices times coefficients, for each output.", "quantifier": "every number of factors and outputs, all prices and quantities", "why_tests_cant": "all sizes and values, and the choice of the summed axis", "anchors": ["cge_modeling/production_functions.py:leontief", "cge_modeling/production_functions.py:_1d_leontief", "cge_modeling/production_functions.py:_2d_leontief"]}
{"id": "C58", "title": "Dixit-Stiglitz equations describe a Dixit-Stiglitz aggregator", "statement": "The generated demand is the one that, with the definition, minimises the cost of the aggregate; leaving TFP or shares out is the same as passing one.", "quantifier": "every number of varieties, all positive values", "why_tests_cant": "all values", "anchors": ["cge_modeling/production_functions.py:dixit_stiglitz"]}
{"id": "C59", "title": "Production-function arguments are checked and left alone", "statement": "Each generator accepts exactly argument lists of matching lengths (with the last share inferred when one is missing), does not modify the caller's lists, and gives the same equations when called again with the same arguments.", "quantifier": "every argument list", "why_tests_cant": "aliasing effects depend on call sequences", "anchors": ["cge_modeling/production_functions.py:_check_pairwise_lengths_match", "cge_modeling/production_functions.py:_add_second_alpha", "cge_modeling/production_functions.py:cobb_douglass", "cge_modeling/production_functions.py:CES"]}
{"id": "C60", "title": "Expression arguments are substituted as units", "statement": "When an argument of a production-function generator is an expression rather than a name, the generated equation means the same as with a fresh name defined to equal that expression.", "quantifier": "every expression argument, every generator, every argument position", "why_tests_cant": "operator precedence matters only for compound arguments", "anchors": ["cge_modeling/production_functions.py:cobb_douglass", "cge_modeling/production_functions.py:CES", "cge_modeling/production_functions.py:leontief", "cge_modeling/production_functions.py:dixit_stiglitz"]}
{"id": "C61", "title": "The SAM transform is undone by its inverse", "statement": "inverse_transform(transform(sam)) is the original SAM.", "quantifier": "every square SAM with nonzero total", "why_tests_cant": "depends on the pattern of negative cells", "anchors": ["cge_modeling/tools/rebalance.py:SAMTransformer"]}
{"id": "C62", "title": "Rebalancing yields a balanced SAM with the original zero pattern", "statement": "If the optimizer's point satisfies the constraints it was given, the SAM returned by balance_SAM has equal row and column totals for every account, and every cell that was zero in the input is zero in the output.", "quantifier": "every square SAM with nonzero total in which no two opposite cells are both negative, every feasible optimizer point", "why_tests_cant": "all matrices and optimizer outputs", "anchors": ["cge_modeling/tools/rebalance.py:balance_SAM", "cge_modeling/tools/rebalance.py:_balance_with_cvxpy", "cge_modeling/tools/rebalance.py:_balance_with_scipy", "cge_modeling/tools/rebalance.py:SAMTransformer"]}
{"id": "C63", "title": "Nonzero cells are gathered and scattered consistently", "statement": "Gathering the nonzero cells of a matrix into a vector and scattering them back (through the selection matrix or the mask) restores the matrix, and scattering any vector puts its k-th entry in the k-th gathered cell and zero elsewhere.", "quantifier": "every matrix and vector for the selection matrix; every matrix without negative cells for the mask", "why_tests_cant": "all zero patterns", "anchors": ["cge_modeling/tools/rebalance.py:sparse_to_vector_and_matrix", "cge_modeling/tools/rebalance.py:get_flat_nonzero_values", "cge_modeling/tools/rebalance.py:_balance_with_scipy"]}
{"id": "C64", "title": "A balanced SAM is already a solution of the rebalancing problem", "statement": "If the input SAM is balanced, its own normalised values satisfy all constraints handed to the optimizer, and if the optimizer returns them the SAM is returned unchanged.", "quantifier": "every balanced square SAM with nonzero total and no negative cell", "why_tests_cant": "depends on the presence of negative cells", "anchors": ["cge_modeling/tools/rebalance.py:SAMTransformer", "cge_modeling/tools/rebalance.py:_balance_with_cvxpy", "cge_modeling/tools/rebalance.py:_balance_with_scipy"]}
{"id": "C65", "title": "Plot grids have one cell per plot", "statement": "prepare_gridspec_figure with n_cols,n_plots>=1 returns exactly n_plots locations, inside the grid, pairwise disjoint, all of the same size, row by row, with the last row centred.", "quantifier": "all n_cols and n_plots", "why_tests_cant": "integer arithmetic for all pairs", "anchors": ["cge_modeling/plotting.py:prepare_gridspec_figure"]}
{"id": "C66", "title": "Table headings align with table columns", "statement": "Every heading row produced for a table has the width of the number of leaf columns, and each heading spans the columns of its own leaves.", "quantifier": "every nested dictionary of results", "why_tests_cant": "all tree shapes", "anchors": ["cge_modeling/tools/output_tools.py:compute_padding", "cge_modeling/tools/output_tools.py:Tree.make_headings", "cge_modeling/tools/output_tools.py:build_tree"]}
{"id": "C67", "title": "Bar data are the stated metrics", "statement": "Each bar equals final - initial, final/initial - 1 where the initial value is non-negligible (0 otherwise), or the value itself, per metric.", "quantifier": "all values and thresholds", "why_tests_cant": "all real values including negative ones", "anchors": ["cge_modeling/plotting.py:_compute_bar_data"]}
{"id": "C68", "title": "Areas in a plot carry their own label", "statement": "Each area drawn by plot_areas is labelled with the variable element it shows.", "quantifier": "every variable and list of drop indices", "why_tests_cant": "depends on number of dims", "anchors": ["cge_modeling/plotting.py:plot_areas"]}
{"id": "C69", "title": "Requested functions, and only those, are compiled", "statement": "The functions a compiled model offers are exactly those requested by functions_to_compile, and the backend chosen by default depends on the equations only through the presence of reductions and broadcasts as documented.", "quantifier": "every request and every list of equations", "why_tests_cant": "combinations of requests and strings", "anchors": ["cge_modeling/base/build.py:compile_model", "cge_modeling/base/build.py:_parse_compile_kwarg", "cge_modeling/base/build.py:determine_default_backend"]}
{"id": "C70", "title": "A model that was never compiled can still be simulated", "statement": "simulate and calibrate on a model without compiled functions compile what they need first (or fail with an informative error) for every state of the model.", "quantifier": "every compile request and call", "why_tests_cant": "reachable only from particular states", "anchors": ["cge_modeling/base/cge.py:CGEModel.simulate", "cge_modeling/base/cge.py:CGEModel.calibrate", "cge_modeling/base/build.py:compile_model"]}
{"id": "C71", "title": "Generated numba source means the expression", "statement": "The textual post-processing of generated source keeps array indices integral and does not change the value of any numeric literal; printing Max/Min of any number of arguments evaluates to the maximum/minimum.", "quantifier": "every generated source string and expression", "why_tests_cant": "regex rewriting over arbitrary strings", "anchors": ["cge_modeling/compile/numba_tools.py:numba_lambdify"]}
{"id": "C72", "title": "The requested Euler scheme is compiled", "statement": "If compilation with use_rk4 succeeds, the Euler function uses the RK4 scheme; use_scan_euler compiles on the pytensor backends; options that a backend cannot honour are refused.", "quantifier": "every backend, request and combination of options", "why_tests_cant": "combinations of backends and options, most of which no test compiles", "anchors": ["cge_modeling/base/build.py:compile_model"]}
{"id": "C73", "title": "Scalar residuals mean the written equation", "statement": "When an equation is accepted, it becomes exactly one scalar residual per combination of labels of its free dims, in row-major order over the dims in the order of coords; each residual contains no indexed symbol and no reduction, and whenever the written equation has a value under those labels, the residual has the same value when every scalar symbol X_a_b holds the element X[a, b]; such an assignment of scalar symbols exists for all data when the unpacked names are distinct.", "quantifier": "every coords dict with non-numeral labels, every list of objects, every equation whose reductions are not nested, every data set, every order in which sympy walks sets and dicts", "why_tests_cant": "depends on the composition of five substitutions over arbitrary expressions and label sets", "anchors": ["cge_modeling/base/cge.py:CGEModel.add_sympy_equation", "cge_modeling/base/cge.py:CGEModel._unpack_equations", "cge_modeling/base/cge.py:CGEModel._simplify_unpacked_sympy_representation", "cge_modeling/tools/sympy_tools.py:indexed_variables_to_sub_dict", "cge_modeling/base/primitives.py:_SympyEquation.update_dim_value", "cge_modeling/base/primitives.py:ModelObject.to_sympy"]}
{"id": "C74", "title": "The numeraire is fixed at one in every equation", "statement": "With a numeraire, the standard form of every equation has the value of the written equation at numeraire = 1 and does not depend on the value of the numeraire.", "quantifier": "every numeraire, equation and data set", "why_tests_cant": "depends on where the numeraire occurs: at its own indices, inside reductions, at labels", "anchors": ["cge_modeling/base/cge.py:CGEModel.add_sympy_equation"]}
{"id": "C75", "title": "Derivatives are put in the column of their own element", "statement": "The Jacobian of the pytensor backend is a matrix with one row per equation and one column per scalar element of the arrays; the derivative of equation e with respect to element idx of array j is in row e and in the column of that element in the flat vector (C03), each column belongs to exactly one element, and the gradient has the same order. The symbolic Jacobian of the numba and sympytensor backends has the same columns, so that the two matrices are equal entry by entry when both differentiate correctly.", "quantifier": "every list of array shapes, number of equations and derivative function; every model with distinct unpacked names", "why_tests_cant": "a transposed or interleaved layout only shows for arrays of several dimensions and unequal sizes", "anchors": ["cge_modeling/compile/pytensor_tools.py:make_jacobian", "cge_modeling/compile/pytensor.py:compile_pytensor_gradient_function", "cge_modeling/compile/sympy.py:make_sympy_jacobian", "cge_modeling/base/cge.py:CGEModel._unpack_variables"]}
{"id": "C76", "title": "Jacobian-vector products agree with the Jacobian", "statement": "The product of the parameter Jacobian with a step is the same with Rop and with the fallback through the explicit matrix, and is the first-order change of every equation; the Hessian-vector product is the Hessian times the flat direction; a direction can be passed to make_jvp as documented.", "quantifier": "every derivative function, list of shapes and direction", "why_tests_cant": "the fallback runs only for Ops without Rop; agreement must hold for all directions", "anchors": ["cge_modeling/compile/pytensor.py:make_jvp", "cge_modeling/compile/pytensor.py:pytensor_euler_step", "cge_modeling/compile/pytensor.py:compile_pytensor_hessp_function", "cge_modeling/compile/pytensor_tools.py:flatten_equations"]}
{"id": "C77", "title": "One Euler step solves the linearised model", "statement": "With a solver that solves its linear systems, the arrays of changes computed by one pytensor Euler step have the shapes of the variables and satisfy, for every equation, sum of derivative times change over all elements of all variables plus the same sum over the parameters equals zero.", "quantifier": "every derivative function, solver, list of shapes and parameter step, with and without Rop", "why_tests_cant": "ties together matrix layout, solver and the cutting of the solution into arrays", "anchors": ["cge_modeling/compile/pytensor.py:pytensor_euler_step", "cge_modeling/compile/euler.py:_make_euler_matrices", "cge_modeling/compile/pytensor_tools.py:flat_tensor_to_ragged_list", "cge_modeling/compile/pytensor_tools.py:make_jacobian"]}
{"id": "C78", "title": "Index enumeration gives every instance", "statement": "expand_indices returns exactly the expressions obtained from the given ones by putting a value for every index they have; distinct instances come expression by expression with the first index slowest, and n expressions that have all indices give n times the product of the numbers of values, as documented.", "quantifier": "every list of expressions, indices and values, whatever has and subs of sympy do, provided that == is equality and that the instances are distinct where order and number are concerned", "why_tests_cant": "the number of instances grows with the product of the label sets; duplicates are removed silently", "anchors": ["cge_modeling/tools/sympy_tools.py:expand_indices", "cge_modeling/tools/sympy_tools.py:enumerate_indexbase"]}
{"id": "C79", "title": "One name per indexed element", "statement": "The symbol that replaces an indexed variable X[a, b] is named X_a_b, the name that make_indexed_name and symbol give to the same element; distinct indexed variables get distinct symbols, and the substitution dict maps each to its own.", "quantifier": "every base name and label without brackets, commas and spaces; for distinctness, labels without underscores and base names of which none continues another after an underscore", "why_tests_cant": "collisions depend on particular pairs of labels", "anchors": ["cge_modeling/tools/utils.py:brackets_to_snake_case", "cge_modeling/tools/sympy_tools.py:indexed_var_to_symbol", "cge_modeling/tools/sympy_tools.py:make_indexbase_sub_dict", "cge_modeling/tools/sympy_tools.py:symbol", "cge_modeling/tools/sympy_tools.py:make_indexed_name"]}
{"id": "C80", "title": "Compiled numba functions evaluate the model at the flat vectors", "statement": "The functions that numba_lambdify generates return, at the flat vector of variables and the flat vector of parameters, the values of the equations (f_system), a matrix with the derivative of equation i by variable j in row i and column j (f_jac), half the sum of squared equations (f_resid), its gradient (f_grad), the symmetric matrix of second derivatives (f_hess) and that matrix times the direction (f_hessp), whatever sub-expressions sp.cse names.", "quantifier": "every system of smooth scalar equations and every point; distinct names that are Python identifiers and none of exog_inputs, endog_inputs, np, len, hess_point", "why_tests_cant": "the generated source depends on the names and on which sub-expressions sympy shares; a wrong unpacking order only shows for asymmetric equations", "anchors": ["cge_modeling/compile/numba_tools.py:numba_lambdify", "cge_modeling/compile/numba.py:compile_numba_jacobian_function", "cge_modeling/compile/numba.py:compile_numba_error_function", "cge_modeling/compile/numba.py:compile_numba_gradient_function", "cge_modeling/compile/numba.py:compile_numba_hessp_function", "cge_modeling/compile/numba.py:compile_numba_cge_functions", "cge_modeling/compile/sympy.py:make_sympy_hessp"]}
{"id": "C81", "title": "Numba functions return the residuals of the written equations", "statement": "For a declared model, data given as one array per object, and the flat vectors made from these data, f_system of the numba backend returns the residuals left side minus right side of the equations as written (with sums and products over index sets), equation after equation, one for every combination of labels of its dims in row-major order; f_resid returns half the sum of their squares; the entry of f_jac in the row of a residual and the column of an element of a variable is the derivative of that residual of the written equation with respect to that element, and f_grad holds the derivatives of f_resid.", "quantifier": "every model with plain labels, unnested reductions, distinct scalar names that are Python identifiers other than exog_inputs, endog_inputs, np, len, and all data for which the equations have values; derivatives where the scalar residual is smooth, for variables other than the numeraire; whatever order sympy walks its sets in and whatever sub-expressions sp.cse names", "why_tests_cant": "an error in expansion, naming, ordering or unpacking anywhere in the chain only shows as a wrong number for particular shapes and label sets", "anchors": ["cge_modeling/compile/numba.py:compile_numba_cge_functions", "cge_modeling/base/cge.py:CGEModel._unpack_equations", "cge_modeling/base/cge.py:CGEModel.unpacked_variable_symbols", "cge_modeling/compile/numba_tools.py:numba_lambdify", "cge_modeling/base/utilities.py:variable_dict_to_flat_array"]}
{"id": "C82", "title": "Array equations mean their index equations", "statement": "With the pytensor backend, f_system returns for every equation, one after the other and in row-major order of the dims of the equation, the residuals left side minus right side of the equation in index notation: arithmetic pairs the axes of equal dims, [:, None] and [None] insert an axis along which nothing varies, [k] takes label number k, sum and prod with axis=k run over the k-th dim and without argument over all. An equation that uses only arithmetic has the residuals of the same equation in the index notation of the sympy backends, provided the dims of its objects line up from the right.", "quantifier": "every set of declared objects, arrays of their shapes and list of equations of arithmetic, indexing by None, : and numbers, sum, prod and ravel, with values that exist in real arithmetic", "why_tests_cant": "broadcasting accepts axes of equal length whatever dims they stand for, so a misaligned equation shows no error when the label sets have the same size", "anchors": ["cge_modeling/compile/pytensor.py:cge_primitives_to_pytensor", "cge_modeling/compile/pytensor_tools.py:object_to_pytensor", "cge_modeling/compile/pytensor_tools.py:flatten_equations", "cge_modeling/tools/parsing.py:normalize_eq"]}
{"id": "C83", "title": "Unpacked string inputs", "statement": "unpack_string_inputs turns every input given as a string into the list of the names of its elements: the input followed by an underscore and a label for every dim, one per combination of labels, in row-major order of the dims as given. A dim that coords lacks raises KeyError. Inputs that are lists are returned unchanged.", "quantifier": "all inputs, dims and coords", "why_tests_cant": "the function is exported but neither called nor tested in the repository; lists of one name and lists next to strings take paths of their own", "anchors": ["cge_modeling/production_functions.py:unpack_string_inputs"]}
{"id": "C84", "title": "Derivatives of the array backends", "statement": "The functions that the jax and pytensor backends compile for root and minimize, called with the flat vectors of variables and parameters as scipy does, return: f_jac the matrix whose entry in row r and column k is the derivative of residual r of the written equations in element k of the variables; f_resid half the sum of the squared residuals; f_grad its derivatives; f_hess its second derivatives; f_hessp, with jax, the derivative of the gradient along the direction, and with pytensor the product of the transposed Hessian with it.", "quantifier": "every model of array equations as in C82 with at least one variable and one parameter, distinct names and known dims; every point at which, and near which, the residuals have values and derivatives; differentiation by jax and pytensor taken to return the derivative where there is one", "why_tests_cant": "a slip in the order of the blocks, in the split of the flat vector or in the argument that is differentiated gives a matrix of the right shape", "anchors": ["cge_modeling/compile/jax.py:make_jax_system_and_jacobian", "cge_modeling/compile/jax.py:jax_loss_grad_hessp", "cge_modeling/compile/jax.py:compile_jax_cge_functions", "cge_modeling/compile/jax.py:graph_to_jax_function", "cge_modeling/compile/pytensor.py:compile_pytensor_cge_functions", "cge_modeling/compile/pytensor.py:compile_pytensor_error_function"]}
{"id": "C85", "title": "Functions of the sympytensor backend", "statement": "The functions that the sympytensor backend, the default, compiles for root and minimize, called with the arrays of all variables and parameters by name, return: f_system the residuals of the written equations at these data, equation by equation in row-major order of its dims; f_resid half their sum of squares; f_jac, f_grad and f_hess the derivatives of the residuals, of the loss and of the gradient, with the elements of the variables in the order of the flat vector; f_hess is symmetric and f_hessp is its product with the direction given by the arrays named after the variables with _point appended. A missing or unknown array raises TypeError. A model with a variable or parameter that occurs in no equation does not compile and raises ValueError.", "quantifier": "every model of index equations as in C73 with at least one variable and one parameter, distinct names of arrays and of elements, none of them hess_point, and no numeraire; derivatives at points where the residuals are smooth", "why_tests_cant": "every scalar symbol of the printed graph is replaced by one element of one array; a wrong replacement keeps all shapes, and a test on one small model sees one arrangement of labels", "anchors": ["cge_modeling/compile/sympytensor.py:sympy_cge_primitives_to_pytensor", "cge_modeling/compile/sympytensor.py:compile_sympytensor_cge_functions", "cge_modeling/compile/sympytensor.py:compile_sympytensor_jacobian", "cge_modeling/compile/sympytensor.py:compile_sympytensor_hessp_function", "cge_modeling/compile/pytensor_tools.py:unpacked_graph_to_packed_graph", "cge_modeling/compile/pytensor.py:validate_pytensor_parsing_result"]}
{"id": "C86", "title": "Calibration by recursive solution", "statement": "calibrate(data) returns a Result with one initial and one fitted value per scalar variable and parameter, in the order of the model: the initial values are the data and nan elsewhere, the fitted values keep the data. success is true exactly if every symbol of the equations got a number and half the sum of the squared residuals at the fitted values is below 1e-6, whatever the symbolic solver did; data from an economy that solves the equations give back this economy with success true if the solver finds its values. A name that is not in the model raises ValueError. The result can be computed with every backend and can be handed to simulate as initial state.", "quantifier": "every compiled model parsed to sympy with distinct scalar names, every dict of numbers, every behaviour of sp.simplify, sp.solve and evalf allowed by their contracts; the compiled error function returns half the sum of squares, or nan if a needed value is nan", "why_tests_cant": "calibrate has no test in the repository; which equation determines which symbol depends on the data given", "anchors": ["cge_modeling/base/cge.py:CGEModel.calibrate", "cge_modeling/base/cge.py:CGEModel.get_symbol", "cge_modeling/base/cge.py:CGEModel.print_residuals", "cge_modeling/base/cge.py:CGEModel.simulate", "cge_modeling/base/primitives.py:Result.to_dict", "cge_modeling/tools/sympy_tools.py:recursive_solve_symbolic"]}
{"id": "C87", "title": "Tables of a model", "statement": "summary lists the requested objects in order (all: variables, then parameters), and the table made from it has one row per object with its LaTeX symbol, its description with every dim marker replaced by the name of the dim, and for every result the initial and the fitted value of that object; the heading row names these columns, every heading row has the width of the table, and no cell fails to print. A name that is no variable or parameter raises ValueError. equation_table has one row per equation: its number from 1, its name with the markers replaced and the equation written with LaTeX names.", "quantifier": "every model with distinct names, every request, every list of results with distinct names other than Symbol and Description that hold the requested objects; every printer of expressions", "why_tests_cant": "the tables are only displayed; no test reads them", "anchors": ["cge_modeling/base/cge.py:CGEModel.summary", "cge_modeling/base/cge.py:CGEModel.equation_table", "cge_modeling/tools/output_tools.py:make_table", "cge_modeling/tools/output_tools.py:parse_data", "cge_modeling/tools/output_tools.py:make_summary_table", "cge_modeling/base/primitives.py:Result.to_frame"]}
{"id": "C88", "title": "Collecting a calibration", "statement": "finalize_calibration returns one entry for every variable and parameter that is a local variable of the caller, variables first, alphabetically within each group, with the array given there (a list of one number given for an object without dims becomes that number); what it reports is exactly the objects without a value and the arrays whose shape is not that of the dims. It refuses a calibration in which a value is missing or an array has the wrong shape; when nothing is wrong, the entries flatten and unflatten to the given data. initialize_parameter returns an array of the shape of the dims (the one of get_shape) filled with the value. Unknown names raise ValueError.", "quantifier": "every model whose objects have distinct names and dims with labels, every caller", "why_tests_cant": "the methods are called by no test and read the frame of their caller", "anchors": ["cge_modeling/base/cge.py:CGEModel.check_shape", "cge_modeling/base/cge.py:CGEModel.finalize_calibration", "cge_modeling/base/cge.py:CGEModel.initialize_parameter", "cge_modeling/base/cge.py:CGEModel.get_shape", "cge_modeling/base/cge.py:CGEModel.get"]}
{"id": "C89", "title": "Progress statistics of the Euler loop", "statement": "get_step_statistics evaluates the system and the gradient at the current variables and parameters and returns, under RMSE, the root of the mean of the squared errors and, under grad_norm, the Euclidean norm of the gradient; exactly the fields of the functions that are given are present, and they are the fields the format of the progress bar asks for.", "quantifier": "all compiled functions, all states, errors of any shape", "why_tests_cant": "the numbers are only displayed", "anchors": ["cge_modeling/compile/euler.py:get_step_statistics", "cge_modeling/compile/euler.py:pytensor_euler_function_with_python_loop"]}
{"id": "C90", "title": "Greek letters in printed names", "statement": "The printed name of an object is its LaTeX name (its name when none is given) with a backslash put before exactly those places, at the start or after _ or ^, where the name of a Greek letter starts; nothing else changes, and printing a printed name changes nothing. Words that merely begin like a Greek letter are left alone, and letters in scripts with braces are escaped too.", "quantifier": "every name, every list of letter names without _, ^ and backslash", "why_tests_cant": "tests use a handful of names; what goes wrong is only seen in rendered output", "anchors": ["cge_modeling/base/primitives.py:ModelObject._initialize_latex_name"]}
{"id": "C91", "title": "Data shown by plot_lines and plot_bar", "statement": "plot_lines draws one subplot per requested variable (all variables by default), in order, on the places of prepare_gridspec_figure, with the new name as title; its lines are, for every element of the variable, the points (step, value) of the Euler approximation; its stars are the initial values at 0 - those passed, else those of the optimizer group - and the final values at the greatest step; a missing group raises ValueError. plot_bar draws for every requested variable (all by default) the bars of the metric computed from its values at the last and first step of the optimizer group, or of the euler group if there is no other.", "quantifier": "every simulation result whose arrays have one entry per step, every choice of variables, columns, names and legends", "why_tests_cant": "no test looks at what is drawn", "anchors": ["cge_modeling/plotting.py:plot_lines", "cge_modeling/plotting.py:plot_bar", "cge_modeling/plotting.py:_plot_one_bar", "cge_modeling/plotting.py:prepare_gridspec_figure"]}
{"id": "C92", "title": "What simulate solves and returns", "statement": "Given an equilibrium as initial state (which is checked) and a scenario, simulate hands the solver functions which, called with flat vectors, evaluate the residuals (or the loss), and exactly the derivatives asked for, of the model at those vectors; it starts the solver at the initial state or, with the Euler approximation, at the last step finite in all variables and parameters; it fixes the parameters at the scenario. The returned data has the initial state as step 0 and the answer of the solver with the new parameters as step 1, and the Euler data has exactly the finite steps. check_for_equilibrium evaluates the residuals at the given step. A dict, a Result and a Dataset are accepted as initial state.", "quantifier": "every backend, every declared model with arrays of any rank, every solver, every compiled function, every scenario, every Euler trajectory with finite steps followed by steps with NaN", "why_tests_cant": "tests run a few models with one real solver; they do not see which functions and vectors the solver got", "anchors": ["cge_modeling/base/cge.py:CGEModel.simulate", "cge_modeling/base/cge.py:CGEModel._solve_with_root", "cge_modeling/base/cge.py:CGEModel._solve_with_minimize", "cge_modeling/base/cge.py:CGEModel.check_for_equilibrium", "cge_modeling/base/function_wrappers.py:wrap_pytensor_func_for_scipy"]}
{"id": "C93", "title": "A solved simulation satisfies the written equations", "statement": "The function simulate hands to root returns, at any data, the residuals (left side minus right side, one per combination of labels) of the equations the user wrote; the function handed to minimize returns half the sum of their squares, which is zero only if all are zero. So if root returns a point, the data simulate returns as its last step satisfies every written equation for all labels if and only if the solver's function is zero at that point, and check_for_equilibrium on the returned data evaluates exactly that function there. This holds for all three backends.", "quantifier": "every declared model with coords, arrays of any rank, scalars and equations that the backend compiles (numba and sympytensor: equations with sums and products over whole dims; pytensor: the notation shared by all backends), every solver and every answer of the right length, every scenario, with or without the Euler start; no numeraire", "why_tests_cant": "tests check a few models at one solution to a tolerance, and compare to a stored SAM rather than to the written equations", "anchors": ["cge_modeling/base/cge.py:CGEModel.simulate", "cge_modeling/base/cge.py:CGEModel._solve_with_root", "cge_modeling/base/cge.py:CGEModel._solve_with_minimize", "cge_modeling/base/cge.py:CGEModel.check_for_equilibrium", "cge_modeling/compile/sympytensor.py:compile_sympytensor_cge_functions", "cge_modeling/compile/numba.py:compile_numba_cge_functions", "cge_modeling/compile/pytensor.py:compile_pytensor_cge_functions"]}
{"id": "C94", "title": "Calls of simulate and their stored results", "statement": "A call of simulate that raises leaves the result directory as it was; a call that returns changes at most one file, which then holds the returned result and is a new one unless overwrite is set. A series of calls starting with an empty directory behaves as a notebook with one page per simulation name: a call without overwrite is answered from its page if there is one, every other call is computed from its own arguments, and only a computed, saved, successful call writes its page; afterwards read_results of a name gives its page.", "quantifier": "every series of calls with any models, states, scenarios, options, solvers, dates and failures; for the notebook: names (given or default) that do not end in pkl, do not consist of dots, and none of which is another one followed by a bracket as in f(1)", "why_tests_cant": "tests run one simulation with a fixed name; the interplay of failures, default names, overwriting and reading needs series of calls", "anchors": ["cge_modeling/base/cge.py:CGEModel.simulate", "cge_modeling/base/cge.py:write_results", "cge_modeling/base/cge.py:read_results"]}
{"id": "C95", "title": "The promise that products have no zeros", "statement": "The graph rewrite that marks every product as free of zeros changes no value of the model: the node after the rewrites has the value of the node before, for a product over everything and for one along an axis. Derivatives of products are those of the product as a function of its elements.", "quantifier": "values: all arrays, ranks and axes; derivatives: all elements", "why_tests_cant": "the only test counts a flag in a compiled graph of one vector; it computes no value, no axis and no derivative", "anchors": ["cge_modeling/compile/pytensor_tools.py:prod_to_no_zero_prod", "cge_modeling/compile/pytensor_tools.py:rewrite_pregrad"]}
{"id": "C96", "title": "Piecewise expressions printed for numba", "statement": "The text printed for a Piecewise expression is one bracketed Python expression whose value is that of the first case whose condition holds.", "quantifier": "all Piecewise expressions: numbers of cases, conditions and values, texts of conditions and numbers that are balanced in brackets", "why_tests_cant": "no test prints a Piecewise expression; the nesting of conditional expressions and the last case depend on the number of cases and on the texts of the conditions", "anchors": ["cge_modeling/compile/numba_tools.py:_print_Piecewise"]}
{"id": "C97", "title": "Bar plots of selected labels and of groups", "statement": "plot_bar with selected coords draws, for every variable, one bar per combination of the selected labels, dims with one selected label being fixed at it; the values are those of the elements with these labels at the last and at the first step, compared by the metric. With groups for the only remaining dim, one bar is drawn per group, in alphabetical order, for the sums over the labels of the group.", "quantifier": "all results, variables, dims, selections of existing labels, groups, metrics, thresholds and numbers of columns", "why_tests_cant": "no test selects coords or groups; which dims are dropped, fixed or summed depends on the selection and on the dims of each variable", "anchors": ["cge_modeling/plotting.py:plot_bar", "cge_modeling/plotting.py:_plot_one_bar"]}
{"id": "C98", "title": "Nodes and trees of nested tables with their references", "statement": "Nodes created one after the other, each with an existing parent or none, have the level given by the length of their line of ancestors, list exactly their children in the order of creation, and report as descendents exactly the nodes below them; the family trees divide all nodes, the number of generations is the length of the longest line below a node, and split_tree rebuilds the nodes from a level on with their names, data and relations. The nodes of build_tree store the nested table.", "quantifier": "all sequences of node creations, all levels of splitting and all nested tables", "why_tests_cant": "nodes are updated through references to their parents, so a list of children depends on every later creation; tests build trees of two levels only through the printed tables", "anchors": ["cge_modeling/tools/output_tools.py:Node", "cge_modeling/tools/output_tools.py:Tree", "cge_modeling/tools/output_tools.py:get_n_generations", "cge_modeling/tools/output_tools.py:split_tree", "cge_modeling/tools/output_tools.py:build_tree"]}
{"id": "C99", "title": "Descriptions of variables with their indices", "statement": "sub_info_dicts replaces, in the latex name of every entry, exactly the indices of the substitution that stand as scripts, in the description exactly the words that are indices, and in the list of indices every index; everything else is kept, in the order of the entries. get_info returns the entry whose symbol is the given one, and symbols gives different variables different names.", "quantifier": "all lists of entries, all substitutions and all latex names and descriptions", "why_tests_cant": "the replacement is done by four regular expressions per index, one index after the other, and the tests substitute one index in one name", "anchors": ["cge_modeling/tools/output_tools.py:sub_info_dicts", "cge_modeling/tools/output_tools.py:get_info", "cge_modeling/tools/sympy_tools.py:symbols"]}
{"id": "C100", "title": "Bars of several variables in one plot", "statement": "With plot_together, plot_bar draws for every variable, over common labels, the same bars as for the variable alone; variables may lack a dim with one selected label. Variables are accepted exactly if they have the same remaining dims, and scalars get one bar each.", "quantifier": "all results, lists of variables, selections of labels, groups, metrics and thresholds", "why_tests_cant": "the frame of several variables is built over the dims of all of them and levels are dropped afterwards; there are no tests of plots", "anchors": ["cge_modeling/plotting.py:plot_bar", "cge_modeling/plotting.py:_plot_one_bar", "cge_modeling/plotting.py:_compute_bar_data"]}
{"id": "C101", "title": "Root inputs of an expression", "statement": "get_inputs lists exactly the names of arrays, scalars and indices that occur in an expression, each once, and the value of the expression depends on nothing else; an expression without inputs is a constant. The product of no factors is not defined by _prod.", "quantifier": "all expressions, with sums and products over indices, and all values of the variables", "why_tests_cant": "that nothing outside of the list matters is a statement about all values of all other variables; the function has no tests", "anchors": ["cge_modeling/tools/sympy_tools.py:get_inputs", "cge_modeling/tools/sympy_tools.py:_prod"]}
{"id": "C102", "title": "Symbols made from descriptions", "statement": "dict_info_to_symbols makes, for each description in its order, the symbol with its name and assumptions, indexed by its indices when it has some, and offers each under its name; it fails exactly when there is no description or one without a name. remove_string_keys keeps exactly the entries whose key is no string, and union_many is the union of its arguments.", "quantifier": "all lists of descriptions and assumptions, all dictionaries and all lists of sets", "why_tests_cant": "names given twice and frozen sets occur in no test", "anchors": ["cge_modeling/tools/sympy_tools.py:dict_info_to_symbols", "cge_modeling/tools/sympy_tools.py:info_to_symbols", "cge_modeling/tools/sympy_tools.py:make_symbol", "cge_modeling/tools/sympy_tools.py:remove_string_keys", "cge_modeling/tools/utils.py:union_many"]}
{"id": "C103", "title": "Arrays replaced by plain symbols", "statement": "After replace_indexed_variables with the dictionary of make_dummy_sub_dict no array is left in the equations, and the equations have the same values when each new symbol has the value of its array.", "quantifier": "all equations, variables and parameters, and all values", "why_tests_cant": "the tests replace arrays that are used with their own indices only", "anchors": ["cge_modeling/tools/sympy_tools.py:make_dummy_sub_dict", "cge_modeling/tools/sympy_tools.py:replace_indexed_variables"]}
{"id": "C104", "title": "Equations printed as one LaTeX display", "statement": "latex_print_equations puts the equations in their order into one align environment, each after its name and with its number as tag, and the braces of the text are balanced. It fails exactly when an equation has no name.", "quantifier": "all lists of equations with any names, texts and numbers", "why_tests_cant": "there are no tests of this function, and names with special characters are not tried", "anchors": ["cge_modeling/tools/output_tools.py:latex_print_equations"]}
{"id": "C105", "title": "Numpy results in every mode", "statement": "Whatever mode is chosen, every function a pytensor backend compiles returns numpy arrays, also when jax computes them, and compilation succeeds for every choice of functions.", "quantifier": "all modes, given by name, by object or by the configured default, all requests, and jax installed or not", "why_tests_cant": "the tests compile in one or two modes; what is returned depends on how the mode is given", "anchors": ["cge_modeling/base/build.py:compile_model", "cge_modeling/compile/pytensor.py:compile_pytensor_cge_functions", "cge_modeling/compile/sympytensor.py:compile_sympytensor_cge_functions", "cge_modeling/compile/jax.py:compile_jax_cge_functions", "cge_modeling/base/function_wrappers.py:return_array_from_jax_wrapper"]}
{"id": "C106", "title": "Bar plots against given initial values", "statement": "With initial values given by the caller, plot_bar compares the results of the last step with the given values of the same labels, for the selected labels and groups; given values that are those of the first step lead to the same plot as none.", "quantifier": "all results and given values, selections of labels, groups, metrics and thresholds", "why_tests_cant": "given values take another path than those read from the results, and there are no tests of plots", "anchors": ["cge_modeling/plotting.py:plot_bar", "cge_modeling/plotting.py:_plot_one_bar"]}
{"id": "C107", "title": "Ops made from a model", "statement": "The two Ops made from a model return the residuals and their Jacobian in the variables when applied to the arrays of the variables and then of the parameters, and refuse any other number of arrays or arrays of another shape; renamed clones of tensors keep their type and have names of their own.", "quantifier": "all models of array equations with at least one variable, parameter and residual, and all arrays at which the residuals have values", "why_tests_cant": "the Ops are not called in any test; order and shapes of the inputs matter only for models with several objects", "anchors": ["cge_modeling/compile/pytensor.py:compile_cge_model_to_pytensor_Op", "cge_modeling/compile/pytensor_tools.py:clone_and_rename"]}
{"id": "C108", "title": "Order of model objects", "statement": "Model objects of one class are equal exactly when they agree in all fields, comparison with < is a strict order, objects with different names are ordered by their names and otherwise by the first field that differs, and any list of objects of a model can be sorted.", "quantifier": "all variables and parameters", "why_tests_cant": "tests compare few objects; the generated comparison goes through fields that have no order only when all earlier fields agree", "anchors": ["cge_modeling/base/primitives.py:ModelObject", "cge_modeling/base/cge.py:finalize_calibration"]}
{"id": "C109", "title": "The same text gives the same residuals in every backend", "statement": "An equation text made of whole numbers, names of the model, arithmetic, Sum over positions of an index and .subs of one index by another is read by the sympy backends as what it says: the residuals numba and sympytensor return are the values of left side minus right side, one for every combination of labels of the dims that run, dims in the order of the coords, and they all vanish exactly when every written equation holds. The pytensor backend returns the same vector for the same text.", "quantifier": "all coords with non-numeral labels, all declared variables and parameters, all such texts that have a value, all data, without a numeraire; sympy's undetermined iteration orders arbitrary", "why_tests_cant": "tests compile a handful of models for each backend and never compare the residual vectors of the backends element by element for arbitrary texts", "anchors": ["cge_modeling/base/cge.py:add_sympy_equation", "cge_modeling/base/cge.py:add_pytensor_equation", "cge_modeling/compile/numba.py:compile_numba_cge_functions", "cge_modeling/compile/sympytensor.py:compile_sympytensor_cge_functions", "cge_modeling/compile/pytensor.py:compile_pytensor_cge_functions"]}
{"id": "C110", "title": "A zero of the compiled system is a solution of the written model, and its producers behave as described", "statement": "For a model whose equation texts are written in the notation of C109, the system compiled with numba or sympytensor returns a vector that is zero exactly when every equation text holds at every position of the dims. The texts that cobb_douglass, CES, leontief and dixit_stiglitz generate for the numba backend are equations of this notation. So at any zero of the system, every producer whose block is among the texts satisfies its relations at every position: Cobb-Douglas production (or value) and constant cost shares; the CES function, zero profit, the unit cost dual and the demands, whichever of the two first equations was generated; fixed input coefficients and price equal to unit cost for Leontief, for lists of inputs and for matrices; the aggregate and its demands for Dixit-Stiglitz with TFP given.", "quantifier": "all such models without a numeraire whose texts have a value everywhere and that sympy does not decide when it builds them (sympytensor: every object occurs in an equation); all data; all generated blocks with inputs written as units of the notation, CES without expand_price_dim, matrix and Dixit-Stiglitz blocks for the numba backend; positive quantities and prices as in C55 to C58; sympy's undetermined iteration orders arbitrary", "why_tests_cant": "tests solve one calibrated model per backend and look at the numbers; no test relates a zero of the compiled function to the economic relations, and no finite set of models would", "anchors": ["cge_modeling/production_functions.py:cobb_douglass", "cge_modeling/production_functions.py:CES", "cge_modeling/production_functions.py:leontief", "cge_modeling/production_functions.py:dixit_stiglitz", "cge_modeling/base/cge.py:add_sympy_equation", "cge_modeling/compile/numba.py:compile_numba_cge_functions", "cge_modeling/compile/sympytensor.py:compile_sympytensor_cge_functions"]}
{"id": "C111", "title": "The generated blocks do not depend on the units of prices and quantities", "statement": "If all prices of a producer are multiplied by one positive number and all its quantities by another, with shares, TFP and elasticities unchanged, then the equations that cobb_douglass, CES, leontief and dixit_stiglitz generate hold after the change just when they held before: they are homogeneous of degree zero in prices and have constant returns to scale. For cobb_douglass with the production form and a change of the quantities the shares must sum to one; without it a change of the quantities turns a solution into a non-solution. For leontief over two dims and for dixit_stiglitz the same holds at every position of the dims with numba, and for the residual vector with pytensor. So a compiled model all of whose texts are of this kind vanishes at the one point just when it vanishes at the other.", "quantifier": "all lists and matrices of inputs, all positive scale factors, all names, shares, prices and quantities in the ranges of C55 to C58 (CES without expand_price_dim, dixit_stiglitz with TFP given; leontief with pytensor summed over its first dim), all compiled numba models in the notation of C110", "why_tests_cant": "tests evaluate the blocks at one calibrated point in one set of units; homogeneity is a statement about all points and all scale factors", "anchors": ["cge_modeling/production_functions.py:cobb_douglass", "cge_modeling/production_functions.py:CES", "cge_modeling/production_functions.py:leontief", "cge_modeling/production_functions.py:dixit_stiglitz", "cge_modeling/compile/numba.py:compile_numba_cge_functions"]}
{"id": "C112", "title": "A model with a numeraire cannot be solved in any backend", "statement": "The numeraire argument takes the variable out of the packed variables and leaves it among the unpacked ones. So the flat vector of the variables that simulate makes has fewer entries than the compiled functions have unknowns, by the number of elements of the numeraire, which is positive. With numba, the system, the Jacobian, the loss and the gradient all refuse this vector with an error, at any parameters. With sympytensor, the residual vector and the gradient of a model that passed the squareness check, and the rows and columns of its Jacobian, are longer than the vector by the same number, so that the system is never square for the solver. With pytensor, a system with an equation that reads the numeraire has no value, as the name is not defined.", "quantifier": "all declared models with distinct names and nonempty dims, all choices of the numeraire among the variables, with or without dims, all equations, all data of the other objects in their declared shapes; sympy's undetermined iteration orders and sp.cse arbitrary; for pytensor, all texts of the grammar of C54 that read the numeraire outside of call arguments and of index brackets", "why_tests_cant": "no test solves a model with a numeraire; a test could show one failing model, not that there is no model that works", "anchors": ["cge_modeling/base/cge.py:CGEModel.__init__", "cge_modeling/base/cge.py:variables", "cge_modeling/base/utilities.py:variable_dict_to_flat_array", "cge_modeling/compile/numba.py:compile_numba_cge_functions", "cge_modeling/compile/numba_tools.py:numba_lambdify", "cge_modeling/compile/sympytensor.py:compile_sympytensor_cge_functions", "cge_modeling/compile/pytensor.py:cge_primitives_to_pytensor"]}
{"id": "C113", "title": "What a model object shows of itself", "statement": "After a Variable or Parameter is made and labels are set for its dims any number of times, to_dict shows the name and the dims it was made with, for every dim the label set last (or the one it started with), and the sympy expression with these labels in their places; repr is the latex_name of to_dict and shows the same labels below the name. The object prints the same and has the same expression as one made with these labels at once. A dim the object does not have is refused with ValueError. Indexing an object by name, dims, dim_vals or description gives the entry of to_dict; by base_name, real, positive, assumptions, extend_subscript, sort_index and _full_latex_name it gives what the object was made with, and by any other name it raises AttributeError; by latex_name it gives the same as to_dict; and the description is that of an object made with the labels at once. The variables of a model are the given ones without the numeraire, in the given order, each name once.", "quantifier": "all names, forms of the dims argument, label dicts, LaTeX names, descriptions, flags and subscript extensions for which the object can be made; all sequences of set labels; all models given as lists of variables", "why_tests_cant": "the tests print a few objects with one or two labels each; a label set twice, or a name read after labels were set, depends on sequences of calls", "anchors": ["cge_modeling/base/primitives.py:ModelObject.to_dict", "cge_modeling/base/primitives.py:ModelObject.__repr__", "cge_modeling/base/primitives.py:ModelObject.__getitem__", "cge_modeling/base/primitives.py:ModelObject.update_dim_value", "cge_modeling/base/primitives.py:ModelObject.to_sympy", "cge_modeling/base/cge.py:CGEModel.variables"]}
{"id": "C114", "title": "Helpers that cannot be used", "statement": "make_sympytensor_jacobian and make_sympytensor_jvp never return: unpacked_graph_to_packed_graph takes two arguments and is given four, so when the earlier steps succeed the call ends with TypeError. print_latex ends with TypeError for every nonempty sequence, as the name display is bound to a module, and returns for the empty one. The progress bar has five columns in a fixed order, and a sixth at the end exactly when a statistics text is given.", "quantifier": "all equations, variables, parameters and choices of wrt and sparse, any as_tensor and any graph replacement; all sequences of equations; all statistics texts", "why_tests_cant": "no test calls these functions; the statement is about every call", "anchors": ["cge_modeling/compile/sympytensor.py:make_sympytensor_jacobian", "cge_modeling/compile/sympytensor.py:make_sympytensor_jvp", "cge_modeling/compile/pytensor_tools.py:unpacked_graph_to_packed_graph", "cge_modeling/tools/utils.py:print_latex", "cge_modeling/tools/utils.py:initialize_progress_bar"]}
{"id": "C115", "title": "The Euler approximations converge to the path of equilibria", "statement": "Let a differentiable path of solutions of F(x, theta) = 0 start at the initial values while theta moves on the line to its final value, let A and B hold the derivatives of F along it, and around it let the linear systems have unique solutions and the slope of the method be Lipschitz. Then the errors of all returned rows of the Euler approximation, with or without RK4 and on every backend that supports the choice, are at most a constant over the number of steps. So the last row converges to an equilibrium at the final parameters, and the residuals there converge to zero.", "quantifier": "all models (names as in C37), paths with Lipschitz derivative, numbers of steps above an explicit bound, backends and choices of the RK4 flag the backend supports; real arithmetic", "why_tests_cant": "tests compare a few runs with fixed numbers of steps with a tolerance; convergence is about all numbers of steps and every nonlinear model", "anchors": ["cge_modeling/compile/numba.py:euler_approx", "cge_modeling/compile/euler.py:pytensor_euler_function_with_python_loop", "cge_modeling/compile/euler.py:symbolic_euler_approximation", "cge_modeling/compile/jax.py:jax_euler_step", "cge_modeling/compile/pytensor.py:pytensor_euler_step"]}
{"id": "C116", "title": "The Newton solver finds a solution near its starting point", "statement": "Around the starting point let the linear systems be solved with solutions at most beta times the residuals, and let the Jacobian give the change of the residuals up to K times the squared distance. If the initial residual norm u is small (2 K beta^2 u <= 1 and the region reaches to 2 beta u), the solver raises no error, never has to backtrack before it converges, stays within 2 beta u of the start, reduces the residual norm by the factor 1 - step/2 in every iteration, and with full steps squares K beta^2 times the norm each time. So it reports convergence after a known number of iterations, and there is an exact solution within 2 beta times the residual norm of every point it returns.", "quantifier": "all residual functions with such a region, all starting points, parameters that are absent or nonempty, step sizes in (0, 1], tolerances > 0 and numbers of iterations; real arithmetic", "why_tests_cant": "tests run the solver on one model; the statement is about every starting point close to a solution and proves that an exact solution exists", "anchors": ["cge_modeling/optimize.py:root", "cge_modeling/optimize.py:scan_body", "cge_modeling/optimize.py:_newton_step"]}
{"id": "C117", "title": "Maxima, logarithms and their derivatives in the generated numba code", "statement": "Where no denominator is zero, logarithms have positive arguments and no maximum is taken of equal numbers, the generated code of an expression computes its value, and the code generated for each partial derivative of any order computes the derivative of the code of the previous one, though DiracDelta is printed as 0.0. At a tie of a maximum the code still returns a number, where no derivative exists.", "quantifier": "all expressions made of numbers, symbols, sums, products, reciprocals, maxima of two expressions and logarithms; all points away from kinks; all sequences of symbols to differentiate by", "why_tests_cant": "no test compiles a maximum or a logarithm for numba and compares derivatives; the statement is about all nestings and all orders", "anchors": ["cge_modeling/compile/numba_tools.py:NumbaFriendlyNumPyPrinter._print_log", "cge_modeling/compile/numba_tools.py:NumbaFriendlyNumPyPrinter._print_DiracDelta", "cge_modeling/compile/numba_tools.py:NumbaFriendlyNumPyPrinter._print_Max", "cge_modeling/compile/sympy.py:make_sympy_jacobian"]}
{"id": "C118", "title": "The Euler approximation compiled by numba reaches the solution", "statement": "Let the equations be written in the variables and parameters, as many as there are variables, and let a differentiable path of their solutions start at the initial values while the parameters move on the line to their final values. If at the points of the path the equations are smooth (no division by zero, no logarithm or non-integer power of a non-positive number) and their derivatives in the variables form a regular matrix, then there are a constant C and a number N such that the function compiled by compile_numba_euler_func returns without error for all numbers of steps n >= N, row k has the parameters of step k and variables within C / n of the path, and the residuals of the written equations at the last row are at most C / n. So the answer can be computed to any precision, as the docstring says. For all equations, smooth or not, whenever the function returns with parameters of equal numbers it has n + 1 rows, starts with the initial values and has in row k the parameters of step k.", "quantifier": "all lists of equations over the operations of the model, names as in C41, paths, starting and final parameters, orders of sympy and common-subexpression eliminations; real arithmetic", "why_tests_cant": "tests run a few models with fixed numbers of steps and a tolerance; that the precision can be made as small as one likes is about all numbers of steps, and the constants depend on the model", "anchors": ["cge_modeling/compile/numba.py:compile_numba_euler_func", "cge_modeling/compile/numba.py:euler_approx", "cge_modeling/compile/sympy.py:make_sympy_jacobian", "cge_modeling/compile/numba_tools.py:numba_lambdify"]}
{"id": "C119", "title": "Near a regular solution the Newton solver converges to it", "statement": "Let the residual function and the Jacobian compute written equations, as many as there are variables, and their derivatives. Around every solution at which the equations are smooth and the derivatives in the variables form a regular matrix there is a neighbourhood from which the solver never raises. The distance to the solution shrinks by the factor 1 - step/2 per iteration up to a constant, and with full steps it is at most a constant times (1/2)^(2^k). Convergence is reported after a number of iterations that depends only on step and tol, and the point returned is then within a constant times tol of this solution, not of another one. At a solution whose derivatives form a singular matrix the solver may raise even if it is started there.", "quantifier": "all lists of equations over the operations of the model, all regular solutions, all starting points in the neighbourhood, all step sizes in (0, 1], tolerances > 0 and numbers of iterations; parameters absent or nonempty; real arithmetic", "why_tests_cant": "tests start the solver at a few points; that a whole neighbourhood works for every written model, and which solution is found, is a statement about uncountably many runs", "anchors": ["cge_modeling/optimize.py:root", "cge_modeling/optimize.py:scan_body", "cge_modeling/optimize.py:_newton_step"]}
{"id": "C120", "title": "Small shocks to a regular model have a solution, and both solvers find it", "statement": "Let equations be written, as many as there are variables, and let the model be calibrated: the initial values solve them, they are smooth there and their derivatives in the variables form a regular matrix. Then there are a neighbourhood of the initial values and a bound on the size of shocks such that after every smaller change of the parameters there is exactly one solution in the neighbourhood, at a distance of at most a constant times the shock. The Newton solver started anywhere in the neighbourhood never raises, reports convergence after a number of iterations that depends on step and tol, and returns a point within a constant times tol of this solution. The Euler approximation compiled by numba, started at the initial values, returns without error for all large numbers of steps n, and the variables in its last row are within C / n of this solution. So nothing is assumed about the shocked model: existence of a path of equilibria, which C115 and C118 ask for, follows. Without a bound on the shock there may be no solution, and the Euler approximation can return values without error all the same.", "quantifier": "all lists of equations over the operations of the model, all regular solutions, all small enough changes of parameters, starting points in the neighbourhood, step sizes in (0, 1], tolerances > 0, numbers of iterations and steps; names as in C41 for the Euler part; real arithmetic", "why_tests_cant": "tests shock a few models by a few amounts and see that something is found; that every small enough shock has one nearby solution which both methods reach is about uncountably many shocks and all models", "anchors": ["cge_modeling/optimize.py:root", "cge_modeling/compile/numba.py:compile_numba_euler_func", "cge_modeling/compile/numba.py:euler_approx", "cge_modeling/base/cge.py:simulate"]}
{"id": "C121", "title": "The Euler functions of every backend reach the solution of the written equations", "statement": "Let equations be written, as many as there are scalar variables, and let the Jacobians used by an Euler function return the derivatives of these equations in the variables and in the parameters wherever the equations are smooth. Let the initial values solve the equations, with smooth equations and a regular matrix of derivatives. If a differentiable path of regular solutions leads to the final parameters, or if the shock is smaller than a bound that depends on the model only, then there are a constant C and a number N such that the Euler function returns without error for all n >= N steps, its last row has the final parameters, and its variables are within C / n of the solution at the final parameters, which for small shocks is the only one near the initial values. This holds for the numba, jax, pytensor and scan versions and with Euler or RK4 steps where they are supported.", "quantifier": "all lists of equations over the operations of the model, all shapes of objects, all Jacobian functions that are right at smooth points, all regular initial solutions, all small enough shocks or paths, all backends; real arithmetic", "why_tests_cant": "tests compare a few models with a fixed number of steps and a tolerance; the claim is about every number of steps, every shock below the bound and every backend", "anchors": ["cge_modeling/compile/euler.py:symbolic_euler_approximation", "cge_modeling/compile/numba.py:euler_approx", "cge_modeling/compile/jax.py:jax_euler_step", "cge_modeling/compile/pytensor.py:pytensor_euler_step"]}
{"id": "C122", "title": "A model that leaves the price level open has a singular Jacobian at every solution", "statement": "Let some of the variables be prices such that, at given parameters, scaling all the prices of a solution by a positive number gives a solution again. Then at every solution with a non-zero price where the equations are smooth the matrix of derivatives of the equations in the variables is singular: no such solution is regular, so the theorems C118 to C121 about the solvers never apply to the model as written. The compiled numba Jacobian returns a singular matrix there, and the Newton solver started at such a solution, with a linear solver that raises on singular matrices, raises instead of returning the solution.", "quantifier": "all lists of equations over the operations of the model, all sets of prices, all solutions with smooth equations, all parameters, all step sizes, tolerances and numbers of iterations of at least one; real arithmetic", "why_tests_cant": "tests use models in which one price is fixed; the claim is about every model without such a price", "anchors": ["cge_modeling/compile/numba.py:compile_numba_jacobian_function", "cge_modeling/optimize.py:root"]}
{"id": "C123", "title": "A model in which the equations obey Walras' law has a singular Jacobian at every solution", "statement": "Let there be weights, continuous in the variables, such that at given parameters the weighted sum of the residuals of the equations is zero whatever the values of the variables. Then at every solution with a non-zero weight where the equations are smooth the matrix of derivatives in the variables is singular, so the solution is not regular and the theorems C118 to C121 do not apply to the model as written. The compiled numba Jacobian returns a singular matrix there, and the Newton solver started at such a solution, with a linear solver that raises on singular matrices, raises. Nothing is lost when an equation is left out: values of the variables that solve the other equations and give it a non-zero weight solve it as well.", "quantifier": "all square lists of equations over the operations of the model, all continuous weights, all solutions with smooth equations, all parameters, all step sizes, tolerances and numbers of iterations of at least one; real arithmetic", "why_tests_cant": "tests use models from which the redundant equation was removed or to which a residual was added by hand; the claim is about every model that keeps it", "anchors": ["cge_modeling/compile/numba.py:compile_numba_jacobian_function", "cge_modeling/optimize.py:root", "cge_modeling/optimize.py:_newton_step"]}
{"id": "C124", "title": "A zero gradient of the loss at a regular point is a solution", "statement": "Let the equations be as many as the scalar variables. Wherever the equations are smooth and their matrix of derivatives J is regular, a zero gradient of half the sum of their squares, the loss that the minimizers get, implies that every equation holds: minimize can only stop away from a solution where J is singular or the equations are not smooth. More precisely the sum of the absolute residuals is at most C times the sum of the absolute entries of the gradient, with a constant C that depends on J only, so a small gradient means small residuals. This holds for the error and gradient functions compiled by numba. Where J is singular it fails: there are models with a solution and a point with zero gradient that is none.", "quantifier": "all square lists of equations over the operations of the model, all points with smooth equations and regular derivatives, all parameters; real arithmetic", "why_tests_cant": "tests minimise a few models from good starting values; the claim is about every point at which a minimizer may stop", "anchors": ["cge_modeling/compile/numba.py:compile_numba_error_function", "cge_modeling/compile/numba.py:compile_numba_gradient_function", "cge_modeling/base/cge.py:CGEModel._solve_with_minimize"]}
{"id": "C125", "title": "The backtracking of the Newton solver ends at every regular point", "statement": "Let the residual function and the Jacobian compute written equations, as many as there are variables, and their derivatives. At any values of the variables where the equations are smooth, their derivatives form a regular matrix and the residual norm is positive and not below tol, whatever the initial step size, the solver does not stay there for ever: after a finite number of iterations in which it keeps the point, is not converged and halves the step, it moves to a point with a strictly smaller residual norm and restores the initial step size. So it can be trapped only at singular or non-smooth points or where it stops with convergence.", "quantifier": "all square lists of equations over the operations of the model, all shapes of arrays, all points with smooth equations and regular derivatives, all positive step sizes, all tolerances up to the residual norm; residual functions that return at all points; real arithmetic", "why_tests_cant": "tests start near a solution where full steps are accepted", "anchors": ["cge_modeling/optimize.py:scan_body", "cge_modeling/optimize.py:_newton_step", "cge_modeling/optimize.py:check_stepsize", "cge_modeling/optimize.py:backtrack_if_not_decreasing", "cge_modeling/optimize.py:root"]}
{"id": "C126", "title": "The Newton solver never enters the region where residuals are NaN and does not leave it", "statement": "Where a logarithm or a power is not defined the residuals are NaN, and comparisons with NaN are false. If the residuals at the initial values are numbers, they are numbers at all points the solver returns, and their norm never grows. If equations are smooth with a regular matrix of derivatives at a point which is not a solution, the solver leaves it after finitely many halvings of the step, though trial points at which the residuals are NaN are rejected on the way. If a residual at the initial values is NaN, the solver, if it does not raise, stays at the initial values in all iterations, halves the step each time and never reports convergence. For functions that never return NaN the model with NaN is the one without.", "quantifier": "all residual functions, Jacobians and linear solvers with values NaN, all shapes, parameters, step sizes, tolerances and numbers of iterations; progress for all square lists of equations over the operations of the model; real arithmetic with NaN", "why_tests_cant": "tests start near a solution inside the domain of the equations", "anchors": ["cge_modeling/optimize.py:scan_body", "cge_modeling/optimize.py:_newton_step", "cge_modeling/optimize.py:check_stepsize", "cge_modeling/optimize.py:_check_convergence", "cge_modeling/optimize.py:backtrack_if_not_decreasing", "cge_modeling/optimize.py:root"]}
{"id": "C127", "title": "The Newton solver does not depend on the units of the variables and equations", "statement": "Measure every variable in another unit, so that entry k of all their values is multiplied by d_k, not zero, multiply all the equations by a constant c, not zero, and change the residual function, the Jacobian, the parameters, the initial values and tol (by the absolute value of c) accordingly. If the Jacobians at the points of a run are regular, the solver run in the new units returns the same history in the new units: in every iteration the same point, flag of convergence, step size and number of steps, even with another solver of linear systems.", "quantifier": "all residual functions and Jacobians related in this way, all shapes, parameters, units, constants, step sizes, tolerances and numbers of iterations, and all solvers that solve regular systems; real arithmetic", "why_tests_cant": "tests run each model in one choice of units", "anchors": ["cge_modeling/optimize.py:scan_body", "cge_modeling/optimize.py:_newton_step", "cge_modeling/optimize.py:compute_norms", "cge_modeling/optimize.py:check_stepsize", "cge_modeling/optimize.py:root"]}
{"id": "C128", "title": "The Euler approximation does not depend on the units of variables, parameters and equations", "statement": "Measure every variable and parameter in another unit, so that entry k of their values is multiplied by d_k (not zero for the variables), multiply all the equations by a constant c, not zero, and change the Jacobian, the derivatives in the parameters and the initial and final values accordingly. If the Jacobians at the rows of an approximation are regular, the approximation computed in the new units consists of the same rows in the new units, even with another solver of linear systems. If the Jacobians are regular everywhere, a Runge-Kutta step in the new units is also the old step in the new units.", "quantifier": "all Jacobians and derivatives related in this way, all numbers of variables, parameters and steps, all units, constants and end points, and all solvers that solve regular systems; real arithmetic", "why_tests_cant": "tests run each model in one choice of units", "anchors": ["cge_modeling/compile/numba.py:euler_approx", "cge_modeling/compile/euler.py:pytensor_euler_function_with_python_loop", "cge_modeling/compile/jax.py:jax_euler_step"]}
