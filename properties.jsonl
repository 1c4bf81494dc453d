{"id": "C01", "title": "Saved outputs survive the write/read round trip", "statement": "If a sequence of records is written through OutputSaver.write inside one saver context, then an OutputReader on the produced pair of files gives back every record with every array value restored with the same shape, dtype name and bytes (arrays with one element that convert to float come back as that float) and every other value unchanged, as long as no plain string value starts with the reserved text \"**array**\" and every array has a dtype whose name is an attribute of numpy (other dtypes, such as non native byte order, raise when they are read).", "quantifier": "every finite sequence of write calls, every record, every array shape (any number of dimensions and sizes), every dtype name known to numpy, any array counter value", "why_tests_cant": "the code string is parsed back by locating \"#\" characters and decimal digits, so correctness depends on the number of digits, dimensions and on all earlier writes; tests try four shapes and six dtypes", "anchors": ["slippy/contact/outputs.py:OutputSaver.write", "slippy/contact/outputs.py:_ArrayReader.__init__", "slippy/contact/outputs.py:_array_gen", "slippy/contact/outputs.py:OutputReader.__getitem__"]}
{"id": "C02", "title": "Archive entries of different arrays never collide", "statement": "Over any history of writes (including several records with several arrays, and leaving and re-entering the same saver), two different arrays are stored under different archive entry names, so no array overwrites or shadows another.", "quantifier": "every history of enter / write / exit operations on one saver", "why_tests_cant": "collisions would only show up for particular histories and counter values", "anchors": ["slippy/contact/outputs.py:OutputSaver.write", "slippy/contact/outputs.py:OutputSaver.__enter__"]}
{"id": "C03", "title": "Writing is only possible inside the saver context", "statement": "OutputSaver.write raises ValueError and changes neither file exactly when the saver is not inside its with block, whatever sequence of enter, exit and write calls came before.", "quantifier": "every sequence of enter, exit and write calls", "why_tests_cant": "the flag is state carried through the whole history of calls", "anchors": ["slippy/contact/outputs.py:OutputSaver.write", "slippy/contact/outputs.py:OutputSaver.__enter__", "slippy/contact/outputs.py:OutputSaver.__exit__"]}
{"id": "C04", "title": "Reader indexing by time then field equals indexing by field then time", "statement": "For a reader whose recorded time points are pairwise distinct and non negative, output[t][f] and output[f][t] are the same value for every recorded time t and field f in the record (and output[f][t] is None when the record lacks the field), iteration yields exactly the records in write order, and an unknown index raises IndexError. With duplicate time points the equality does not hold: output[t] is the first record with that time and output[f][t] is the last.", "quantifier": "every database content, every time and every field name", "why_tests_cant": "depends on the whole list of records, the test has four records with distinct times", "anchors": ["slippy/contact/outputs.py:OutputReader.__getitem__", "slippy/contact/outputs.py:OutputReader.__init__", "slippy/contact/outputs.py:OutputReader.__iter__"]}
{"id": "C05", "title": "Interval output requests are written exactly every n time points", "statement": "For an OutputRequest in interval mode with integer value n, over every interleaving of new_step and is_active calls the k-th is_active call (counting from 0 over the whole model run) returns True exactly when k is a multiple of max(n,1); new_step never changes the phase.", "quantifier": "every integer n, every sequence of new_step / is_active calls with any times", "why_tests_cant": "the phase is carried across every previous call and across step boundaries", "anchors": ["slippy/contact/outputs.py:OutputRequest.is_active", "slippy/contact/outputs.py:OutputRequest.new_step"]}
{"id": "C06", "title": "Time interval output requests keep the promised number of outputs", "statement": "In time_interval mode with interval d>0, inside one step starting at time s, the m-th active call of the step (from 0) happens at the first call whose time is at least s+m*d after the previous active call: output is never early, and if the first call is less than d after the start and consecutive call times differ by at most d the number of outputs written up to time t is exactly floor((t-s)/d)+1. The documented schedule (first output one interval after the start of the step) does not hold: the first call of a step is always active.", "quantifier": "every d>0, every step start time, every non decreasing list of call times not before the start", "why_tests_cant": "the next time point is accumulated through all previous calls of the step", "anchors": ["slippy/contact/outputs.py:OutputRequest.is_active", "slippy/contact/outputs.py:OutputRequest.new_step"]}
{"id": "C07", "title": "Per step output requests serve every requested time in order, once, never early", "statement": "In n_outputs_per_step and step_times mode, each step serves the list of target times (n points evenly spaced from the start to the end of the step, or start time plus each listed time) like a queue: a call at time t is active exactly when the first unserved target is not after t, and each active call serves exactly one target. Consequently the m-th output of a step is never before the m-th target, at most the number of targets is written per step, and when no two targets fall in the same gap between calls every target is served by the first call at or after it. What happened in previous steps has no influence.", "quantifier": "every list of targets, every step length, every list of call times, any previous history of the request", "why_tests_cant": "quantifies over schedules and earlier steps", "anchors": ["slippy/contact/outputs.py:OutputRequest.is_active", "slippy/contact/outputs.py:OutputRequest.new_step"]}
{"id": "C08", "title": "Global time output requests: which requested times are served", "statement": "In global_times mode the request is a queue over the whole run, but the first is_active call after construction and after every new_step discards the target that is waiting at that moment without serving it; all other targets are served in order, never early, at most once. So the documented claim that output is written at each listed time is false (a request with a single global time never fires), and it holds for no list whose first entry matters.", "quantifier": "every list of global times, every sequence of steps and calls", "why_tests_cant": "the loss depends on step boundaries, a test with many time points can still pass", "anchors": ["slippy/contact/outputs.py:OutputRequest.is_active", "slippy/contact/outputs.py:OutputRequest.__init__"]}
{"id": "C09", "title": "Every time point writes exactly one record, with the time and the requested fields", "statement": "Each save_outputs call on a step with at least one output request writes exactly one record; the record has the current time and, for every active request, every requested field that is in the (component expanded) model state with its state value, and no field that no active request asked for; with no output requests nothing is written; every request is asked exactly once per call.", "quantifier": "every model state, every list of requests with any activity pattern", "why_tests_cant": "quantifies over all states, all combinations of requests", "anchors": ["slippy/contact/steps.py:_ModelStep.save_outputs"]}
{"id": "C10", "title": "Requested fields that are not in the state are never reported as data", "statement": "A requested field which is not in the model state should be reported missing and not written. The code writes the constant string \"surface_2_points\" as its value instead (the failed exec leaves the loop variable behind); the intended property is refuted and the exact value written is characterised for every state and request.", "quantifier": "every state and every requested field not in it", "why_tests_cant": "the wrong value looks like a normal record entry, tests do not request missing fields", "anchors": ["slippy/contact/steps.py:_ModelStep.save_outputs"]}
{"id": "C11", "title": "Steps are solved in the order the user put them in", "statement": "After any sequence of add_step calls with distinct names the steps are solved in the order given by list insertion at the requested positions, with the initial step first as long as no step was inserted at position 0; each step is solved exactly once and receives the state returned by the previous one.", "quantifier": "every sequence of add_step calls with any positions (including negative and out of range)", "why_tests_cant": "quantifies over all edit histories of the step list", "anchors": ["slippy/contact/models.py:ContactModel.add_step", "slippy/contact/models.py:ContactModel.solve"]}
{"id": "C12", "title": "A step object belongs to at most one model", "statement": "Adding a step that already belongs to a model always raises and leaves the model unchanged, for every history of add_step calls; adding a step with a name already used does not lose other steps, but with an explicit position it may drop the new step or replace the old one.", "quantifier": "every history of add_step calls over any number of models", "why_tests_cant": "needs all histories", "anchors": ["slippy/contact/steps.py:_ModelStep.model", "slippy/contact/models.py:ContactModel.add_step"]}
{"id": "C13", "title": "Output requests reach exactly the steps named", "statement": "add_output with a list of step names appends the request to exactly these steps once per listing; \"all\" means every step except the initial one, in step order; an unknown name raises.", "quantifier": "every model and list of names", "why_tests_cant": "quantifies over all step collections", "anchors": ["slippy/contact/models.py:ContactModel.add_output"]}
{"id": "C14", "title": "The model time is the sum of the step times and files are closed on every exit path", "statement": "Solving a model gives, after the k-th step, the time equal to the sum of the times of the first k steps; each output of a step is told the time at the start of that step; the output files are closed whether the steps finish or one of them raises.", "quantifier": "every list of steps, every failing step", "why_tests_cant": "needs every crash point", "anchors": ["slippy/contact/models.py:ContactModel.solve", "slippy/contact/steps.py:InitialStep"]}
{"id": "C15", "title": "Every accepted pair of elastic constants gives the same material", "statement": "For any isotropic material (E>0, -1<v<1/2) and any pair of distinct constants out of E, K, G, v, Lam, M computed from it, the property conversion returns all six constants of that material, except for the pair Lam and v, which raises, and the pair E and M, which returns another material when v<0.", "quantifier": "all real E>0, all v in (-1,1/2), all 15 pairs in any order", "why_tests_cant": "real valued inputs and square root branches: no finite sample covers them", "anchors": ["slippy/contact/_material_utils.py:_get_properties"]}
{"id": "C16", "title": "Property conversion rejects everything but two known names", "statement": "The conversion raises ValueError exactly when the number of supplied properties is not two or an unknown name is given.", "quantifier": "every dictionary of named values", "why_tests_cant": "all dictionaries", "anchors": ["slippy/contact/_material_utils.py:_get_properties"]}
{"id": "C17", "title": "Materials do not influence each other", "statement": "In a program that always describes elastic materials by the same two properties (not Lam and v), every material, made and modified in any order, has exactly the constants that follow from the two values last given to it, whatever is done to the others. Refuted for programs that mix properties, as the last set property list and the property store are class attributes: making a material can raise or another material's assignment can change which constant is held. Deleting one property drops all of them.", "quantifier": "every interleaving of construct and set operations on any number of materials, all values", "why_tests_cant": "a history property over several objects", "anchors": ["slippy/contact/materials.py:Elastic.__init__", "slippy/contact/materials.py:Elastic._set_props", "slippy/contact/materials.py:Elastic._del_props"]}
{"id": "C18", "title": "Component memoisation is transparent", "statement": "Over any sequence of calls a memoised influence matrix function returns for each requested component exactly what the wrapped function would return for these arguments, computing only missing components; refuted for the non static variant, where two instances share one cache and the wrapped function is not given the instance.", "quantifier": "every sequence of calls with any arguments and component lists", "why_tests_cant": "a history property: the answer may come from any earlier call", "anchors": ["slippy/contact/_material_utils.py:memoize_components"]}
{"id": "C19", "title": "The height/load cache stays a function graph", "statement": "Over any sequence of evaluations the list of cached heights stays strictly sorted, the load list stays aligned with it, previously cached pairs are never changed, and a failed evaluation is never cached. While contact nodes are left free the cache cannot be noticed: every evaluation returns the load at its height minus the load in force; refuted once contact nodes are set, as changing them keeps the cached loads.", "quantifier": "every sequence of evaluations, load changes and cache clears, every outcome of the contact solver", "why_tests_cant": "history property of the cached optimisation function", "anchors": ["slippy/contact/_step_utils.py:HeightOptimisationFunction.add_to_cache", "slippy/contact/_step_utils.py:HeightOptimisationFunction.clear_cache", "slippy/contact/_step_utils.py:HeightOptimisationFunction.__call__"]}
{"id": "C20", "title": "Bounds taken from the cache bracket the requested load", "statement": "When the cached loads do not decrease with the height and the requested load lies between two of them, the bounds taken from the cache are two neighbouring cached heights, and the cached function is negative at the lower and not negative at the upper one; above all cached loads they are the largest cached height and the given upper end. Refuted: that they lie within the interval given (the upper end is not respected) and that any load may be asked for (a load that is not positive divides by zero).", "quantifier": "every cache content, interval and load", "why_tests_cant": "depends on the whole history that filled the cache", "anchors": ["slippy/contact/_step_utils.py:HeightOptimisationFunction.get_bounds_from_cache"]}
{"id": "C21", "title": "Results are available after the optimiser returns", "statement": "Reading the results of the height optimisation after evaluating it at some height returns the solution of the contact problem at the last evaluated height. Refuted: a height answered from the cache (for example exactly 0.0) leaves the stored solution of an earlier height or none at all; after a height at which nothing touches reading the results raises, or gives the pressure of a single node with the displacements of an unloaded surface; with materials that have no influence matrix every evaluation raises. It holds when the last evaluated height was not cached and something touches. Results that were read can be read again.", "quantifier": "every sequence of evaluations", "why_tests_cant": "the stale result depends on the order of evaluations the root finder makes", "anchors": ["slippy/contact/_step_utils.py:HeightOptimisationFunction.__call__", "slippy/contact/_step_utils.py:HeightOptimisationFunction.results", "slippy/contact/_step_utils.py:HeightOptimisationFunction.change_load"]}
{"id": "C22", "title": "Wear is conserved: profile plus recorded wear is the unworn profile", "statement": "After any sequence of wear calls on a surface, at every grid point the current profile plus the sum of all recorded wear volumes of that point equals the profile before the first wear call, and points not touched by any call are unchanged.", "quantifier": "every sequence of wear calls with any positions and depths inside the surface", "why_tests_cant": "history property, every grid size", "anchors": ["slippy/surface/Surface_class.py:_Surface.wear"]}
{"id": "C23", "title": "Wear is applied at the grid point it was asked for", "statement": "A wear call at the exact coordinates of grid point (i,j) lowers exactly this point. Holds when the grid spacing is below 2 and the indices are below 65536; refuted for larger grid spacing (half a grid spacing is added to a dimensionless index) and for index wrap around.", "quantifier": "every grid spacing, every index pair", "why_tests_cant": "unit dependent: tests use one spacing", "anchors": ["slippy/surface/Surface_class.py:_Surface.wear"]}
{"id": "C24", "title": "All depth given to one wear call is removed", "statement": "The volume removed by one wear call equals the sum of the depths given. Holds when no two positions fall on the same grid point; refuted otherwise (buffered fancy indexing keeps only the last one).", "quantifier": "every list of positions and depths", "why_tests_cant": "depends on coincidences of positions", "anchors": ["slippy/surface/Surface_class.py:_Surface.wear"]}
{"id": "C25", "title": "Extent, shape and grid spacing of a surface stay consistent", "statement": "After any sequence of assignments to and deletions of extent, shape, grid_spacing and profile, of which none raised ZeroDivisionError, any two of extent, shape and grid spacing determine the third, the extent is the shape times the grid spacing (exactly without a profile; with one, in the second direction up to the aspect ratio tolerance 1e-4), and the profile has the reported shape. Refuted after a ZeroDivisionError (extent smaller than the spacing) and refuted that a spacing set by the user is kept when an extent is set.", "quantifier": "every sequence of setter and deleter calls", "why_tests_cant": "history property over eight operations", "anchors": ["slippy/surface/Surface_class.py:_Surface.extent", "slippy/surface/Surface_class.py:_Surface.shape", "slippy/surface/Surface_class.py:_Surface.grid_spacing", "slippy/surface/Surface_class.py:_Surface.profile"]}
{"id": "C26", "title": "Masking by a list of values", "statement": "Setting the mask to a value marks exactly the points with this value; setting it to a list of values should mark exactly the points having one of the values, which is refuted (nothing is ever marked).", "quantifier": "every profile and list of values", "why_tests_cant": "all profiles", "anchors": ["slippy/surface/Surface_class.py:_Surface.mask"]}
{"id": "C27", "title": "Adding and subtracting numbers and surfaces", "statement": "Surface + number and surface - number shift every height by plus and minus the number (the subtraction part is refuted: it adds); the sum and difference of two surfaces with equal spacing is the pointwise one on the common region; operands keep their profile.", "quantifier": "every profile, every number", "why_tests_cant": "all profiles", "anchors": ["slippy/surface/Surface_class.py:_Surface.__add__", "slippy/surface/Surface_class.py:_Surface.__sub__"]}
{"id": "C28", "title": "Rotations and shifts of analytical surfaces compose", "statement": "The height of an analytical surface after any sequence of rotate and shift calls is the base height function evaluated at the point moved by the summed shift and then rotated by the summed angle; combinations of surfaces add or subtract heights pointwise; shifting to the centre places the natural origin at half the extent.", "quantifier": "every sequence of rotate and shift calls, every point", "why_tests_cant": "history property over reals", "anchors": ["slippy/surface/Surface_class.py:_AnalyticalSurface.height", "slippy/surface/Surface_class.py:_AnalyticalSurface.rotate", "slippy/surface/Surface_class.py:_AnalyticalSurface.shift", "slippy/surface/Geometric.py:RoundSurface._height"]}
{"id": "C29", "title": "Nearest point interpolation picks the nearest point", "statement": "Interpolating in nearest mode returns the height of a grid point at distance at most half a spacing. Refuted: the index is truncated; the returned point is the one below, within one spacing.", "quantifier": "every position inside the surface", "why_tests_cant": "real valued positions", "anchors": ["slippy/surface/Surface_class.py:_Surface.interpolate"]}
{"id": "C30", "title": "The smallest gap is minus the interference", "statement": "The gap returned for an interference h has minimum exactly -h over its points, and changes in interference shift the whole gap by the opposite amount.", "quantifier": "every pair of surfaces, every off set, every interference", "why_tests_cant": "all surfaces", "anchors": ["slippy/contact/_model_utils.py:get_gap_from_model"]}
{"id": "C31", "title": "An off set moves the second surface the same way in every mode", "statement": "The second surface is sampled at the first surface points plus the off set in the non periodic discrete case and at the points minus the off set in the periodic and analytic cases, so the sign convention agrees only for zero off set; periodic off sets by a whole surface extent change nothing.", "quantifier": "every off set", "why_tests_cant": "real valued off sets and three code paths", "anchors": ["slippy/contact/_model_utils.py:get_gap_from_model"]}
{"id": "C32", "title": "Both sampled surfaces have the same number of points", "statement": "For a non periodic off set the first surface slice and the second surface sample should have the same shape, for every off set. True for off sets that are multiples of the grid spacing and for every off set that keeps the first surface within the second; surfaces moved past each other are refused. Refuted for fractional ones, and a fractional part in the negative direction does not change the gap.", "quantifier": "every off set and extent", "why_tests_cant": "only particular fractional off sets fail", "anchors": ["slippy/contact/_model_utils.py:get_gap_from_model"]}
{"id": "C33", "title": "Non dimensional heights round trip", "statement": "Converting a height to non dimensional form and back gives the height, for every non zero scale, and the conversion is strictly monotone.", "quantifier": "all real heights and all non zero parameters", "why_tests_cant": "real valued", "anchors": ["slippy/contact/_model_utils.py:non_dimentional_height"]}
{"id": "C34", "title": "Displacements are the linear superposition of point load responses at the right place", "statement": "For a non periodic contact the convolution returns at each point the sum over all loaded points of load times the influence coefficient of their index difference, zero outside of the span of the influence matrix, with no wrap around, for every grid shape (odd and even) and every span; restricting to a domain equals zero filling outside the domain and selecting inside.", "quantifier": "every grid shape, every influence matrix shape, every load, every domain", "why_tests_cant": "alignment errors depend on parity and relative sizes", "anchors": ["slippy/contact/influence_matrix_utils.py:plan_convolve", "slippy/contact/influence_matrix_utils.py:_plan_fftw_convolve", "slippy/contact/influence_matrix_utils.py:elastic_influence_matrix"]}
{"id": "C35", "title": "Periodic convolution wraps exactly once around", "statement": "With both axes periodic the displacement at a point is the sum over all points of load times the influence coefficient of the index difference taken modulo the grid; shifting the load cyclically shifts the displacement.", "quantifier": "every grid shape, every load and every shift", "why_tests_cant": "all shapes", "anchors": ["slippy/contact/influence_matrix_utils.py:plan_convolve", "slippy/contact/influence_matrix_utils.py:_plan_fftw_convolve"]}
{"id": "C36", "title": "Influence coefficients are symmetric and additive over the two bodies", "statement": "The normal influence coefficient depends only on the absolute index differences, the largest index difference list contains zero exactly once at the centre used by the convolution, and the combined matrix for two bodies is the sum of the two single body matrices for zz, xz, yz and xy components (refuted for xx and yy when Poisson ratios differ).", "quantifier": "all real material constants, all indices", "why_tests_cant": "real valued", "anchors": ["slippy/contact/influence_matrix_utils.py:elastic_influence_matrix"]}
{"id": "C37", "title": "The bound constrained solver stops, stays in the bounds and is right when it converges", "statement": "For every operator, right hand side, tolerance and start (also with infinities and not a number) the bound constrained conjugate gradient solver stops after at most max_it+1 passes. Without inner iterations every load it returns is between minus 1e-14 and the maximum pressure (relative 1e-14), or not a number. A result without failure of a matrix operator consists of numbers within the bounds, the last update was below the tolerance, nodes held at zero have no overlap and nodes held at the maximum no gap. If in addition the two passes before the last one changed no bound and the matrix is positive definite, the residual at the other nodes is below a constant of the matrix times the tolerance times the loads. Without this it is false that a converged result is near a solution: after a load is set to zero the next direction is still conjugate to the old one, and with the default tolerance the solver can report convergence with loads far from the solution. It is false that a result is always found when one exists: a start at the exact solution, a single contact node and inner iterations with a node out of contact always end in not a number and failure, and with inner iterations failed results may be out of bounds.", "quantifier": "every linear or non linear operator, every start vector, every iteration limit", "why_tests_cant": "quantifies over operators", "anchors": ["slippy/contact/influence_matrix_utils.py:_fftw_bccg", "slippy/contact/influence_matrix_utils.py:bccg"]}
{"id": "C38", "title": "Displacement driven load solution stops and solves", "statement": "The conjugate gradient solution for given displacements stops after at most max_it+1 iterations for every operator, points without a given displacement keep the load of the start, a result without warning that consists of numbers has displacements within the tolerance at the prescribed points, and for a symmetric positive definite operator a result without warning is always found when max_it is at least the number of prescribed points. The displacement of a rigid body is zero. It is false that non zero displacements of a rigid body are refused: the loads are infinite or not a number, without a warning.", "quantifier": "every operator and right hand side", "why_tests_cant": "all operators", "anchors": ["slippy/contact/influence_matrix_utils.py:_solve_im_displacement", "slippy/contact/materials.py:Rigid"]}
{"id": "C39", "title": "The tridiagonal solvers solve their systems", "statement": "tdma solves every regular tridiagonal system of every size. cyclic_tdma solves every cyclic system of size two or more that is regular together with the matrix modified by the Sherman Morrison formula, in particular every strictly diagonally dominant one, where the answer is the only solution. False without these conditions: for a regular cyclic matrix with singular modified matrix a wrong answer is returned without an error, and for integer arrays the answer is wrong.", "quantifier": "every size, every real coefficients", "why_tests_cant": "all sizes and reals, tested with n=4 only", "anchors": ["slippy/contact/_lubrication_utils.py:cyclic_tdma", "slippy/contact/_lubrication_utils.py:tdma"]}
{"id": "C40", "title": "Solvers do not modify their arguments", "statement": "Calling the cyclic solver twice with the same arrays gives the same answer twice. Refuted: the first diagonal entry of the caller array is changed by every call (the last one whenever both corners are not zero), and the second answer is another one unless the first unknown is zero. The displacement driven solver changes the start loads of the caller.", "quantifier": "every argument", "why_tests_cant": "aliasing is invisible to single call tests", "anchors": ["slippy/contact/_lubrication_utils.py:cyclic_tdma", "slippy/contact/influence_matrix_utils.py:_solve_im_displacement"]}
{"id": "C41", "title": "Derived Reynolds constants always follow the current parameters", "statement": "After any sequence of reads and assignments of the solver parameters, reading the derived constants gives the value of their formula for the current parameters (never a stale cached one).", "quantifier": "every sequence of assignments and reads", "why_tests_cant": "cache invalidation is a history property", "anchors": ["slippy/contact/unified_reynolds_solver.py:UnifiedReynoldsSolver"]}
{"id": "C42", "title": "Dimensionalising is the inverse of non dimensionalising", "statement": "For pressure, gap, length, viscosity and density converting to dimensional and back (and conversely) is the identity whenever the scales are non zero.", "quantifier": "all reals", "why_tests_cant": "real valued", "anchors": ["slippy/contact/unified_reynolds_solver.py:UnifiedReynoldsSolver.dimensionalise_pressure"]}
{"id": "C43", "title": "Reynolds pressures stay in bounds", "statement": "After a solve sweep all interior non dimensional pressures are between 0 and the maximum, whatever the gap, viscosity and density are, and boundary values are unchanged.", "quantifier": "every state and every grid shape", "why_tests_cant": "all states", "anchors": ["slippy/contact/unified_reynolds_solver.py:UnifiedReynoldsSolver.solve"]}
{"id": "C44", "title": "Lubricant sub models run in insertion order on the updated state", "statement": "The state after solving the lubricant sub models is the fold of the models over the state in the order in which their parameter was first added; replacing a model keeps its position; no key other than the model parameters changes; a state accepted by the data check never makes a sub model fail for a missing positional argument.", "quantifier": "every sequence of add_sub_model calls, every state", "why_tests_cant": "all histories", "anchors": ["slippy/contact/lubricant.py:Lubricant"]}
{"id": "C45", "title": "Viscosity and density laws", "statement": "The Roelands, Barus and Dowson-Higginson closures return the reference value at zero pressure, are increasing in pressure for positive coefficients, and the non dimensional versions agree with the dimensional ones after scaling pressure and value.", "quantifier": "all pressures >= 0 and all positive coefficients", "why_tests_cant": "real functions", "anchors": ["slippy/contact/lubricant_models.py"]}
{"id": "C46", "title": "Static step: load control, interference control and time", "statement": "Constructing a static step with both load and interference (or neither) raises; solving advances the time by exactly the step time; in interference control the reported interference is the requested one plus the previous one if relative, together with the free contact solution at it; the reported loads, displacements, contact nodes and gap belong together, with a prescribed load if some point has no gap when just touching and root finding tries no negative interference (otherwise loads can be lost and the step fails); with a prescribed load convergence means within five percent of it. Refuted: a requested interference without contact, relative loads (compared with the wrong load) and unloading (never possible after a step with contact).", "quantifier": "all parameters, all previous states", "why_tests_cant": "all states", "anchors": ["slippy/contact/static_step.py:StaticStep"]}
{"id": "C47", "title": "Quasi static step: time points and movement", "statement": "A quasi static step with n sub steps over time T visits exactly the times start + k*T/n for k=1..n; every movement given as two values goes linearly from the first at the first sub step to the last at the last sub step (with one sub step only the first value is used). Every sub step describes its contact consistently: loads, displacements, contact nodes and load belong to one interference. Refuted for prescribed loads: the reported interference, and so the gap, may be another one than that of the loads, in a sub step reported as converged.", "quantifier": "every n>=1, every T, every movement specification", "why_tests_cant": "all n", "anchors": ["slippy/contact/quasi_static_step.py:QuasiStaticStep"]}
{"id": "C48", "title": "Relative loading is relative", "statement": "With relative loading every movement is added to the value at the start of the step. Holds for movements that change during the step, refuted for constant ones (taken as absolute) and so for \"keep the interference as it is\".", "quantifier": "every previous state and movement", "why_tests_cant": "mode combinations", "anchors": ["slippy/contact/quasi_static_step.py:QuasiStaticStep.update_movement"]}
{"id": "C49", "title": "Step options that cannot be combined are rejected", "statement": "A quasi static step raises for exactly the forbidden combinations of load, interference, sliding, no_time and fast_ld options and accepts all others.", "quantifier": "every combination of options", "why_tests_cant": "combinatorial", "anchors": ["slippy/contact/quasi_static_step.py:QuasiStaticStep.__init__"]}
{"id": "C50", "title": "Lubrication step: converged means both criteria and iterations are bounded", "statement": "Every time step the lubrication step reports, converged or not, describes a film consistently (load, displacements and film thickness belong to the reported pressures); it is reported as converged only if the pressure change criterion and, in load control, the load criterion hold; the reported pressure is the relaxed one clipped at the maximum; the solver is called at most max_it + 2 times per time step. Refuted: max_it is not the limit, a time step that does not converge makes max_it + 2 calls.", "quantifier": "every solver behaviour", "why_tests_cant": "oracle behaviour quantified", "anchors": ["slippy/contact/lubrication_steps.py:IterSemiSystem"]}
{"id": "C51", "title": "The initial guess is used", "statement": "The first iteration starts from the initial guess given by the user. Refuted: the previous result option always replaces it.", "quantifier": "every guess", "why_tests_cant": "not visible in converged results", "anchors": ["slippy/contact/lubrication_steps.py:IterSemiSystem.solve"]}
{"id": "C52", "title": "Elastic perfectly plastic wear conserves volume", "statement": "The total plastic deformation reported equals the grid area times the sum of the depths removed from both surfaces, the depths are non negative and split in the given proportion, points which are not contact nodes are not worn, and a non converged state changes nothing.", "quantifier": "every state and proportion in [0,1]", "why_tests_cant": "all states", "anchors": ["slippy/contact/sub_models/epp_wear.py:WearElasticPerfectlyPlastic"]}
{"id": "C53", "title": "Sub models provide exactly what they announce", "statement": "For every option combination the contact stiffness sub model returns exactly the keys it announces as provided, and the friction and pure sliding sub models too.", "quantifier": "all options and states", "why_tests_cant": "combinatorial", "anchors": ["slippy/contact/sub_models/contact_stiffness.py", "slippy/contact/sub_models/friction_coulomb_model.py", "slippy/contact/sub_models/tangential_pure_sliding.py"]}
{"id": "C54", "title": "Coulomb friction and pure sliding", "statement": "The maximum tangential force is the friction coefficient times the normal load at each point, and in pure sliding the tangential load vector has exactly this magnitude in the sliding direction at each point for every unit direction.", "quantifier": "all loads, all directions", "why_tests_cant": "real valued", "anchors": ["slippy/contact/sub_models/friction_coulomb_model.py", "slippy/contact/sub_models/tangential_pure_sliding.py"]}
{"id": "C55", "title": "Partial slip partitions the contact", "statement": "In a partial slip solution every contact node is either a stick node with zero slip distance or carries at least 99 percent of the maximum tangential force; nodes outside of the contact have zero load and zero slip; tangential load never exceeds the friction limit up to the solver tolerance.", "quantifier": "every state, every solver result within its bounds", "why_tests_cant": "all states", "anchors": ["slippy/contact/sub_models/tangential_partial_slip.py"]}
{"id": "C56", "title": "Amplitude roughness parameters", "statement": "Sq, Sa, Ssk, Sku and Sv are the root mean square, mean absolute value, third and fourth normalised moments and lowest of the flattened heights of the used points. Sa <= Sq, Sku >= 1 and Sku >= Ssk^2, with flattening Sku >= Ssk^2+1 (refuted without); scaling heights by c>0 scales Sa, Sq and Sv by c and leaves Ssk and Sku unchanged; Sq and Sku are unchanged and Ssk changes sign when the surface is inverted; a tilt changes nothing. Refuted: a mask given as a value works for every profile (it fails for floats, and for whole numbers the used points are those whose height is minus one minus the value). Masks of another shape are refused.", "quantifier": "every profile with at least one point", "why_tests_cant": "inequalities over all profiles", "anchors": ["slippy/surface/roughness_funcs.py:roughness"]}
{"id": "C57", "title": "Summits are exactly the strict local maxima of the interior", "statement": "find_summits without filtering marks exactly the interior points strictly higher than their four or eight neighbours, no border point, and no two adjacent points (for the chosen neighbourhood). The summit density is their share of all points, with a filter as well, and every summit has a positive curvature. Refuted: with a mask of not a number such points are left out (the profile of the caller is erased and nothing is found). With a filter and a grid spacing exactly the interior maxima of the filtered heights are marked; a filter without a grid spacing is an error. Refuted: a filter that keeps a peak finds it (a profile with one peak in the middle has no summits at all). Refuted: with a filter a mask leaves out the marked points only (with the middle marked nothing is found).", "quantifier": "every profile of any shape at least 3 by 3", "why_tests_cant": "all shapes and profiles", "anchors": ["slippy/surface/roughness_funcs.py:find_summits"]}
{"id": "C58", "title": "Material ratio", "statement": "The material volume ratio at a height should be a number between 0 and 1, 1 at the lowest and 0 at the highest height, non increasing in the height. Refuted: the code returns one number for each point, all of them too small between the lowest and the highest height, and negative ones above the mean height; the points used are those outside of the mask.", "quantifier": "every profile and height", "why_tests_cant": "all profiles", "anchors": ["slippy/surface/roughness_funcs.py:get_mat_vr"]}
{"id": "C59", "title": "Polynomial flattening", "statement": "subtract_polynomial returns the profile minus a polynomial on the unmasked points and leaves masked points unchanged; a profile which is such a polynomial is flattened to zero given an exact least squares solution; flattening does not depend on heights of masked points, removes the mean, ignores a tilt and is idempotent. Refuted: integer profiles.", "quantifier": "every profile, mask and order", "why_tests_cant": "all profiles", "anchors": ["slippy/surface/roughness_funcs.py:subtract_polynomial"]}
{"id": "C60", "title": "Hertz line solutions satisfy the requested value", "statement": "When a line contact is solved for a missing quantity from a given maximum pressure, shear stress or contact width, the returned solution has this value again and satisfies the Hertz equations; for both Poisson ratios missing it does not (refuted).", "quantifier": "all positive real inputs, every missing quantity", "why_tests_cant": "real valued", "anchors": ["slippy/contact/hertz.py:solve_hertz_line", "slippy/contact/hertz.py:_fill_hertz_solution_line"]}
{"id": "C61", "title": "Hertz point solutions satisfy the requested value", "statement": "The same for point contacts with maximum pressure, shear stress, contact radius, displacement or tensile stress.", "quantifier": "all positive real inputs", "why_tests_cant": "real valued", "anchors": ["slippy/contact/hertz.py:solve_hertz_point", "slippy/contact/hertz.py:_fill_hertz_solution_point"]}
{"id": "C62", "title": "Full Hertz solution is consistent with the simple one", "statement": "For spherical contacts hertz_full gives the same contact radius, maximum pressure and deflection as solve_hertz_point; load equals mean pressure times area and 2/3 of maximum pressure times area; pressure is zero outside of the contact and at most p0; for line contacts mean pressure times width equals the load (refuted) and von Mises stress agrees with solve_hertz_line (refuted); for elliptical contacts the mean pressure is load over area (refuted).", "quantifier": "all positive inputs", "why_tests_cant": "real valued", "anchors": ["slippy/contact/hertz.py:hertz_full"]}
{"id": "C63", "title": "Autocorrelation estimate of a filter", "statement": "The FFT based autocorrelation estimate equals the direct double sum for every filter; it is largest at zero lag; a symmetric filter is built by mirroring without duplicating the centre row. The fit starts with the power of the target, and if a filter with the target as autocorrelation exists, a minimiser that finds a zero of the objective yields one (refuted for targets given as arrays, which are used transposed, and for the FIR method, which uses the spectrum itself as the filter).", "quantifier": "every filter shape and coefficients, every target function, every minimiser", "why_tests_cant": "all shapes", "anchors": ["slippy/surface/Random.py:_get_acf_estimate", "slippy/surface/Random.py:_get_acf_estimate_fft", "slippy/surface/Random.py:RandomFilterSurface.linear_transform", "slippy/surface/Random.py:RandomFilterSurface.fir_filter", "slippy/surface/ACF_class.py:ACF.__call__"]}
{"id": "C64", "title": "The gradient used for filter fitting is the gradient of the objective", "statement": "The gradient function returns the exact partial derivatives of the least squares objective for every filter and target.", "quantifier": "every filter and target", "why_tests_cant": "all reals and sizes", "anchors": ["slippy/surface/Random.py:_grad_min_fun", "slippy/surface/Random.py:_min_fun"]}
{"id": "C65", "title": "Random surface height statistics", "statement": "The rank ordering step of the Perez method always yields a profile whose multiset of heights is exactly the target heights; the periodic realisation of a filter surface is a cyclic convolution so that it is periodic; over white noise the mean product of two heights is the autocorrelation of the filter at their distance; iterations stop after at most max_it.", "quantifier": "every target and every intermediate profile", "why_tests_cant": "all inputs", "anchors": ["slippy/surface/Random.py:RandomPerezSurface.discretise", "slippy/surface/Random.py:RandomFilterSurface.discretise"]}
{"id": "C66", "title": "Fractal surface spectrum is conjugate symmetric", "statement": "The symmetrised spectrum has magnitude even and phase odd under index negation, so the inverse transform is real, for every even size.", "quantifier": "every even grid size and every random matrix", "why_tests_cant": "index arithmetic over all sizes", "anchors": ["slippy/surface/FFTBased.py:_conj_sym"]}
{"id": "C67", "title": "Johnson quantile fit reproduces the quantiles", "statement": "The fitted distribution has the four given quantiles at the normal quantiles -1.5, -0.5, 0.5, 1.5. Holds for the unbounded family, refuted for the normal branch unless the spacing is one.", "quantifier": "all increasing quantiles", "why_tests_cant": "real valued", "anchors": ["slippy/surface/_johnson_utils.py:_fit_johnson_by_quantiles"]}
{"id": "C68", "title": "Text header readers", "statement": "A tst file line \"#number#name$value$\" is parsed back to its number, lower case name and value, an all star name or empty value gives None; in the Alicona reader the number of depth columns is computed from the offsets (refuted when a texture image is present: the offsets are added instead of subtracted).", "quantifier": "every line, every pair of offsets", "why_tests_cant": "all inputs", "anchors": ["slippy/surface/read_tst_file.py:split_line", "slippy/surface/alicona.py:alicona_read"]}
{"id": "C69", "title": "Temporary CUDA override restores the flag", "statement": "Any properly nested use of the override leaves the CUDA flag as it was when each override object was created; inside it is off; refuted when the object was created before the flag was changed.", "quantifier": "every nesting and every history of flag changes", "why_tests_cant": "history property", "anchors": ["slippy/__init__.py:OverRideCuda"]}
{"id": "C70", "title": "New output file numbers are fresh", "statement": "The next file number is larger than every number already used by a file of the same name, so no existing output is overwritten.", "quantifier": "every directory content", "why_tests_cant": "all directories", "anchors": ["slippy/contact/_step_utils.py:get_next_file_num"]}
{"id": "C71", "title": "Movement interpolation", "statement": "A movement given as a constant gives the constant at every time; given as two values it gives a linear transition from the first to the second over the step; given as an array of times and values it passes through all of them and is linear in between.", "quantifier": "every specification and time", "why_tests_cant": "real valued", "anchors": ["slippy/contact/_step_utils.py:make_interpolation_func"]}
{"id": "C72", "title": "Combined surface displacements", "statement": "The total displacement of a loaded pair of bodies is the sum of the two surface displacements, the load components seen by the second body being mirrored, so exchanging the two materials exchanges the surface displacements and leaves the total unchanged for normal loads.", "quantifier": "every load and pair of materials", "why_tests_cant": "oracle behaviour quantified", "anchors": ["slippy/contact/_step_utils.py:solve_normal_loading"]}
{"id": "C73", "title": "Interpolated heights belong to the requested point and the current profile", "statement": "Interpolating in linear or cubic mode at a grid point gives the height of this point of the current profile. Holds for the current profile after wear and with remake_interpolator; refuted in general: the coordinates are swapped, so the transposed point is used, and after assigning a new profile the old one is still interpolated.", "quantifier": "every profile, every grid point, every spline through the grid points", "why_tests_cant": "all profiles and histories of assignments", "anchors": ["slippy/surface/Surface_class.py:_Surface.interpolate", "slippy/surface/Surface_class.py:_Surface.wear"]}
{"id": "C74", "title": "Normal displacements are reciprocal", "statement": "With the normal influence matrix over a span that covers the grid, the displacement of a point A caused by a load at B equals the displacement of B caused by the same load at A.", "quantifier": "every pair of grid points, every grid, every material constants, every load", "why_tests_cant": "needs every pair of points and all real material constants", "anchors": ["slippy/contact/influence_matrix_utils.py:elastic_influence_matrix", "slippy/contact/influence_matrix_utils.py:plan_convolve"]}
{"id": "C75", "title": "Coupling of normal and tangential directions is reciprocal (refuted)", "statement": "The response in x at B to a pressure at A should equal the response in z at A to a traction in x at B, so the zx coefficient of an index difference should be the xz coefficient of the opposite difference. Refuted: the same odd matrix is returned for both names, so they have opposite sign for every material that is not incompressible.", "quantifier": "every grid, all shear moduli, all Poisson ratios other than one half", "why_tests_cant": "a sign convention that no single example of one component shows", "anchors": ["slippy/contact/influence_matrix_utils.py:elastic_influence_matrix"]}
{"id": "C76", "title": "Normal coefficients are the integrals over the cells", "statement": "On a grid with square cells each normal influence coefficient is the surface displacement of an elastic half space by unit pressure on one cell: (1-v)/(2 pi G) times the integral of one over the distance, also for the loaded cell itself. Refuted for rectangular cells, where the spacings are missing inside of the logarithms.", "quantifier": "every index difference, every grid spacing, all material constants", "why_tests_cant": "an identity of real integrals", "anchors": ["slippy/contact/influence_matrix_utils.py:elastic_influence_matrix"]}
{"id": "C77", "title": "Speeds of sound follow from the constants and the density", "statement": "For a material with known constants and density the s and p wave speeds are positive, density times squared speed is the shear and the p wave modulus, p waves are faster, the density given once is used later, and without any density ValueError is raised.", "quantifier": "all stable isotropic materials, all densities", "why_tests_cant": "universally quantified over real constants", "anchors": ["slippy/contact/materials.py:Elastic.speed_of_sound"]}
{"id": "C78", "title": "The minimum pressure of the bound constrained solver", "statement": "A minimum pressure below zero (adhesion) should allow loads down to that minimum. Refuted: for every operator, start and minimum no returned load is below minus 1e-14, so tension is never found; the minimum is only used on the start vector.", "quantifier": "every operator and minimum pressure", "why_tests_cant": "quantifies over operators", "anchors": ["slippy/contact/influence_matrix_utils.py:bccg", "slippy/contact/influence_matrix_utils.py:_fftw_bccg", "slippy/contact/_step_utils.py:solve_normal_interference"]}
{"id": "C79", "title": "Displacements are the superposition of the responses to all loads", "statement": "For loads in any set of directions (named tuple or sequence of up to three arrays, all of one shape) the displacement in each requested direction is the sum over the load directions of the superposed responses of the influence matrix component; with simple only the load in the same direction counts; other directions are zero; repeated letters count once. No loads, different shapes and too long sequences are a ValueError. False for dicts: the documented dict argument is always a ValueError.", "quantifier": "every set of load arrays of every shape, every influence matrix, every request", "why_tests_cant": "universally quantified over arrays, shapes and directions", "anchors": ["slippy/contact/materials.py:_IMMaterial.displacement_from_surface_loads"]}
{"id": "C80", "title": "Displacement problems are solved as given", "statement": "Displacements given as named tuple, dict or sequence define the problem that is solved in the given directions with the components of these directions, and with a second material the displacements of both surfaces add up to the total. False for sequences with an array after a None (solved for another direction) and for several directions without simple (always an error).", "quantifier": "every argument, every pair of influence matrices", "why_tests_cant": "universally quantified over arguments", "anchors": ["slippy/contact/materials.py:_IMMaterial.loads_from_surface_displacement"]}
{"id": "C81", "title": "A Reynolds solver keeps its sweep order", "statement": "A Reynolds solver object sweeps the same columns, each once, in every solve as long as the grid length and the periodic flag stay the same. Using it for another grid or changing the flag is not supported: columns beyond the first length are silently never solved, grids shorter by two give an IndexError, and switching the flag has no effect after the first sweep.", "quantifier": "every history of assignments, reads and sweeps", "why_tests_cant": "the cached order depends on the whole history of the object", "anchors": ["slippy/contact/unified_reynolds_solver.py:UnifiedReynoldsSolver.solve"]}
{"id": "C82", "title": "A converged sweep satisfies the discrete Reynolds equation", "statement": "A pressure left unchanged by a sweep, strictly within the bounds, satisfies the discrete Reynolds equation (Poiseuille flow equals wedge plus squeeze) at every swept point; a solution within the bounds is left unchanged; the deformation stencil does not matter at the fixed point and equals the elastic coefficient of a unit square. The discrete equation is not exactly mass conserving when density and gap both change.", "quantifier": "every gap, density, viscosity, pressure, grid size", "why_tests_cant": "real valued equation over all fields", "anchors": ["slippy/contact/unified_reynolds_solver.py:UnifiedReynoldsSolver.solve", "slippy/contact/unified_reynolds_solver.py:_solve_row"]}
{"id": "C83", "title": "An interference can be prescribed more than once", "statement": "Sub steps without time dependence that prescribe the same interference are solved the same way. Refuted: the interferences of solved sub steps always differ, so a constant interference over several sub steps, or solving the same step object again, always fails.", "quantifier": "every world, movement, previous state", "why_tests_cant": "needs the history of a step object", "anchors": ["slippy/contact/quasi_static_step.py:QuasiStaticStep._solve_displacement_controlled", "slippy/contact/_step_utils.py:HeightOptimisationFunction"]}
{"id": "C84", "title": "Solving a step again uses the model as it is then", "statement": "A time dependent quasi static step gives the same states whatever the object was used for before, since everything is made new from the model. Refuted without time dependence: after a first solution nothing of the materials, the adhesion or the gap in the contact problem is looked at again.", "quantifier": "every step object in every state, every pair of worlds", "why_tests_cant": "histories of objects", "anchors": ["slippy/contact/quasi_static_step.py:QuasiStaticStep"]}
{"id": "C85", "title": "Steps find exactly what they announce and sub models are checked", "statement": "A solved static step or quasi static sub step has exactly the entries it announces, each once; with the flags off a sub model is accepted exactly if it returns what it announces. Refuted: with the flags at their default nothing is checked, and with the flags off a step with a sub model that provides anything new cannot be solved after the data check.", "quantifier": "every step, world, list of sub models", "why_tests_cant": "all combinations", "anchors": ["slippy/contact/steps.py:_ModelStep.solve_sub_models", "slippy/contact/steps.py:_ModelStep.check_sub_models"]}
{"id": "C86", "title": "Lubrication step: the interference asked for is used", "statement": "A lubrication step under interference control solves at the interference given. Refuted: every time step reports the interference there was before the step, whatever is asked for.", "quantifier": "every world, solver, step, history", "why_tests_cant": "the effect must be excluded for every input", "anchors": ["slippy/contact/lubrication_steps.py:IterSemiSystem.solve"]}
{"id": "C87", "title": "Lubrication step: times and movements", "statement": "A solved lubrication step reports number_of_steps states at equally spaced times, with the offset and rolling speed prescribed at each of them and the gap belonging to this offset. Refuted: relative loading fails with any changing rolling speed, and a constant load is not relative.", "quantifier": "every movement, number of steps, world", "why_tests_cant": "all step counts", "anchors": ["slippy/contact/lubrication_steps.py:IterSemiSystem.__init__", "slippy/contact/lubrication_steps.py:IterSemiSystem.update_movement", "slippy/contact/lubrication_steps.py:IterSemiSystem.solve"]}
{"id": "C88", "title": "Squeeze term uses the film of the time step before", "statement": "With the unified Reynolds solver the film used as the previous one is the film of the time step before plus the change of the undeformed gap since then; while the surfaces do not move this is the film reported before. Refuted: as soon as the surfaces move it never is, so the squeeze term misses the movement.", "quantifier": "every world, sweep, movement", "why_tests_cant": "history property over time steps", "anchors": ["slippy/contact/unified_reynolds_solver.py:UnifiedReynoldsSolver.solve", "slippy/contact/lubrication_steps.py:IterSemiSystem.solve"]}
{"id": "C89", "title": "Lubrication step: bounds of the pressures", "statement": "No pressure reported by the lubrication step is more than the smaller maximum load of two influence matrix materials, whatever the solver gives, and none is negative if the solver gives none that is and none was before.", "quantifier": "every solver behaviour, every number of iterations", "why_tests_cant": "invariant over the iterations", "anchors": ["slippy/contact/lubrication_steps.py:IterSemiSystem.solve"]}
{"id": "C90", "title": "Lubrication step: the announced entries", "statement": "If the solver returns the entries it announces and the data check passes, the states of the lubrication step without sub models have exactly the entries the step announces.", "quantifier": "every lubricant, solver, number of steps", "why_tests_cant": "all combinations", "anchors": ["slippy/contact/lubrication_steps.py:IterSemiSystem.__init__", "slippy/contact/lubrication_steps.py:IterSemiSystem.data_check"]}
{"id": "C91", "title": "The declared requirements of a sub model suffice", "statement": "A state which has everything a sub model declares as required is solved without a missing key, for friction, contact stiffness and displacement controlled partial slip. Refuted for wear, which also needs the gap, the loads and the contact nodes, and for pure sliding, which also needs the loads.", "quantifier": "every option and every state with the required entries", "why_tests_cant": "all states", "anchors": ["slippy/contact/sub_models/epp_wear.py", "slippy/contact/sub_models/tangential_pure_sliding.py", "slippy/contact/sub_models/tangential_partial_slip.py", "slippy/contact/sub_models/contact_stiffness.py", "slippy/contact/sub_models/friction_coulomb_model.py"]}
{"id": "C92", "title": "Contact stiffness values", "statement": "The far points stiffness is the total load of a unit displacement over the number of points, the mean lines stiffness is the total load over the number of points less the displacements (1 in contact, never more than 1); it is never less than the far points value when loads and displacements are not negative, and infinite in full contact. Loading uses only the contact nodes below the load limit, unloading all; the boarder takes off exactly the rows and columns at the sides.", "quantifier": "every solver result, shape and boarder", "why_tests_cant": "real valued, all shapes", "anchors": ["slippy/contact/sub_models/contact_stiffness.py:_solve"]}
{"id": "C93", "title": "Roughness calls: sequences and the profile of the caller", "statement": "A sequence of parameter names gives the list of the values which the single calls give, and a call does not change the profile. Refuted: with a mask array and without flattening, finding summits writes not a number into the profile of the caller, and later values of the same sequence are not a number.", "quantifier": "every profile, mask, sequence of any depth", "why_tests_cant": "must hold for every sequence", "anchors": ["slippy/surface/roughness_funcs.py:roughness", "slippy/surface/roughness_funcs.py:find_summits"]}
{"id": "C94", "title": "Developed area", "statement": "The developed area ratio is between its value for a flat surface and one. Refuted: it is zero for a flat surface; it is 1 - rc/((r-1)(c-1)), negative for every shape.", "quantifier": "every profile and grid spacing", "why_tests_cant": "inequality over all profiles", "anchors": ["slippy/surface/roughness_funcs.py:roughness"]}
{"id": "C95", "title": "Correlation length and texture aspect ratio", "statement": "The autocorrelation is the mean square of the heights at zero lag and never more at another lag. Refuted: the correlation length does not depend on the unit of the heights; for every even square profile with a mean square less than 0.2 it is zero and the aspect ratio an error; for profiles that are not square both are errors.", "quantifier": "every profile", "why_tests_cant": "inequality over all profiles", "anchors": ["slippy/surface/roughness_funcs.py:roughness", "slippy/surface/ACF_class.py:ACF"]}
{"id": "C96", "title": "Bearing parameters are numbers", "statement": "The parameters stp, sbi, svi, sci and sz can be found for a profile and are numbers (stp a curve). Refuted: without a mask svi, stp and sci always fail for at least two rows and columns, sbi is an array and sz always is one. With a mask stp is a curve of one hundred heights, sbi uses the height of the lowest twentieth of the used points, svi mixes the height of the used points with the void of the others, and sci fails.", "quantifier": "every profile of at least two rows and columns", "why_tests_cant": "all profiles", "anchors": ["slippy/surface/roughness_funcs.py:roughness"]}
{"id": "C97", "title": "Full Hertz solution: relative radii and angle", "statement": "The two relative radii belong to principal curvatures whose sum is the sum of the curvatures of the bodies and whose difference is that of theory for the angle between the axes; turning a body by pi changes nothing; bodies more curved along their first axes with less than 45 degrees between them are accepted. Refuted: every pair of bodies is accepted (spheres with an angle, and bodies both more curved along their second axes, are refused); the auxiliary angle of elliptical contacts is that of theory.", "quantifier": "all radii, angles, loads and materials", "why_tests_cant": "real valued", "anchors": ["slippy/contact/hertz.py:hertz_full", "slippy/contact/hertz.py:_sanitise_radii"]}
{"id": "C98", "title": "Full Hertz solution: the pressure carries the load", "statement": "The integral of the returned pressure over every rectangle (interval for lines) that contains the contact is the load, for spherical, elliptical and line contacts; the pressure is between zero and the maximum pressure, which is its value at the centre, and is zero exactly outside of the contact; the axes of the elliptical contact are in the ratio of the root found.", "quantifier": "all radii, angles, loads and materials; every root finder", "why_tests_cant": "an integral over all points", "anchors": ["slippy/contact/hertz.py:hertz_full", "slippy/contact/hertz.py:_pressure_spherical_contact", "slippy/contact/hertz.py:_pressure_elliptical_contact", "slippy/contact/hertz.py:_pressure_line_contact"]}
{"id": "C99", "title": "Full Hertz solution: displacements fit the shapes", "statement": "For spheres the returned displacements of both bodies add up to the deflection less the gap of the undeformed bodies inside of the contact and exceed it everywhere outside.", "quantifier": "all radii, loads, materials and points", "why_tests_cant": "real valued", "anchors": ["slippy/contact/hertz.py:_displacement_spherical_contact", "slippy/contact/hertz.py:hertz_full"]}
{"id": "C100", "title": "Full Hertz solution: stresses", "statement": "For spheres the normal stress on the surface is minus the pressure, on the axis it grows steadily from minus the maximum pressure towards zero; the maximum tensile stress returned is the radial stress on the edge of the contact and no other point of the surface exceeds it. Refuted: the sum of the stresses in the surface is 1+2v times the normal stress (the hoop stress has a sign error); the surface stress at the centre is a number; for lines the normal stress on the surface is minus the pressure, and stays bounded with depth.", "quantifier": "all radii, loads, materials and points", "why_tests_cant": "real valued", "anchors": ["slippy/contact/hertz.py:_stress_surface_spherical", "slippy/contact/hertz.py:_stress_z_axis_spherical", "slippy/contact/hertz.py:_stress_line_contact"]}
{"id": "C101", "title": "Moments of filter surfaces", "statement": "The skew and kurtosis that set_moments asks of the noise give a surface with the skew and kurtosis the caller asked for. Holds for the skew; refuted for the kurtosis, which is off by a formula in the filter coefficients and is right only in a coincidence.", "quantifier": "all filters and moments", "why_tests_cant": "real valued, all filter sizes", "anchors": ["slippy/surface/Random.py:RandomFilterSurface.set_moments"]}
{"id": "C102", "title": "Generated fractal surfaces", "statement": "A generated fractal surface has zero mean and its Fourier magnitudes are those of the self affine density with the given Hurst exponent and roll off, scaled by sigma, whatever random numbers are drawn, except at the frequencies which are their own opposite, where they are zero. It does not have the shape asked for (sizes are rounded up to even and rows and columns are exchanged) and its mean square height is less than sigma squared by exactly the part of the density at those frequencies. Nothing is generated without a shape and a spacing, over an existing profile, or for a Hurst exponent outside [0, 1].", "quantifier": "every shape, spacing, sigma, exponent, roll off and matrix of random numbers", "why_tests_cant": "statistics over all random draws and all sizes", "anchors": ["slippy/surface/FFTBased.py:HurstFractalSurface.discretise", "slippy/surface/FFTBased.py:HurstFractalSurface.__init__"]}
{"id": "C103", "title": "Johnson fit by moments", "statement": "A distribution fitted to a mean, standard deviation, skew and kurtosis has those moments. A negative standard deviation or a kurtosis no distribution has is refused. Proved: normal distributions have the mean and standard deviation; log normal ones with a positive skew have the mean, standard deviation and skew; unbounded ones have the mean and the standard deviation however many iterations were done, and without skew also the kurtosis. Refuted: log normal distributions with a negative skew, or with a shape of one, return NaN for every quantile; a log normal distribution without skew raises ZeroDivisionError.", "quantifier": "all moments", "why_tests_cant": "real valued", "anchors": ["slippy/surface/_johnson_utils.py:_fit_johnson_by_moments", "slippy/surface/_johnson_utils.py:_johnsonsl"]}
{"id": "C104", "title": "Reading UMT test files", "statement": "Reading ends for every file. A file written with right counts (runs of steps of channels of samples) is read back: its script entries, runs, steps, channels and data, with the samples unpacked in order, whatever bytes follow it and whatever bytes the data contains (line ends included). If a file and its beginning are both read the results are equal, so a file cut off at any point raises an exception or nothing that belongs to it is missing.", "quantifier": "every file content; every written file; every cut", "why_tests_cant": "all files and all cut points", "anchors": ["slippy/surface/read_tst_file.py:read_tst_file", "slippy/surface/read_tst_file.py:read_run", "slippy/surface/read_tst_file.py:read_step", "slippy/surface/read_tst_file.py:read_data"]}
{"id": "C105", "title": "Reading Alicona files", "statement": "A file without icon and texture is read: every tag as it is written (as a number where it is one), and the depths row by row, cropped to the columns of the image, with not a number for each invalid value. File names without exactly one dot are refused. For numbered files the icon and texture found beside it are those with the number straight after icon and texture, then those without a number. Refuted: text tags are read as written (with carriage returns each keeps one, so the texture planes are never recognised); a file with an icon or a texture inside can be read (each raises an exception).", "quantifier": "every file with right offsets, every tag, every row length", "why_tests_cant": "all files", "anchors": ["slippy/surface/alicona.py:alicona_read"]}
{"id": "C106", "title": "Shapes of geometric surfaces", "statement": "A flat surface is, however turned and moved, a plane with the steepness of its slopes; a round surface is the upper half of the ellipsoid with the given radii and its top at the origin, wherever the ellipsoid is; a pyramid falls in proportion to the distance in units of its lengths; only one or three radii are accepted. Refuted: round surfaces are below their top outside of the ball (they are as high as the top there); a pyramid with one length has sides at 45 degrees; every accepted argument gives a surface with heights (the list of the documentation does not).", "quantifier": "every slope, radius, length, shift, rotation and point", "why_tests_cant": "all real arguments and points", "anchors": ["slippy/surface/Geometric.py:FlatSurface", "slippy/surface/Geometric.py:RoundSurface", "slippy/surface/Geometric.py:PyramidSurface"]}
{"id": "C107", "title": "Arithmetic of analytical surfaces", "statement": "After any history of making, combining and moving surfaces, the sum, difference or multiple of analytical surfaces and numbers has the heights that the operation says, and making it changes no other surface; surfaces with different extents are refused; shifting or rotating a surface or a combination of two moves its heights accordingly. Refuted: a sum with a number or a multiple can be moved (its heights stay and follow its operand instead); surfaces can be divided by a number, or be on the right of one.", "quantifier": "every history of operations", "why_tests_cant": "all histories", "anchors": ["slippy/surface/Surface_class.py:_AnalyticalSurface.__add__", "slippy/surface/Surface_class.py:_AnalyticalSurface.__sub__", "slippy/surface/Surface_class.py:_AnalyticalSurface.__mul__", "slippy/surface/Surface_class.py:_AnalyticalSurface.__div__", "slippy/surface/Surface_class.py:SurfaceCombination"]}
{"id": "C108", "title": "Filling holes", "statement": "Filling the holes of a surface ends for every surface. The result is a part of the surface without gaps in which every value that wasn't a hole is as it was; it is the whole surface if the border is not removed. A border of holes of any widths is cut off exactly, when the outermost lines inside of it have not more than the threshold of holes, and also without that when there are only values near a border that is not too wide: lines removed for the holes at their ends are taken back. Refuted: a surface of holes only is refused in a defined way (IndexError, and its holes have become zeros); lines are removed until one has the threshold of real values (the threshold is applied to holes: with 0.99, lines with one real value in a hundred are kept); the surface itself is left alone when a copy is asked for.", "quantifier": "every surface, hole value and threshold; every algorithm that fills holes", "why_tests_cant": "all shapes and patterns of holes; termination", "anchors": ["slippy/surface/Surface_class.py:Surface.fill_holes"]}
{"id": "C109", "title": "Spectra of a surface", "statement": "The autocorrelation of a surface holds in entry (i, j) the mean product of heights a lag apart, with no lag in the middle; there it is the mean square of the heights, which no other entry exceeds; opposite lags are equal; turning the surface over changes nothing. Whatever was done before, a transform asked for is that of the profile as it is. Refuted: the density is that of the profile as it is (it is not found again when the profile was replaced or deleted); the autocorrelation called at the origin is the mean square (only for odd numbers of points); the density adds up to the mean square; the density is positive; small surfaces such as that of the documentation have an autocorrelation.", "quantifier": "every surface and history of changes and requests", "why_tests_cant": "all sizes, heights and histories", "anchors": ["slippy/surface/Surface_class.py:_Surface.get_fft", "slippy/surface/Surface_class.py:_Surface.get_acf", "slippy/surface/Surface_class.py:_Surface.get_psd", "slippy/surface/ACF_class.py:ACF"]}
{"id": "C110", "title": "Surfaces made of waves", "statement": "A surface made of given frequencies, amplitudes and phases has the sum of those waves along x as its heights, for complex amplitudes their cosine and sine parts; it repeats after every length that holds a whole number of waves of each frequency; lists with different lengths are refused and nothing else. Refuted: phases given with complex amplitudes have an effect; a single number is accepted as the frequency, as documented; random surfaces with probabilities for the frequencies can be made (there are no coordinates at which they have a height).", "quantifier": "all frequencies, amplitudes, phases and points", "why_tests_cant": "all lists and points", "anchors": ["slippy/surface/FFTBased.py:DiscFreqSurface", "slippy/surface/FFTBased.py:ProbFreqSurface", "slippy/surface/FFTBased.py:check_coords_are_simple"]}
{"id": "C111", "title": "Contact at a set interference", "statement": "Solving the contact at a set interference ends after at most max_iter + 1 passes whatever the materials answer. A converged solution has the loads and displacements the material answers for the overlap at the returned contact nodes, no contact node below the pull off pressure and at most the given share of overlapping nodes outside; if the material gives the displacement it is asked for, the gap is closed at the contact nodes. Without contact all is zero. A failed solution has loads that are not a number and displacements for other nodes than the returned ones. A pass removes the nodes with the smallest loads. For influence matrix materials loads are confined to the start nodes and within 0 and the maximum load. Refuted: a pass removes at most the given share of nodes (all are removed when the share is under one node or one node was added before, and the solution starts again); given contact nodes confine the loading, and are left unchanged; the initial guess may be an array; a function that returns two arrays may be the adhesive pressure; the first guess of the loads is a load that gives the displacement.", "quantifier": "all gaps, interferences, materials, start nodes, options and numbers of nodes", "why_tests_cant": "all node sets and all answers of the materials", "anchors": ["slippy/contact/_step_utils.py:solve_normal_interference", "slippy/contact/influence_matrix_utils.py:guess_loads_from_displacement"]}
{"id": "C112", "title": "Comparing surfaces and their text", "statement": "Two surfaces with profiles are equal exactly when shape, heights and spacing are the same and no height is missing, and comparing them gives the same answer both ways if both are analytical or both are not; analytical surfaces that compare equal have the same height everywhere. The text of an analytical surface is a call that makes a surface with its heights, if it was shifted or has no extent. Refuted: a surface equals itself (not with a missing height); a surface with a profile and a discretised analytical one compare the same both ways; ungenerated fractal surfaces with different parameters differ; Perez surfaces can be compared, or count as discrete once they have a profile; surfaces with the same heights are equal (a rotation by nothing, a list for a tuple, two sums of the same surfaces); surfaces made of arrays of waves can be compared; the text of a surface with an extent and no shift gives its heights (they are moved by half the extent); the texts of cylinders, combinations, fractal and empty filter surfaces can be evaluated or tell surfaces apart.", "quantifier": "all surfaces of all classes, attributes, profiles and parameters", "why_tests_cant": "all attribute values, sizes, parameters and histories", "anchors": ["slippy/surface/Surface_class.py:_Surface.__eq__", "slippy/surface/Surface_class.py:_AnalyticalSurface.__eq__", "slippy/surface/Surface_class.py:_Surface.__repr__", "slippy/surface/Surface_class.py:_AnalyticalSurface._repr_helper", "slippy/surface/Surface_class.py:SurfaceCombination.__repr__", "slippy/surface/Geometric.py:RoundSurface.__repr__", "slippy/surface/Random.py:RandomPerezSurface.__repr__", "slippy/surface/Random.py:RandomFilterSurface.__repr__", "slippy/surface/FFTBased.py:HurstFractalSurface.__repr__"]}
{"id": "C113", "title": "Surfaces from arrays and files", "statement": "The heights of a surface made from an array or a file are those in it. A profile with a spacing has the extent of its number of points, a profile with an extent the spacing of the first direction, and extents of another aspect ratio are refused; so are a shape with a profile, a spacing with an extent, a profile with a file, and files with other extensions. The spacing in a .al3d or .mat file is used unless one is given. The heights of a text file are the rows with numbers only, in order: numbers that were written are read back for every way to write and split them, rows of words apart by white space are split there, and header lines are skipped. Refuted: a value that cannot be read, a missing value or an empty line is reported or left missing (a bad value removes its row and the next rows move up; an empty column removes the column; an empty field in some rows, or a line of spaces or delimiters, is an error); a file without numbers is an error (it makes an empty surface); a single variable of a .mat file is found without its name, or a variable grid_spacing is read, as documented; surfaces without a profile are not marked as discrete.", "quantifier": "all arrays, files, ways to split and write text, arguments", "why_tests_cant": "all files, sizes, values and combinations of arguments", "anchors": ["slippy/surface/Surface_class.py:Surface.__init__", "slippy/surface/Surface_class.py:_Surface.__init__", "slippy/surface/Surface_class.py:read_surface", "slippy/surface/Surface_class.py:Surface.read_csv", "slippy/surface/Surface_class.py:Surface.read_mat", "slippy/surface/Surface_class.py:Surface.read_al3d"]}
{"id": "C114", "title": "Result files", "statement": "Whatever records are written while the files of a model are open, and whichever of them are refused, with or without the error being caught: afterwards a reader opened by the path of the output directory and the name of the model gives exactly the accepted records, by time (the first record at that time), by field (the last record at each time) and by search (in order, those the query accepts), with all their arrays; other times and fields are an index error, and other files are left alone. An array that was read once stays the same. Refuted: the same after the process was killed before the files were closed (numbers and text are there, no array can be read); a record whose time is text is skipped (the whole file cannot be opened); opening a missing file is an error (an empty one is made); a model whose name ends with .sdb is found by its name; a reader keeps the results it was opened for when the model is run again (field values are the old ones, the arrays shown for them the new ones); an array can be used after the working directory changed; a model writes to the output directory it was made with (a later model changes it).", "quantifier": "every sequence of records, refusals and errors, kill after any of them, names, directories, later runs", "why_tests_cant": "every history and crash point", "anchors": ["slippy/contact/outputs.py:OutputSaver", "slippy/contact/outputs.py:OutputReader", "slippy/contact/outputs.py:OutputReader.search", "slippy/contact/outputs.py:read_output", "slippy/contact/models.py:ContactModel"]}
{"id": "C115", "title": "What plots show", "statement": "Showing the profile of any surface as a surface or mesh draws every height over its own point and nothing else; an autocorrelation not found before is found, kept and drawn at its lags (half a spacing away for even numbers of points); a mesh of the transform or the power spectrum has every value at its own frequency; histogram and probability plot are of all heights; names in capitals are the same, other names and surfaces without a profile or spacing are refused; up to nine properties are shown together, each alone on its place; nothing changes but the kept spectra, and an analytical surface is left as it was, even after errors, with its heights over their points. Refuted: a surface plot of a spectrum has its values at their frequencies; negative autocorrelations are shown; images have their axes named rightly and the origin at the bottom; plots are surfaces by default; spectra shown are those of the present profile; a scatter of frequencies finds the transform, and pairs magnitudes with their frequencies (only on square surfaces); the angular power spectrum can be shown; unknown kinds of plots are errors; ten properties can be shown; analytical surfaces whose first side is longer are shown at the right places; their unworn profile can be shown.", "quantifier": "every surface, property, kind of plot, list of them, kept spectra, analytical height", "why_tests_cant": "every shape and history", "anchors": ["slippy/surface/Surface_class.py:_Surface.show", "slippy/surface/Surface_class.py:_AnalyticalSurface.show", "slippy/surface/Surface_class.py:_Surface.get_points_from_extent"]}
{"id": "C116", "title": "Data check of a model", "statement": "With errors switched on the data check of a model passes exactly when the first surface is there, discrete and has a material, the second is there with a material, and each step announces a time, its solver finds what it needs in the lubricant, its sub models find what they require in what the step and the sub models before announce, and every output asked for (each component, of a load or displacement) is announced or is an attribute of a surface. It passes exactly when it reports nothing with errors switched off, and passes again when repeated. After it passed, sub models find what they require and records have every output asked for with its value. A sub model in one step belongs to the model of that step whatever the order in which steps and sub models were added. Refuted: with errors switched off the check raises nothing (a missing surface, solver or lubricant does) and repeating it reports the same again (it changes what the step announces); attributes of surfaces, and the displacements of the surfaces, are checked; initial steps out of place are reported; a sub model shared by steps of two models belongs to both.", "quantifier": "all models, surfaces, steps, sub models, outputs, states, histories of adding", "why_tests_cant": "every model and every history", "anchors": ["slippy/contact/models.py:ContactModel.data_check", "slippy/contact/models.py:ContactModel._model_check", "slippy/contact/steps.py:_ModelStep._data_check", "slippy/contact/steps.py:_ModelStep.check_outputs", "slippy/contact/steps.py:_ModelStep.check_sub_models", "slippy/contact/steps.py:_ModelStep.add_sub_model", "slippy/contact/steps.py:InitialStep"]}
{"id": "C117", "title": "A filter surface through any history of calls", "statement": "Fitting a filter is refused exactly when there is no target, a realisation exactly when there are no coefficients or no shape, the FIR method exactly when there is no target or shape, each with its documented error, and a call that fails keeps coefficients, noise and profile. After any history the coefficients are those of the last fit, for the target and grid spacing of that time (one if there was none), and the profile is that of the last realisation not put in a new surface: the sums of noise of the current law with the current coefficients, in the shape asked for, with the extent of the grid spacing. A new surface made instead has the same heights and leaves the object unchanged. Set moments give the skew asked for; an ACF given to the FIR method replaces the target. Refuted: moments that could not be set are not kept; coefficients and moments follow a change of the grid spacing or a new fit; setting quantiles gives a surface with them (excess kurtosis is taken for kurtosis); an argument of the FIR method that is no ACF is reported.", "quantifier": "all constructor arguments, histories of calls, minimisers, fits, laws and noises", "why_tests_cant": "every history", "anchors": ["slippy/surface/Random.py:RandomFilterSurface", "slippy/surface/Random.py:RandomFilterSurface.linear_transform", "slippy/surface/Random.py:RandomFilterSurface.fir_filter", "slippy/surface/Random.py:RandomFilterSurface.set_moments", "slippy/surface/Random.py:RandomFilterSurface.set_quantiles", "slippy/surface/Random.py:RandomFilterSurface.discretise"]}
{"id": "C118", "title": "What is read after an analysis is what was computed", "statement": "After any analysis, whatever its steps compute and also when one of them raises on the way, the result files have one record for each time point of the steps with output requests, in the order of computing. Each can be read back and holds the time, every value that was asked for at that time and that the state had, as it was computed, and nothing that was not asked for. If no two time points have the same time the reader finds each by its time. The values of a request for every n-th time point are in the records of time points 0, n, 2n, ..., counted over the steps it was added to. The analysis returns the state of its last step or raises the first error. When the data check fails, the log cannot be opened or a request was added to the first step, nothing is computed and the error is raised.", "quantifier": "all models, steps, states, requests, options and points of failure", "why_tests_cant": "every course of an analysis", "anchors": ["slippy/contact/models.py:ContactModel.solve", "slippy/contact/steps.py:_ModelStep.save_outputs", "slippy/contact/outputs.py:OutputSaver", "slippy/contact/outputs.py:OutputReader", "slippy/contact/outputs.py:OutputRequest"]}
{"id": "C119", "title": "A converged contact is a contact", "statement": "With influence matrix materials, a step that reports convergence describes pressures that are zero where the undeformed surfaces do not overlap at the interference, are never tensile and never above the maximum pressure. If the solver had settled (no point came to or left a bound in its two passes before the last one) and the influence of all points is positive definite, they solve the contact problem: points held without pressure do not overlap, points held at the maximum have no gap left, and the gap left at the other points is below a constant of the influence matrix times the inner tolerance times the pressures. Without a settled solver this is false: a step can report convergence with the default tolerance although there is a large gap at points with pressure. The displacements of each surface are the superposition of its point load responses, whatever the transforms are padded to and with periodic axes, the total displacement is their sum, the total load is the sum of the pressures times the area of a point and the gap is that of the undeformed surfaces less the reported interference plus the total displacement. A static step and an interference controlled quasi static step report the interference of the solution. With non-negative coefficients, points that did not overlap still do not. The maximum pressure on every point closes every gap at the interference stored with it.", "quantifier": "all grids, gaps, influence matrices, tolerances, limits, histories of evaluations and root finders", "why_tests_cant": "it joins the solver, the convolution and the steps for every geometry and history", "anchors": ["slippy/contact/_step_utils.py:HeightOptimisationFunction", "slippy/contact/influence_matrix_utils.py:bccg", "slippy/contact/influence_matrix_utils.py:plan_convolve", "slippy/contact/static_step.py:StaticStep", "slippy/contact/quasi_static_step.py:QuasiStaticStep"]}
{"id": "C120", "title": "Elliptical contacts", "statement": "The half axes, pressure and deflections of an elliptical contact are those of the theory of Hertz: the displacements which the pressure causes in the two bodies close the gap between them in the whole contact, and at its centre they are the deflections, if one of the bodies is equally curved in all directions or they cross at 45 degrees. The function for the displacements is not a number outside of the contact, refuses ellipses whose first axis is the shorter one, and turns the points to the axes of a body. Refuted: its values are the displacements. At the centre they are more than the deflection of the body in every elliptical contact; in nearly round ones the surface is pulled out near the ends of the long axis; for round ones there are no numbers. Refuted too: a point has the same pressure whichever body's axes it is given on (for turned bodies that are curved differently in their two directions).", "quantifier": "all radii, angles, materials, loads and points", "why_tests_cant": "real valued: integrals for every eccentricity", "anchors": ["slippy/contact/hertz.py:hertz_full", "slippy/contact/hertz.py:_displacement_elliptical", "slippy/contact/hertz.py:_k_root", "slippy/contact/hertz.py:_i", "slippy/contact/hertz.py:_j", "slippy/contact/hertz.py:_h"]}
{"id": "C121", "title": "The Jacobian of displacements", "statement": "The Jacobian made from an influence matrix has a row and a column for each point of the surface, and its product with any loads is the displacement that the convolution with the influence matrix gives, for influence matrices of any span that are the same on both sides of a middle point. Periodic surfaces are refused exactly if a size is even or the influence matrix is larger by an odd number of points; for periodic surfaces of one row or one column the Jacobian is right. Refuted: for influence matrices with opposite signs on both sides (every displacement has the wrong sign), for those without a middle point (displaced by one point), and for all periodic surfaces with at least three rows and columns (a load in an earlier column counts for the row before). The function is decorated so that it loses its object (C18); this is about the function behind the decorator.", "quantifier": "all surface shapes, influence matrices and loads", "why_tests_cant": "every shape and span", "anchors": ["slippy/contact/materials.py:_IMMaterial._jac_im_getter"]}
{"id": "C122", "title": "Grids in double precision", "statement": "In double precision arithmetic: if the spacing has so few binary digits that its multiples up to the number of points have at most 53, then the gap of two surfaces on one grid is taken point by point, periodic or not, interpolators can be made, and setting the spacing to its value keeps the shape; off sets by whole numbers of such spacings give the overlapping points or, with periods, roll the second surface. For any spacing shapes are wrong by at most one point, interpolators have at most one node too many, the gap of two surfaces on one grid that are not periodic is found exactly if both sides divided by the spacing give the numbers of points, and each height of a gap is that of the same row and column of the second surface or of the one before. Refuted, for any unit: surfaces a hundredth apart with 29 rows or with 7 rows have a gap; with 30 rows it is the gap of the points; periodic surfaces with 116 rows 0.29 apart have the gap of their points; setting the spacing to its own value keeps 117 points; an extent of 0.3 and a spacing of 0.1 give three points; surfaces with 7 rows a hundredth apart can be interpolated.", "quantifier": "all spacings and shapes up to 2^31 points a side", "why_tests_cant": "every spacing; failures are at scattered values", "anchors": ["slippy/surface/Surface_class.py:_Surface.extent", "slippy/surface/Surface_class.py:_Surface.shape", "slippy/surface/Surface_class.py:_Surface.grid_spacing", "slippy/surface/Surface_class.py:_Surface.interpolate", "slippy/surface/Surface_class.py:_Surface.resample", "slippy/surface/Surface_class.py:_Surface.get_points_from_extent", "slippy/contact/_model_utils.py:get_gap_from_model"]}
{"id": "C123", "title": "Johnson SL distributions", "statement": "For numbers loc + scale exp((z - a) / b) made from a standard normal z, with positive b and scale: the distribution function of _johnsonsl.johnsonsl is theirs below loc + scale, and its quantiles are theirs for every probability. Refuted: the distribution function is theirs from loc + scale on (it is one there, for numbers with different probabilities); the density is its derivative (only where the square of the standardised number is b); several points can be evaluated at once (two points inside raise TypeError); a negative b is refused (the distribution function decreases); the distribution of johnsondists.py can be used (every call raises TypeError), and its density formula is the derivative of its distribution function (nowhere inside).", "quantifier": "all parameters, points and probabilities", "why_tests_cant": "continuous parameters", "anchors": ["slippy/surface/_johnsonsl.py:johnsonsl_gen", "slippy/surface/johnsondists.py:JohnsonSLGen"]}
{"id": "C124", "title": "The clock and output requests in double precision", "statement": "In double precision arithmetic: requests for every n-th sub step are answered as without rounding, over every history; an interval of one sub step is written in every sub step of a quasi static step of any length; static steps write every request that is due by their end; the time of sub step k is off by at most k + 2 units in the last place in quasi static and lubricated steps; of m evenly spaced outputs in at least m - 1 sub steps (not too many for the start time) all are written but perhaps the last, each at most one sub step late; with times that are whole numbers of a small power of two all times are exact and all requests by times are answered as without rounding; the relative times of movements start at 0, end at exactly 1, increase and stay in that range. Refuted, in any unit: as many evenly spaced outputs are written as asked for (a step of length one in ten sub steps, or lubricated in 49: the last is never written, nor an output asked for at the end of the step); an interval of two of ten sub steps is written in every second one; the third of ten sub steps of a step of length one is found by the time 0.3.", "quantifier": "all start times, lengths, numbers of sub steps and outputs, histories", "why_tests_cant": "every length and number; failures are at scattered values", "anchors": ["slippy/contact/outputs.py:OutputRequest.is_active", "slippy/contact/quasi_static_step.py:QuasiStaticStep.solve", "slippy/contact/lubrication_steps.py:IterSemiSystem.solve", "slippy/contact/static_step.py:StaticStep.solve"]}
{"id": "C125", "title": "Tangential and coupling coefficients are the integrals over the cells", "statement": "On a grid of square cells the xx, yy, xz and zy influence coefficients are the integrals over a cell of the surface displacements of an elastic half space by concentrated forces (Cerruti and Boussinesq), in either order of integration and as a limit for the loaded cell itself; the xy and yx coefficients are for rectangular cells too. Refuted: the zx and yz coefficients have the wrong sign for every compressible material, and on rectangular cells the xz coefficients are not the integrals.", "quantifier": "every index difference, every grid spacing, all shear moduli and Poisson ratios", "why_tests_cant": "an identity of real integrals for all differences and material constants", "anchors": ["slippy/contact/influence_matrix_utils.py:elastic_influence_matrix"]}
{"id": "C126", "title": "Displacements decrease away from the load", "statement": "On a grid of square cells the normal influence coefficients, for one or two bodies, strictly decrease with the distance along either axis, so the displacements computed for a load on one point are positive everywhere and largest under the load. Every coefficient but that of the loaded cell is the displacement by a point load of the same size somewhere inside of the cell; that of the loaded cell is 4 h ln(1 + sqrt 2) (1 - v) / (2 pi G). On any grid more load gives more displacement at every point.", "quantifier": "every pair of index differences, every grid and spacing, all material constants, all loads", "why_tests_cant": "an inequality between real functions for all differences, and superposition over all loads", "anchors": ["slippy/contact/influence_matrix_utils.py:elastic_influence_matrix", "slippy/contact/influence_matrix_utils.py:plan_convolve"]}
{"id": "C127", "title": "A contact has one solution", "statement": "With influence matrix materials whose influence matrix is positive definite and bounded, the elastic contact problem at any interference has exactly one solution, with or without a maximum pressure; the total load does not fall with the interference, grows as long as a point carries a pressure below the maximum, and determines the pressures, which depend continuously on the interference. The loads of a converged static step whose solver had settled are no further from this solution than a bound proportional to the tolerance. Refuted: the solution is unique for every influence without tension.", "quantifier": "every grid, gap, interference, maximum pressure and positive influence matrix, every static step that converges", "why_tests_cant": "existence and uniqueness range over all pressures, real numbers on any number of points; the error bound needs the exact solution", "anchors": ["slippy/contact/_step_utils.py:HeightOptimisationFunction", "slippy/contact/influence_matrix_utils.py:bccg", "slippy/contact/influence_matrix_utils.py:plan_convolve", "slippy/contact/static_step.py:StaticStep"]}
{"id": "C128", "title": "Texture direction", "statement": "Std, the texture direction, without flattening belongs to a wave that is as strong in the heights as any other: for one cosine wave with u periods over the rows, less than half their number, and v over the columns, any amplitude and phase, it is - atan(u / v), a right angle for v = 0. Whatever the surface, mask and flattening it is never a positive angle other than a right one; flat and tilted surfaces have none (not a number). Refuted: the mirror image of a surface has the opposite direction; both are negative for every wave that is not along an axis.", "quantifier": "every profile, spacing, wave, amplitude and phase", "why_tests_cant": "the transform of every profile; orthogonality of waves for all sizes", "anchors": ["slippy/surface/roughness_funcs.py:roughness"]}
{"id": "C129", "title": "The low pass filter of profiles", "statement": "low_pass_filter gives a profile of the same shape whose heights are sums of all heights times the answer k J1(2 pi k d) / d of the ideal filter with the cut off k = frequency times spacing, so it is linear; without a grid spacing it raises. Refuted: the answer is by the distance of the points. For a peak in the middle of a square profile with an odd number of points it is by the distance to the point outside of the first corner. Refuted: a flat profile stays flat (in such a profile, with a positive answer, the middle comes out higher than the first corner). One height that is not a number makes a block of the size of the profile not a number.", "quantifier": "every profile, size, frequency and spacing, every Bessel function routine", "why_tests_cant": "sums over profiles of all sizes with arbitrary heights", "anchors": ["slippy/surface/roughness_funcs.py:low_pass_filter"]}
