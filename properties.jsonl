{"id": "C01", "title": "Functional weights accumulate over any set history", "statement": "After any sequence of xcfun_set calls on a fresh handle, xcfun_get(name) for a functional returns the sum of the contributions of all calls in that history: the value for a direct call, value*coefficient for every alias term naming that functional; calls naming something else contribute nothing.", "quantifier": "all finite histories of xcfun_set calls (any names, known or unknown, any real values), all 78 functionals", "why_tests_cant": "a test can only replay a few call sequences; the claim is about every history", "anchors": ["src/XCFunctional.cpp: xcfun_set, xcfun_get", "src/functionals/aliases.cpp: aliases_array"]}
{"id": "C02", "title": "Parameters start at their documented default and the last write wins", "statement": "On a fresh handle xcfun_get of a parameter returns its documented default; after any history it returns the value of the last call that wrote it (directly, or value*coefficient through an alias), and setting functionals never changes a parameter.", "quantifier": "all histories of xcfun_set calls, all 4 parameters", "why_tests_cant": "histories are unbounded", "anchors": ["src/XCFunctional.cpp: XCFunctional::XCFunctional, xcfun_set", "src/functionals/common_parameters.cpp"]}
{"id": "C03", "title": "Unknown names are rejected without side effects and lookup is case-insensitive", "statement": "xcfun_set returns -1 and leaves the handle unchanged exactly when the name is (case-insensitively) none of the functionals, parameters or aliases; xcfun_get returns -1 exactly when the name is neither functional nor parameter; two names equal up to ASCII case behave identically everywhere.", "quantifier": "all strings, all handle states", "why_tests_cant": "infinitely many strings and states", "anchors": ["src/XCFunctional.cpp: xcfun_set, xcfun_get", "src/xcint.cpp: xcint_lookup_functional, xcint_lookup_parameter, xcint_lookup_alias"]}
{"id": "C04", "title": "Alias expansion equals setting its terms one by one, and always terminates", "statement": "Setting an alias to v has exactly the effect of setting each of its terms, in table order, to v times the term coefficient; every alias term resolves, so the call returns 0, and the recursion never exceeds depth two.", "quantifier": "all aliases, all values, all handle states", "why_tests_cant": "states are unbounded; non-termination or a failing term in one state is not excluded by running others", "anchors": ["src/XCFunctional.cpp: xcfun_set", "src/functionals/aliases.cpp"]}
{"id": "C05", "title": "Active-functional bookkeeping invariant", "statement": "In every reachable handle the list of active functionals has no duplicates, never overflows its fixed array, contains exactly the functionals set at least once (with any value), and the dependency flags are the union of the flags of the active functionals; xcfun_is_gga / xcfun_is_metagga report exactly whether some active functional needs the gradient / laplacian or kinetic energy density.", "quantifier": "all reachable handles (any interleaving of set/get/eval_setup/user_eval_setup calls)", "why_tests_cant": "an invariant over unbounded histories", "anchors": ["src/XCFunctional.cpp: xcfun_set, xcfun_is_gga, xcfun_is_metagga", "src/XCFunctional.hpp: XCFunctional"]}
{"id": "C06", "title": "xcfun_eval_setup: exact accept/reject condition and failure atomicity", "statement": "xcfun_eval_setup returns 0 exactly on the documented conditions (variables provide every dependency, order in range for the mode, potential mode only with suitable variables and functionals), returns the documented error bit otherwise, changes only mode/vars/order on success and nothing on failure.", "quantifier": "all reachable handles, all 31 variable sets, all mode and order integers", "why_tests_cant": "orders and modes are arbitrary integers and handles arbitrary", "anchors": ["src/XCFunctional.cpp: xcfun_eval_setup"]}
{"id": "C07", "title": "A successful setup means evaluation is supported", "statement": "If xcfun_eval_setup returned 0 then xcfun_eval does not terminate the process. (Expected false: 10 variable sets, partial derivatives of order 4 and modes UNSET/NR_MODES are accepted by setup and then terminate the process.)", "quantifier": "all setups accepted by xcfun_eval_setup, all inputs", "why_tests_cant": "the set of accepted configurations times inputs is unbounded in inputs and huge in configurations", "anchors": ["src/XCFunctional.cpp: xcfun_eval_setup, xcfun_eval", "src/densvars.hpp: densvars::densvars", "src/config.hpp: die"]}
{"id": "C08", "title": "xcfun_eval writes exactly the advertised output range", "statement": "For a handle set up successfully, xcfun_eval writes every slot 0..xcfun_output_length-1 and no other slot, and reads only input slots below xcfun_input_length.", "quantifier": "all accepted setups (modes, variable sets, orders), all inputs", "why_tests_cant": "out-of-range writes are silent; sampling configurations cannot exclude them", "anchors": ["src/XCFunctional.cpp: xcfun_eval, xcfun_output_length, xcfun_input_length"]}
{"id": "C09", "title": "Derivative output layout is the graded enumeration of multi-indices", "statement": "In partial-derivative mode the slots of the output are in bijection with the multi-indices of total degree at most the order, sorted by degree and then lexicographically by variable index sequences i<=j<=k; slot numbers have closed formulas.", "quantifier": "every number of input variables n, every order 0..3, every multi-index", "why_tests_cant": "the number of variables and multi-indices is arbitrary", "anchors": ["src/XCFunctional.cpp: xcfun_eval (case 1, 2, 3)", "external/upstream/taylor/taylor.hpp: taylorlen"]}
{"id": "C10", "title": "Every partial-derivative output is the true partial derivative of the energy", "statement": "In partial-derivative mode, output slot k equals the corresponding iterated partial derivative (in the sense of real analysis) of the function of the inputs that the library itself evaluates at order 0, wherever the densities exceed the regularisation threshold and no branch boundary is hit.", "quantifier": "all weighted sums of modelled functionals, all inputs in the domain, all orders up to 3, all slots", "why_tests_cant": "numerical differentiation only samples points and has finite accuracy", "anchors": ["src/XCFunctional.cpp: xcfun_eval", "external/upstream/taylor/ctaylor.hpp", "external/upstream/taylor/ctaylor_math.hpp", "external/upstream/taylor/tmath.hpp"]}
{"id": "C11", "title": "Contracted mode returns mixed directional derivatives", "statement": "In contracted mode the output slot with bit set S is the mixed derivative of the energy along the perturbations in S of the input expansion given by the 2^order coefficients per variable.", "quantifier": "all orders, all inputs, all functionals in the modelled set", "why_tests_cant": "inputs are real vectors of any size", "anchors": ["src/XCFunctional.cpp: xcfun_eval (XC_CONTRACTED)"]}
{"id": "C12", "title": "Energy and lower derivatives do not depend on the order requested", "statement": "For the same handle and input, evaluating with a higher order returns the same energy, gradient and hessian as evaluating with a lower order; the pairwise evaluation used for gradients agrees with one-variable-at-a-time evaluation; contracted mode returns the same energy.", "quantifier": "all functionals, inputs, orders", "why_tests_cant": "equality must hold for all inputs", "anchors": ["src/XCFunctional.cpp: xcfun_eval"]}
{"id": "C13", "title": "Potential mode returns the functional derivative", "statement": "In potential mode slot 0 is the energy and the following slots are the functional derivatives dE/dn - div(dE/d grad n) with respect to each spin density, computed from the density's second-order Taylor expansion.", "quantifier": "all LDA and GGA functionals in the modelled set, all density Taylor expansions", "why_tests_cant": "a functional derivative is a statement about all density fields", "anchors": ["src/XCFunctional.cpp: xcfun_eval (XC_POTENTIAL)"]}
{"id": "C14", "title": "Vector evaluation is pointwise evaluation", "statement": "xcfun_eval_vec with any number of points and any pitches produces at point i exactly what xcfun_eval produces for point i, and writes nothing outside the rows' output ranges (when rows do not overlap).", "quantifier": "all point counts, pitches, inputs", "why_tests_cant": "counts and pitches are unbounded", "anchors": ["src/XCFunctional.cpp: xcfun_eval_vec"]}
{"id": "C15", "title": "Evaluation is pure", "statement": "xcfun_eval does not modify the handle; its result depends only on the current settings, active list, mode, vars, order and the input, never on the history that led there nor on previous contents of the output buffer or uninitialised stack memory.", "quantifier": "all handles, all inputs, all junk memory contents, all interleavings", "why_tests_cant": "absence of hidden state cannot be shown by sampling", "anchors": ["src/XCFunctional.cpp: xcfun_eval", "src/densvars.hpp"]}
{"id": "C16", "title": "Energy and derivatives are linear in the weights", "statement": "Each output slot is the weighted sum over the active functionals of that functional's own output in the same slot.", "quantifier": "all weight vectors, functionals, inputs, orders", "why_tests_cant": "quantifies over real weight vectors", "anchors": ["src/XCFunctional.cpp: xcfun_eval"]}
{"id": "C17", "title": "The order of independent xcfun_set calls does not matter", "statement": "Permuting a history of functional-setting calls changes neither any observable weight nor any evaluated output (in exact arithmetic).", "quantifier": "all permutations of all histories", "why_tests_cant": "factorially many", "anchors": ["src/XCFunctional.cpp: xcfun_set, xcfun_eval"]}
{"id": "C18", "title": "Equivalent variable sets describe the same density", "statement": "Evaluating with (n,s) variables, (alpha,beta) variables, gradient components or gradient invariants that describe the same physical density gives the same energy. (Expected false for XC_N_S, XC_N_S_GNN_GNS_GSS(_TAUN_TAUS), XC_A and XC_A_GAA, true for the others.)", "quantifier": "all physical densities, all functionals", "why_tests_cant": "must hold at every real point", "anchors": ["src/densvars.hpp: densvars::densvars"]}
{"id": "C19", "title": "Rotational invariance", "statement": "With gradient-component variable sets, rotating (or reflecting) all gradient vectors by an orthogonal matrix does not change the energy.", "quantifier": "all orthogonal matrices, all inputs, all functionals", "why_tests_cant": "a continuous group", "anchors": ["src/densvars.hpp: densvars::densvars"]}
{"id": "C20", "title": "Spin-exchange symmetry", "statement": "Swapping the roles of alpha and beta in the input leaves the energy unchanged.", "quantifier": "all inputs; every modelled functional (and hence every weighted sum)", "why_tests_cant": "must hold at every real point", "anchors": ["src/functionals/*.cpp", "src/densvars.hpp"]}
{"id": "C21", "title": "Density regularisation", "statement": "Densities below the threshold are evaluated as if they were exactly the threshold (energy and all derivatives), densities at or above the threshold are left untouched, and after regularisation both spin densities are strictly positive for the (alpha,beta) sets.", "quantifier": "all inputs including zero and negative densities", "why_tests_cant": "continuum of inputs", "anchors": ["src/densvars.hpp: regularize, densvars::densvars", "src/config.hpp: XCFUN_TINY_DENSITY"]}
{"id": "C22", "title": "Declared dependencies are sound", "statement": "A functional's result depends only on the density variables it declares; so evaluation with any variable set accepted by setup never uses a density variable the set does not provide. (Expected false for REVTPSSX.)", "quantifier": "all functionals, all pairs of density inputs", "why_tests_cant": "independence from a real argument is a universal statement", "anchors": ["src/functionals/*.cpp: FUNCTIONAL(...)", "src/functionals/revtpssx.cpp", "src/XCFunctional.cpp: xcfun_eval_setup"]}
{"id": "C23", "title": "Names are unique, enumerable and resolvable", "statement": "Enumeration lists functionals, parameters (and aliases) without gaps up to the advertised counts and returns null afterwards; every enumerated functional or parameter name resolves to itself; every alias term resolves to a functional or a parameter.", "quantifier": "all non-negative enumeration indices, all names", "why_tests_cant": "indices unbounded", "anchors": ["src/XCFunctional.cpp: xcfun_enumerate_parameters, xcfun_enumerate_aliases", "src/xcint.cpp"]}
{"id": "C24", "title": "Descriptions resolve exactly the known names", "statement": "xcfun_describe_short/long return a non-null text exactly for functional, parameter and alias names (case-insensitively).", "quantifier": "all strings", "why_tests_cant": "infinitely many strings", "anchors": ["src/XCFunctional.cpp: xcfun_describe_short, xcfun_describe_long"]}
{"id": "C25", "title": "which_vars / which_mode / user_eval_setup", "statement": "xcfun_which_vars is injective on the descriptor tuples it accepts, always returns a valid variable set, and terminates the process exactly on the tuples with no variable set; the variable set it returns provides at least the quantities requested; xcfun_user_eval_setup equals eval_setup with these results.", "quantifier": "all unsigned descriptor tuples", "why_tests_cant": "unsigned arguments are unbounded in the model", "anchors": ["src/XCFunctional.cpp: xcfun_which_vars, xcfun_which_mode, xcfun_user_eval_setup"]}
{"id": "C26", "title": "In-place Taylor multiplication is memory-safe and correct, except when aliased", "statement": "The in-place and out-of-place multiplication routines of the tensored Taylor type compute the product in the algebra R[e1..en]/(ei^2) reading and writing only their own 2^n cells, for disjoint operands; for aliased operands (x *= x) with n>=3 the result is wrong.", "quantifier": "all n, all coefficient vectors, all memory layouts", "why_tests_cant": "n and coefficients unbounded", "anchors": ["external/upstream/taylor/ctaylor.hpp: ctaylor_rec"]}
{"id": "C27", "title": "Elementary function expansions are the Taylor coefficients", "statement": "inv/exp/log/pow/sqrt/cbrt/atan/gauss/erf/sin/cos/asinh expansions return f^(k)(a)/k! for every k up to the requested degree whenever their assertion holds; asin/acos do not.", "quantifier": "all degrees (all degrees up to 6 where the code supports only those), all real expansion points in the domain", "why_tests_cant": "continuum of expansion points", "anchors": ["external/upstream/taylor/tmath.hpp"]}
{"id": "C28", "title": "Output length is the exact number of multi-indices", "statement": "xcfun_output_length in partial-derivative mode equals binomial(n+order, order); the intermediate divisions are exact for every n and order.", "quantifier": "all n, all orders", "why_tests_cant": "unbounded arguments", "anchors": ["external/upstream/taylor/taylor.hpp: taylorlen", "src/XCFunctional.cpp: xcfun_output_length"]}
{"id": "C29", "title": "Self-test data stay inside their arrays", "statement": "xcfun_test accepts every functional's own test setup and never reads or writes outside its reference arrays: the number of input variables is at most the number of reference inputs and the output length at most the number of reference outputs.", "quantifier": "all functionals", "why_tests_cant": "out-of-bounds reads are silent", "anchors": ["src/XCFunctional.cpp: xcfun_test", "src/xcint.hpp: functional_data"]}
{"id": "C30", "title": "Handles are independent", "statement": "Operations on one handle never change what is observable through another handle, under any interleaving of calls from any number of handles.", "quantifier": "all numbers of handles, all interleavings of API calls", "why_tests_cant": "interleavings unbounded", "anchors": ["src/XCFunctional.cpp", "src/xcint.cpp: xcint_assure_setup"]}
{"id": "C31", "title": "Lazy table initialisation under concurrency", "statement": "Once the tables have been initialised by one completed call, any concurrent calls see complete tables; without that, two first calls may race. (The flag is set after the tables, unsynchronised.)", "quantifier": "all schedules of any number of threads", "why_tests_cant": "schedules", "anchors": ["src/xcint.cpp: xcint_assure_setup"]}
{"id": "C32", "title": "The Taylor type is a commutative ring and operators are consistent", "statement": "Addition, subtraction, negation, multiplication (in-place, accumulate and fresh), scalar mixing and division of the Taylor number type satisfy the commutative-ring laws and agree with each other for every number of variables; (x/y)*y=x when the constant term of y is non-zero.", "quantifier": "all n, all elements", "why_tests_cant": "infinitely many elements", "anchors": ["external/upstream/taylor/ctaylor.hpp", "external/upstream/taylor/ctaylor_math.hpp"]}
{"id": "C33", "title": "No analytic-domain failure on physical densities", "statement": "For every functional but revTPSS exchange (which fails, as shown), evaluation at any density with both spin densities at or above the threshold and, for meta-GGAs, positive gradients and kinetic energies (for SCAN also an iso-orbital indicator different from one) never divides by zero nor takes a log/root of a non-positive number.", "quantifier": "all physical densities, all derivative orders", "why_tests_cant": "continuum", "anchors": ["src/functionals/*.cpp"]}
{"id": "C34", "title": "Exact scaling and limit identities of functionals", "statement": "Exchange functionals obey the uniform-scaling law E(l^3 n, l^8 gaa) = l^4 E(n, gaa); GGAs reduce to their LDA limit at zero gradient where the code intends it; spin-scaling holds for exchange.", "quantifier": "all positive scale factors and densities", "why_tests_cant": "continuum", "anchors": ["src/functionals/slater.hpp", "src/functionals/pbex.hpp", "src/functionals/beckex.cpp", "src/functionals/pw86x.cpp"]}
{"id": "C35", "title": "Functionals compute their published formulas", "statement": "For each tabulated functional name, the energy returned for that functional at a density equals the formula of the publication it is named after (with the published coefficients), written in terms of the spin densities, squared gradients and kinetic energy densities; for several active functionals the energy is the weighted sum of the formulas. Where a functional does not, this is stated.", "quantifier": "all densities with both spin densities at or above the threshold, all variable sets that carry the needed quantities, all weights, all values of the range-separation parameters", "why_tests_cant": "The built-in tests compare one or two densities per functional with reference numbers computed once; a wrong coefficient of a term that is negligible at that density, or a wrong branch, passes.", "anchors": ["src/functionals/slater.hpp", "src/functionals/pbex.hpp", "src/functionals/pbec_eps.hpp", "src/functionals/pw92eps.hpp", "src/functionals/vwn.hpp", "src/functionals/lypc.cpp", "src/functionals/m0xy_fun.hpp", "src/functionals/tpssx_eps.hpp", "src/functionals/tpssc_eps.hpp", "src/functionals/b97xc.hpp", "src/functionals/tw.cpp", "src/functionals/SCAN_like_eps.hpp", "src/functionals/pw91c.cpp", "src/functionals/ldaerfc.cpp", "src/functionals/revtpssx_eps.hpp", "src/functionals/revtpssc_eps.hpp", "src/functionals/spbec.cpp", "src/functionals/cs.cpp"]}
{"id": "C36", "title": "Named combinations have their published composition", "statement": "Setting one of the named functional combinations (lda, blyp, pbe, pbe0, b3lyp, camb3lyp, kt3, b97, ...) with weight w on a new handle succeeds in any letter case; afterwards every functional weight, the exact-exchange coefficient and every range-separation parameter reads as w times its published value or its default, and the energy is w times the published combination of the published formulas. Different descriptions of the same functional (b88x / beckex, the two meanings of OPTX) give the same energy.", "quantifier": "all named combinations in the table, all weights, all letter cases, all densities above the threshold", "why_tests_cant": "The test-suite checks single functionals at single points; a wrong weight or a missing term of a combination is only visible by comparison with the literature for every entry.", "anchors": ["src/functionals/aliases.cpp", "src/XCFunctional.cpp:369-418", "src/xcint.cpp:31-50"]}
{"id": "C37", "title": "Energies obey the exact sign and bound constraints", "statement": "At every density above the threshold, any non-negative mixture of the PBE- and TPSS-type exchange functionals returns an energy between the local (Dirac) exchange energy and that energy times the functional's largest enhancement factor (the local Lieb-Oxford bound, 1.804); any non-negative mixture of the local and PBE-type correlation functionals returns an energy between the local correlation energy and zero; the named exchange functionals never return a positive energy and the kinetic functionals never a negative one.", "quantifier": "all densities above the threshold (any polarisation, any gradient, any kinetic energy), all non-negative mixtures, all accepted variable sets", "why_tests_cant": "inequalities over a continuum of densities, tight in limits no sample reaches", "anchors": ["src/functionals/pbex.cpp", "src/functionals/pbec.cpp", "src/functionals/pbec_eps.hpp", "src/functionals/pw92eps.hpp", "src/functionals/vwn.hpp", "src/functionals/tpssx_eps.hpp"]}
{"id": "C38", "title": "Becke-Roussel functionals: the hole equation is always solved, and solved accurately", "statement": "For every density, gradient, Laplacian, kinetic energy density and current, the nonlinear equation that fixes the shape of the Becke-Roussel exchange hole has exactly one solution; the library's iteration always stops through its own convergence test well within its step limit (the 'Not converged' warning is never printed) and returns that solution to 3e-15 relative accuracy, with exact derivatives of the inverse function at the returned point; the energies of BRX, BRC and BRXC are the published ones up to that error.", "quantifier": "all real right-hand sides, all densities at or above the threshold, all derivative orders up to 6", "why_tests_cant": "global convergence of an iteration over the whole real line, with four different starting formulas, and an error bound at every point", "anchors": ["src/functionals/brx.cpp:20-136"]}
{"id": "C39", "title": "The Python interface returns the library's values, point by point", "statement": "Constructing a functional from a dictionary of names and weights fails exactly when one of the names is unknown and otherwise has the effect of the corresponding calls of xcfun_set. eval_energy_n, eval_potential_n, eval_energy_ab and eval_potential_ab raise an exception exactly when the functional is a meta-GGA or the shapes of the arrays do not fit; otherwise they return one row per density point, and row i is the evaluation of point i of the arrays (density, gradient components, second derivatives, for each spin) in the documented layout, with no element of the result left unset. For a closed-shell density the two energy functions agree. Every variable set has a name in Python. (Expected false for the array returned by eval_potential_n, for xcfun_eval on a single point and for two variable sets; the rest true.)", "quantifier": "all functionals (any names and weights), all numbers of points, all array contents; all contents of freshly allocated memory", "why_tests_cant": "Uninitialised rows and columns may contain anything, including plausible values; the pairing of columns has to be right for every functional and every point.", "anchors": ["python/export_xcfun.cpp", "python/xcfun.py"]}
{"id": "C40", "title": "The Fortran interface passes names, texts and arrays through unchanged", "statement": "xcfun_set and xcfun_get called from Fortran with a character value act on the setting of that name; a character variable padded with blanks, as Fortran pads it, means the same name. Texts returned by the library (names, descriptions) arrive complete and padded with blanks without touching other memory, and a name obtained by enumeration can be passed back to xcfun_set and to the description functions. xcfun_eval_vec evaluates column i of the density array into column i of the result array for arrays of any shape that is large enough, and changes nothing else. (Expected false for padded names, for the memory accesses of the text functions and for descriptions; true for names as such, for the texts where those accesses do no harm, and for arrays.)", "quantifier": "all names, all lengths of character variables, all texts, all array shapes, all contents of memory outside the arrays", "why_tests_cant": "Reads beyond the end of a text and writes beyond the end of a variable usually go unnoticed in a test; array shapes with room to spare are not tested.", "anchors": ["api/xcfun.f90:262-292", "api/xcfun.f90:355-399", "api/xcfun.f90:470-484"]}
{"id": "C41", "title": "Range-separated exchange is a part of exchange", "statement": "At the same density and weight, the energy of a short-range exchange functional (LDAERFX, BECKESRX) lies between the energy of the functional it is a part of (SLATERX, BECKEX) and zero and weakens as the range-separation parameter grows; the Coulomb-attenuated functional BECKECAMX returns (1 - CAM_ALPHA - CAM_BETA) times BECKEX plus CAM_BETA times BECKESRX. Where a functional does not, this is stated.", "quantifier": "all densities above the threshold, all positive RANGESEP_MU, all CAM_ALPHA and CAM_BETA, all weights, all accepted variable sets", "why_tests_cant": "relations between different handles over a continuum of densities and parameters; the deviations are at the switching points between branches, which sample points miss", "anchors": ["src/functionals/beckex.cpp", "src/functionals/ldaerfx.cpp"]}
{"id": "C42", "title": "What the self test and the compatibility check tell the host", "statement": "xcfun_test returns the number of functionals whose output at their own test point deviates from the reference by more than the threshold, never leaves its arrays and never ends the process; a result of zero means every tested output is right. xcfun_is_compatible_library answers yes exactly when library and header have the same major version. Where they do not, this is stated.", "quantifier": "all reference inputs, outputs and thresholds, all contents of the output buffers, all arithmetics for memory safety, all header and library versions", "why_tests_cant": "running the self test only shows its verdict on a correct library; whether it would notice a wrong one is a statement about all wrong outputs, NaN included", "anchors": ["src/XCFunctional.cpp", "src/version_info.hpp", "api/xcfun.h"]}
{"id": "C43", "title": "Energies and derivatives have no jumps", "statement": "The order-0 energy returned for a weighted sum of functionals is a continuous function of all inputs together: where the library returns an energy it returns one at all nearby inputs, and the energy changes as little as desired if the inputs are close enough. The same holds for every slot of partial-derivative, contracted and potential output wherever no branch, absolute value or regularisation boundary is hit. Where a functional switches between formulas, continuity holds away from the switching points; where the two formulas do not match, the jump is stated; where an iteration stops early, the jump is bounded.", "quantifier": "all reachable handles, all weights and parameters, all supported variable sets, all input arrays, all tolerances", "why_tests_cant": "continuity is a statement about all pairs of close inputs and all tolerances; sampled inputs almost never straddle a switching point", "anchors": ["src/densvars.hpp", "src/functionals/pz81c.hpp", "src/functionals/beckex.cpp", "src/functionals/pw9xx.hpp", "src/functionals/ldaerfx.cpp", "src/functionals/p86c.cpp", "src/functionals/SCAN_like_eps.hpp", "src/functionals/brx.cpp"]}
