{
 "claims": [
  {
   "property": "C01",
   "status": "proved",
   "theorems": [
    "C01_weights_accumulate",
    "C01_writes_defined",
    "C01_set_histories_run"
   ],
   "note": ""
  },
  {
   "property": "C02",
   "status": "proved",
   "theorems": [
    "C02_parameters_last_write"
   ],
   "note": ""
  },
  {
   "property": "C03",
   "status": "proved",
   "theorems": [
    "C03_unknown_rejected",
    "C03_case_insensitive"
   ],
   "note": ""
  },
  {
   "property": "C04",
   "status": "proved",
   "theorems": [
    "C04_alias_is_terms",
    "C04_recursion_bounded"
   ],
   "note": ""
  },
  {
   "property": "C05",
   "status": "proved",
   "theorems": [
    "C05_active_invariant"
   ],
   "note": ""
  },
  {
   "property": "C06",
   "status": "proved",
   "theorems": [
    "C06_setup_exact",
    "C06_setup_code_unique",
    "C06_vars_not_validated_refuted",
    "C06_setup_not_revalidated_refuted"
   ],
   "note": "exact return code for every table variable set; the variable set argument itself is not validated (refuted theorem), nor is the setup revalidated when functionals are added later (refuted theorem)"
  },
  {
   "property": "C07",
   "status": "proved",
   "theorems": [
    "C07_eval_dies_exactly",
    "C07_setup_supported_refuted"
   ],
   "note": "False as stated (C07_setup_supported_refuted); exact characterisation of when evaluation ends the process after an accepted setup, and absence of undefined behaviour."
  },
  {
   "property": "C08",
   "status": "proved",
   "theorems": [
    "C08_partial_writes_output_length",
    "C08_contracted_writes",
    "C08_potential_writes",
    "C08_potential_length_refuted",
    "C08_reads_input_length"
   ],
   "note": "Exact set of written slots in all three modes; reads only below the input length (2^order values per variable in contracted mode). The advertised potential length is not always filled (C08_potential_length_refuted)."
  },
  {
   "property": "C09",
   "status": "proved",
   "theorems": [
    "C09_partial_layout",
    "C09_enumeration",
    "C09_slot_numbers"
   ],
   "note": "Slot-by-slot layout of the partial-derivative output, the enumeration order and its inverse, and closed slot formulas for orders 0-3."
  },
  {
   "property": "C10",
   "status": "proved",
   "theorems": [
    "C10_partial_derivatives",
    "C10_at_densities",
    "C10_off_switches"
   ],
   "note": "Iterated real partial derivatives of the order-0 energy for every weighted sum of functionals, at points where no branch, absolute value or regularisation boundary is hit (the Newton solver of the three Becke-Roussel functionals is excluded). C10_at_densities discharges these hypotheses at every density strictly above the threshold for the listed functionals. C10_off_switches adds nine functionals that compare numbers (Becke family, LDAERFX, PW91X, PW91K, PZ81C, P86C) away from their switching points, the B97 family at nonzero gradients, and the SCAN family, TPSSC, REVTPSSC and TPSSLOCC where none of their comparisons is met with equality. The three Becke-Roussel functionals are excluded."
  },
  {
   "property": "C11",
   "status": "proved",
   "theorems": [
    "C11_contracted_derivatives",
    "C11_at_densities",
    "C11_off_switches"
   ],
   "note": "Same scope as C10; C11_at_densities discharges the hypotheses. C11_off_switches adds nine functionals that compare numbers (Becke family, LDAERFX, PW91X, PW91K, PZ81C, P86C) away from their switching points, the B97 family at nonzero gradients, and the SCAN family, TPSSC, REVTPSSC and TPSSLOCC where none of their comparisons is met with equality. The three Becke-Roussel functionals are excluded."
  },
  {
   "property": "C12",
   "status": "proved",
   "theorems": [
    "C12_order_independent",
    "C12_contracted_energy"
   ],
   "note": "Orders and modes agree on shared slots."
  },
  {
   "property": "C13",
   "status": "proved",
   "theorems": [
    "C13_functional_derivative",
    "C13_density_only",
    "C13_at_densities",
    "C13_revtpssx_refuted",
    "C13_second_slot_refuted",
    "C13_off_switches"
   ],
   "note": "Slot 0 and the functional derivative for every LDA/GGA sum and every density field, for the second-order Taylor sets; derivative slots for density-only functionals in the other density sets; hypotheses discharged at physical densities (C13_at_densities). Counterexamples: revTPSS exchange is accepted but never evaluates; the second slot is wrong for LDA with sets that carry gradients. C13_off_switches adds nine functionals that compare numbers (Becke family, LDAERFX, PW91X, PW91K, PZ81C, P86C) away from their switching points, the B97 family at nonzero gradients, and the SCAN family, TPSSC, REVTPSSC and TPSSLOCC where none of their comparisons is met with equality. The three Becke-Roussel functionals are excluded."
  },
  {
   "property": "C14",
   "status": "proved",
   "theorems": [
    "C14_pointwise",
    "C14_disjoint_rows",
    "C14_outcome",
    "C14_offset_overflow_refuted"
   ],
   "note": "any scalar type, any counts and pitches whose offsets fit in int; overlapping rows included (later rows win); pitches that overflow int are the stated counterexample; input and output arrays are assumed not to overlap"
  },
  {
   "property": "C15",
   "status": "proved",
   "theorems": [
    "C15_evaluation_pure"
   ],
   "note": "For handles whose current setup is valid. Stack memory (junk) and previous output contents are universally quantified."
  },
  {
   "property": "C16",
   "status": "proved",
   "theorems": [
    "C16_linear_in_weights",
    "C16_mixture_defined",
    "C16_component_exists"
   ],
   "note": "all three modes and all orders, over the reals: the stored numbers of a mixture are the weighted sums of the numbers stored by one-functional handles with the same parameters; the component handles exist and definedness goes both ways"
  },
  {
   "property": "C17",
   "status": "proved",
   "theorems": [
    "C17_order_irrelevant",
    "C17_conflicting_parameter_refuted"
   ],
   "note": "every permutation of set calls that do not give one parameter two different values yields handles that no later call sequence or evaluation distinguishes, over the reals; conflicting parameter values are the stated counterexample"
  },
  {
   "property": "C18",
   "status": "proved",
   "theorems": [
    "C18_equivalent_variables",
    "C18_n_s_refuted",
    "C18_a_refuted"
   ],
   "note": "Proved for all 16 variable sets whose constructor case is correct, for every density above the threshold. XC_N_S, XC_N_S_GNN_GNS_GSS(_TAUN_TAUS), XC_A and XC_A_GAA violate the claim (proved _refuted). Hypothesis tau_honest excludes REVTPSSX on sets without kinetic energy, which reads tau without declaring it."
  },
  {
   "property": "C19",
   "status": "proved",
   "theorems": [
    "C19_energy_invariant",
    "C19_derivatives_invariant"
   ],
   "note": "Energy (partial order 0) and all contracted derivatives, every variable set with vector components, every functional; REVTPSSX with XC_N_2ND_TAYLOR excluded (it reads a second derivative as kinetic energy density)."
  },
  {
   "property": "C20",
   "status": "proved",
   "theorems": [
    "C20_exchange_is_exchange",
    "C20_energy_symmetric",
    "C20_density_symmetric",
    "C20_derivatives_symmetric",
    "C20_partial_derivatives",
    "C20_first_derivatives"
   ],
   "note": "All 78 functionals and all thirteen sets that distinguish the spins, every weighted sum, every input (no positivity assumed); also every directional derivative of every order (contracted mode). The alpha-only sets have no exchanged input."
  },
  {
   "property": "C21",
   "status": "proved",
   "theorems": [
    "C21_below_is_threshold",
    "C21_spin_densities",
    "C21_positive_densities",
    "C21_every_density_defined",
    "C21_polarised_n_s_refuted"
   ],
   "note": "C21_below_is_threshold: all modes, orders, inputs, variable sets. C21_spin_densities and C21_positive_densities: what the functionals see. C21_polarised_n_s_refuted shows that the (n,s) component set does not regularise the polarisation."
  },
  {
   "property": "C22",
   "status": "proved",
   "theorems": [
    "C22_declared_sound",
    "C22_setup_sound",
    "C22_unused_inputs",
    "C22_revtpssx_refuted"
   ],
   "note": "Declared dependencies hold for 77 of the 78 functionals over any scalar type (C22_declared_sound), hence setup never lets a functional use a variable the set does not provide (C22_setup_sound) and inputs of undeclared kinds do not influence any output in any mode (C22_unused_inputs, exact real arithmetic). REVTPSSX violates it: C22_revtpssx_refuted."
  },
  {
   "property": "C23",
   "status": "proved",
   "theorems": [
    "C23_enumerate_parameters",
    "C23_names_unique",
    "C23_enumerate_aliases",
    "C23_alias_terms_resolve",
    "C23_enumerate_negative_refuted",
    "C23_alias_shadowed_refuted"
   ],
   "note": "for non-negative indices; negative index refuted (UB); shadowed aliases recorded"
  },
  {
   "property": "C24",
   "status": "proved",
   "theorems": [
    "C24_describe_known"
   ],
   "note": ""
  },
  {
   "property": "C25",
   "status": "proved",
   "theorems": [
    "C25_which_vars_sound",
    "C25_which_vars_injective",
    "C25_which_vars_onto",
    "C25_user_eval_setup"
   ],
   "note": ""
  },
  {
   "property": "C26",
   "status": "proved",
   "theorems": [
    "C26_mul_accumulate",
    "C26_mul_fresh",
    "C26_mul_inplace",
    "C26_mul_inplace_skipconst",
    "C26_functional_model_refined",
    "C26_aliased_small",
    "C26_aliased_refuted"
   ],
   "note": ""
  },
  {
   "property": "C27",
   "status": "proved",
   "theorems": [
    "C27_inv",
    "C27_exp",
    "C27_log",
    "C27_pow",
    "C27_sqrt",
    "C27_cbrt",
    "C27_gauss",
    "C27_erf",
    "C27_sin",
    "C27_cos",
    "C27_atan",
    "C27_asinh",
    "C27_shift",
    "C27_pade",
    "C27_compose_limit",
    "C27_asin_refuted",
    "C27_acos_refuted"
   ],
   "note": ""
  },
  {
   "property": "C28",
   "status": "proved",
   "theorems": [
    "C28_taylorlen_binomial"
   ],
   "note": ""
  },
  {
   "property": "C29",
   "status": "proved",
   "theorems": [
    "C29_selftest_in_bounds"
   ],
   "note": ""
  },
  {
   "property": "C30",
   "status": "proved",
   "theorems": [
    "C30_handles_independent",
    "C30_failures_are_local",
    "C30_cold_start",
    "C30_cold_start_completes"
   ],
   "note": "any number of handles and any interleaving, including a cold start with lazy table initialisation; bodies of calls are atomic in the model and no two handle variables share an object"
  },
  {
   "property": "C31",
   "status": "proved",
   "theorems": [
    "C31_after_completed_call",
    "C31_first_calls_race_refuted",
    "C31_late_initialiser_refuted"
   ],
   "note": "sequentially consistent model with non-atomic table assignment: safe under all schedules once a call has returned with no other thread in the initialisation; races of first calls and of a late initialiser are proved as counterexamples"
  },
  {
   "property": "C32",
   "status": "proved",
   "theorems": [
    "C32_commutative_ring",
    "C32_product_is_convolution",
    "C32_operators_consistent",
    "C32_division",
    "C32_scalar_division",
    "C32_integer_power"
   ],
   "note": ""
  },
  {
   "property": "C33",
   "status": "proved",
   "theorems": [
    "C33_partial_defined",
    "C33_contracted_defined",
    "C33_potential_defined",
    "C33_tw_zero_gradient_refuted",
    "C33_scan_refuted",
    "C33_revtpssx_refuted"
   ],
   "note": "Proved for every mixture of the 77 functionals named by covered: 47 for any gradient, 3 for non-zero gradients, 12 (M05/M06) for positive kinetic energy, 13 (TPSS, revTPSS correlation, BLOC, rSCAN, r++SCAN, r2SCAN and r4SCAN exchange and correlation) for positive gradients and kinetic energies, SCANX and SCANC if moreover the iso-orbital indicator is not exactly 1; every density above the threshold, positive range-separation parameter, all three modes and all accepted variable sets. SCAN at indicator exactly 1 divides by zero (C33_scan_refuted); TW at zero gradient is outside the domain (C33_tw_zero_gradient_refuted). The one functional not covered, REVTPSSX, divides by zero at an ordinary density (C33_revtpssx_refuted)."
  },
  {
   "property": "C34",
   "status": "proved",
   "theorems": [
    "C34_gas_exchange",
    "C34_corrections_vanish",
    "C34_local_correlation",
    "C34_exchange_scaling",
    "C34_kinetic_scaling",
    "C34_scaled_inputs",
    "C34_spin_scaling",
    "C34_tw_scaling_refuted",
    "C34_tfk_spin_scaling_refuted"
   ],
   "note": "Uniform scaling: proved for every weighted sum of 25 exchange functionals (degree 4) and of TFK, PW91K, VWK (degree 5), all densities above the threshold, all scale factors, every modelled variable set; C34_scaled_inputs states what scaling does to the input numbers. Spin scaling E[na,nb]=(E[na,na]+E[nb,nb])/2: proved for every weighted sum of all exchange functionals and PW91K, BTK, VWK. Zero-gradient limit: ten exchange functionals give the electron-gas exchange energy, five gradient corrections vanish, ten GGA/meta-GGA correlation functionals give the same energy as their local functional. Where the code breaks the law it is shown by _refuted theorems: TW scales with l^13, TFK ignores spin. Functionals outside the lists contain dimensional constants or thresholds (KTX, BTK, SCAN family, range-separated, REVTPSSX)."
  },
  {
   "property": "C35",
   "status": "proved",
   "theorems": [
    "C35_published_energy",
    "C35_published_value",
    "C35_tw_refuted",
    "C35_published_close",
    "C35_revtpssc_refuted",
    "C35_spbec_refuted",
    "C35_csc_refuted",
    "C35_revtpssx_refuted",
    "C35_zv_close",
    "C35_zv_refuted",
    "C35_btk_close",
    "C35_btk_refuted",
    "C35_ldaerfx_close"
   ],
   "note": "Proved for 69 of the 78 functionals: whatever weighted mixture of them is active, the energy equals the weighted sum of the published formulas (Published.v, written without reference to the model), for every density above the threshold; the SCAN family away from its numerical cut-offs; for Becke 88, PW91 and LDAERFX in the gradient / range regime where the code does not use a rational or series approximation; LDAERFC_JT, ZVPBESOLC and ZVPBEINTC for closed shells (zeta = 0). C35_published_close covers Becke 88 (also its short-range and Coulomb-attenuated forms, for mu > 0, beta >= 0, alpha + beta <= 1) and PW91 exchange and kinetic energy at every gradient, with a relative error of at most 1e-13 (the rational approximation of x arcsinh x). C35_ldaerfx_close bounds LDAERFX for every mu > 0 and density by 1e-8 of the local exchange energy (the limits the code uses outside 1e-9 <= mu/(2 kF) < 100). C35_zv_close bounds zvPBEsol and zvPBEint at every polarisation (the polynomial fit of |zeta|^(9/2) is within 3e-4) and C35_zv_refuted shows they are not equal to the published ones at zeta = 1/4. C35_btk_close bounds Borgoo-Tozer by the relative size of the constant 1e-24 the code adds to the squared gradient; C35_btk_refuted shows the energy of a uniform density is positive where the formula gives zero. C35_published_value adds existence of the energy for the functionals C33 covers. Five more functionals are not the published ones, each refuted on a whole class of densities or at one: TW, REVTPSSX, REVTPSSC, SPBEC and CSC (C35_*_refuted). BRX, BRC and BRXC are compared with their publications in C38. Not compared: LDAERFC_JT at nonzero polarisation."
  },
  {
   "property": "C36",
   "status": "proved",
   "theorems": [
    "C36_composition",
    "C36_energy",
    "C36_m06_refuted",
    "C36_b88x_is_beckex",
    "C36_optx_shadowing"
   ],
   "note": "39 of the 46 aliases: getters (C36_composition) and energy (C36_energy) for all weights and letter cases. m06 and m06-2x leave EXX at 0 although the published hybrids contain 27% / 54% exact exchange (C36_m06_refuted). Not in the table: null (slaterx with weight 0), PBEX, OPTX, tfk, tw (shadowed by functionals of the same name; C36_optx_shadowing). The values of parameters are multiplied by the weight as well, which the getters show."
  },
  {
   "property": "C37",
   "status": "proved",
   "theorems": [
    "C37_exchange_enhancement",
    "C37_exchange_sign",
    "C37_correlation_between",
    "C37_kinetic_positive",
    "C37_exchange_attractive",
    "C37_br_sign"
   ],
   "note": "Through the published formulas of C35, for mixtures with non-negative weights: nine exchange functionals lie between 1 and 1.804 (revPBE 2.245) times the Dirac exchange; nine correlation functionals between their local correlation energy and zero, strictly; eight more exchange functionals and the range-separated ones are not positive at any density (C37_exchange_attractive; C37_exchange_sign is the earlier form through the table); Thomas-Fermi plus von Weizsaecker kinetic energy is at least its Thomas-Fermi part; BRX is never positive, nor are BRC and BRXC where the parallel-spin factor is not negative (C37_br_sign)."
  },
  {
   "property": "C38",
   "status": "proved",
   "theorems": [
    "C38_solver",
    "C38_solver_derivatives",
    "C38_hole_unique",
    "C38_energy",
    "C38_brx_accuracy",
    "C38_br_accuracy",
    "C38_br_relative"
   ],
   "note": "The solver over the reals: convergence by its own test within seven steps for every right-hand side, relative error at most 3e-15, exact derivatives (orders up to 6) of the inverse function at the returned point; unique solvability of the hole equation at every positive density; the energies of BRX, BRC and BRXC are the published ones up to a relative error of 4e-15 (1+x) in each hole potential, BRX to 1e-12 for hole parameters up to 100, and all three to 3e-12 of the sum of their terms (C38_br_accuracy), which is 3e-12 of the energy itself where the parallel-spin factor is not negative (C38_br_relative). Rounding of double arithmetic is not modelled."
  },
  {
   "property": "C39",
   "status": "proved",
   "theorems": [
    "C39_construct",
    "C39_raises",
    "C39_energy_n",
    "C39_energy_ab",
    "C39_potential_ab",
    "C39_potential_n_partial",
    "C39_third_column",
    "C39_one_point_rows",
    "C39_defined",
    "C39_closed_shell",
    "C39_potential_n_refuted",
    "C39_one_point_refuted",
    "C39_vars_refuted"
   ],
   "note": "Construction, exceptions, and the rows of all four evaluation functions for every functional, number of points and memory content. Three parts of the claim are false and refuted: eval_potential_n returns (n, 3) with the third column uninitialised instead of (n, 2) (C39_potential_n_partial proves the first two columns, C39_potential_n_refuted); xcfun_eval on a single point returns input_length rows of which only the first is written (C39_one_point_refuted); XC_N_GNN and XC_A_B_GAA_GAB_GBB have no name (C39_vars_refuted)."
  },
  {
   "property": "C40",
   "status": "proved",
   "theorems": [
    "C40_names",
    "C40_padded_rejected",
    "C40_padding_refuted",
    "C40_text_refuted",
    "C40_text_in_practice",
    "C40_round_trip_refuted",
    "C40_describe_terminated",
    "C40_describe_refuted",
    "C40_eval_vec"
   ],
   "note": "Names without blanks act as in C (C40_names); arrays of any shape (C40_eval_vec); where the accesses outside the text and the local variable do no harm the text arrives padded (C40_text_in_practice). Refuted: padded names are unknown (C40_padding_refuted), the text functions access memory outside their objects (C40_text_refuted), an enumerated name cannot be passed back (C40_round_trip_refuted), descriptions need a NUL the caller has to add (C40_describe_refuted, C40_describe_terminated)."
  },
  {
   "property": "C41",
   "status": "proved",
   "theorems": [
    "C41_between",
    "C41_monotone",
    "C41_cam_partition",
    "C41_ldaerfx_monotone_refuted"
   ],
   "note": "C41_between: short-range exchange (LDAERFX, BECKESRX) lies between the full functional (SLATERX, BECKEX) and zero, as numbers the library returns, approximations included. C41_monotone: BECKESRX weakens as RANGESEP_MU grows. C41_cam_partition: BECKECAMX is exactly (1 - alpha - beta) BECKEX + beta BECKESRX for all parameter values. C41_ldaerfx_monotone_refuted: LDAERFX is not monotone in mu, because the code switches from the formula to its leading term at mu/(2 kF) = 100."
  },
  {
   "property": "C42",
   "status": "proved",
   "theorems": [
    "C42_selftest_counts",
    "C42_selftest_safe",
    "C42_selftest_completes",
    "C42_nan_passes",
    "C42_selftest_detects_refuted",
    "C42_compatibility_refuted"
   ],
   "note": "C42_selftest_counts: for all reference numbers, with real arithmetic, xcfun_test returns the number of functionals whose output at their own test point is off by more than the threshold. C42_selftest_safe: never out of bounds and never ends the process, in any arithmetic. C42_selftest_completes: returns a count when the reference densities are ones the functionals are defined at. C42_nan_passes / C42_selftest_detects_refuted: a functional returning only NaN passes. C42_compatibility_refuted: the compatibility check answers yes whatever the header version."
  },
  {
   "property": "C43",
   "status": "proved",
   "theorems": [
    "C43_continuous",
    "C43_away_from_switches",
    "C43_pz81c_refuted",
    "C43_partial_derivatives",
    "C43_contracted",
    "C43_derivatives_at_densities",
    "C43_potential",
    "C43_potential_off_switches",
    "C43_brx_jump_bound",
    "C43_br_jump_bound",
    "C43_br_jump_size",
    "C43_derivatives_off_switches",
    "C43_contracted_off_switches"
   ],
   "note": "C43_continuous: any weighted sum of the 56 functionals that do not compare numbers, at every input where an energy is returned, regularised densities included. C43_away_from_switches: the same with 19 of the 22 functionals that branch (Becke family, PW91X, PW91K, PZ81C, P86C, LDAERFX, SCAN family), at every density above the threshold where none of their comparisons is met with equality. C43_partial_derivatives and C43_contracted: every partial derivative to order 3 and every contracted output, at all orders the library accepts, is continuous where the expressions are smooth; C43_derivatives_at_densities, C43_derivatives_off_switches and C43_contracted_off_switches discharge that at densities. C43_potential and C43_potential_off_switches: the same for every slot of potential mode. C43_pz81c_refuted: PZ81C jumps by more than 1e-6 at r_s = 1. C43_brx_jump_bound: the Becke-Roussel exchange energy, whose solver stops when a step is small, jumps by at most 3e-12 of itself (hole parameters below 100). C43_br_jump_bound: for BRX, BRC and BRXC, every energy close to a density is as close as desired to the published formula at that density with each hole potential changed by a relative 5e-15 (1 + x), so all jumps come from the early stop of the iteration; C43_br_jump_size: they are at most 6e-12 of the sum of the sizes of the terms (hole parameters up to 80). Not covered: jumps of derivatives of the Becke-Roussel functionals."
  }
 ]
}