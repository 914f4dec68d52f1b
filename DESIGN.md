# Formal model of dftlibs/xcfun in Rocq (Coq 8.16.1)

The sources in `/repo` were read as text; nothing was built or run.  The model
lives in `rocq/theories`; every definition that models code cites the file and
lines it models.

## 1. Approach

* **Scalars.**  The C++ code is a template over a scalar `T` (double).  The
  model is generic in a record `Ops` of scalar operations *without laws*
  (`Scalar.v`).  Theorems that need no arithmetic law are proved for every
  `Ops` (hence also for IEEE doubles); theorems about analysis are proved for
  the instance `ROps` over the Coq reals (exact arithmetic: rounding is not
  modelled; `M_PI` is the real PI; decimal literals are exact rationals).
* **Outcomes.**  `Ok`, `Die` (`xcfun::die`, process exit), `UB` (out-of-range
  table access and the like), `Dom` (an `assert` of the Taylor library fails /
  in a release build NaN or infinity: the code leaves the domain in which it
  computes a value).  Nothing undefined is silently totalised.
* **Uninitialised memory** is modelled by an arbitrary `junk` function that the
  theorems quantify over.
* **API layer** (`XCFunctional.cpp`, `xcint.cpp`): a state machine over a
  handle record; names are Coq strings, lookups are linear case-insensitive
  scans as in the code; tables are transcribed.
* **Taylor numbers** (`ctaylor<T,N>`): `ct N` = iterated pairs (low half, high
  half); functions mirror the template recursion with its specialisations for
  N = 0, 1, 2.  A second, memory-level model (cells and offsets) of the
  in-place routines is proved to refine it for disjoint operands.
* **Elementary expansions** (`tmath.hpp`): functions producing coefficient
  sequences; `None` where an assertion fails.
* **Functionals**: each C++ template function is transcribed to an abstract
  syntax tree (`expr`) whose operators correspond one-to-one to the overloaded
  C++ operators; one evaluator interprets it over `ct N` for any `Ops`.  The
  same tree is interpreted over plain reals (`RSem.v`, `Value.v`) and the two
  interpretations are proved to agree.
* **Evaluation** (`xcfun_eval`): the loops of the code, producing the list of
  `(slot, value)` writes in program order.

## 2. What is modelled, file by file

| source | model | notes |
|--------|-------|-------|
| `src/xcint.cpp`, `src/functionals/aliases.cpp`, `src/functionals/common_parameters.cpp`, the `FUNCTIONAL(...)` descriptors | `Tables.v` | names, descriptions as present/absent, dependency flags, test modes and sizes, alias terms, variable-set table |
| `src/XCFunctional.cpp` 100-491 (handles, set, get, eval_setup, user_eval_setup, which_vars, which_mode, lengths, enumerate, describe, is_gga, is_metagga, test) | `Api.v` | a handle is a record, calls are functions returning an outcome |
| `src/XCFunctional.cpp` 493-806 (eval in its three modes, eval_vec) | `Eval.v` | stores in program order; `int` offsets of eval_vec in `Props_Vec.v` |
| `src/densvars.hpp` | `Densvars.v` | one list of assignments per `case`, fall-through included |
| `src/functionals/*.cpp`, `*.hpp` | `Functionals.v`, `Br.v` | 78 energy expressions; the Newton solver of Becke-Roussel in `Br.v` |
| `external/upstream/taylor/ctaylor.hpp`, `ctaylor_math.hpp` | `CTaylor.v`, `CtMem.v`, `Expr.v` | arithmetic, composition, mixed operators, comparison operators on the constant term |
| `external/upstream/taylor/tmath.hpp` | `TMath.v` | expansions of all elementary functions |
| `python/export_xcfun.cpp`, `python/xcfun.py` | `Py.v` | arrays are a shape and C-contiguous elements; numpy broadcasting and dtype conversion are not modelled |
| `api/xcfun.f90` 262-292, 355-399, 470-484 | `F90.v` | names, texts and arrays; the remaining wrappers convert integers only |
| `src/XCFunctional.cpp` 74-129, `src/version_info.hpp` (self test, compatibility check) | `Selftest.v` | the reference numbers are parameters |
| lazy initialisation `xcint_assure_setup`, several handles, threads | `Conc.v` | interleaving semantics, sequentially consistent memory |

Not modelled: floating-point rounding; the text of messages and descriptions;
`xcfun_splash`, `xcfun_authors`, `xcfun_version`
(constant results); the numbers in the self-test reference arrays (their lengths are;
the theorems about the self test hold for every choice of the numbers); the build system; memory allocation
failure; stack depth; a weak memory model.  The generic multivariate `taylor<T,Nvar,Ndeg>` and
`polymul.hpp` are modelled only for the one-variable use in Becke-Roussel.

## 3. The files

* Model: `Scalar`, `Tables`, `Api`, `CTaylor`, `CtMem`, `TMath`, `Br`, `Expr`,
  `Functionals`, `Densvars`, `Eval`, `Conc`, `Py`, `F90`; scalar instances `RInst` (reals),
  `QInst` (rationals, Examples only).
* Specifications, independent of the model: `SpecApi` (history folds),
  `SpecEval` (graded multi-indices), `Phys` (densities and what the variable
  sets mean), `Published` (formulas of the literature), `Composition`
  (published mixtures), `CtConv` (subset convolution).
* Supporting proofs: `ApiProofs`, `ApiProofs2`, `CtAlg`, `CtMemR`, `Fps`,
  `TFam`, `TExp`, `Ad`, `Sem`, `AdEval`, `Layout`, `EvalSem`, `EvalR`,
  `EvalProps`, `Taint`, `EvalExt`, `EvalReal`, `EvalApi`, `RSem`, `EnergyR`,
  `Mk`, `EvalRel`, `VarsRel`, `PotSlots`, `EnergyLin`, `Dead`, `Smooth`, `Cont`, `ContS`,
  `Cont2`, `SmoothAway`, `ContR`, `ContR2`.
* Verified checkers on expressions: `Itv`/`Dom`/`Oblig`/`Safe`/`Safe2`/`Safe3`/`Pw92`/`Vwn` (domain
  analysis), `Sym` (equality up to commutativity, for spin exchange), `Homog`
  (degree under scaling), `Sep` (sum of one-spin parts), `Limit` (zero
  gradients), `Value` (reduction of a tree to a real formula).
* Comparison with the literature: `PubTac`, `PubX`, `PubC`, `PubM`, `PubS`,
  `PubS2`, `PubL`, `PolyB`, `PubZ`, `Pade`, `PubNear`, `LrPart`, `PubErf`, `PubR`, `Bounds`; the Becke-Roussel solver:
  `BrReal` (convergence), `BrInv` (derivatives of the inverse), `PubBr`.
* Property theorems: `Props_*.v`, each followed by `Print Assumptions`; the
  Examples beside them show that the hypotheses are met by non-trivial cases.

## 4. Method per property

| id | modelled by | proof |
|----|-------------|-------|
| C01 C02 C03 C04 C05 C17 | `Api.v` state machine | induction over call histories against a history-fold specification |
| C06 C25 | `Api.v` | case analysis against a declarative acceptance predicate |
| C07 | `Api.v`+`Eval.v` | refuted by accepted setups that die; exact characterisation otherwise |
| C08 C09 C28 | `Eval.v` write lists | induction over the loops, closed index formulas, binomials |
| C10 C11 C12 | `Eval.v`, `CTaylor`, `TMath`, `Expr` over R | relation between Taylor numbers and real functions of infinitesimals, induction on N; jets of elementary functions |
| C13 | potential branch | from the C10 machinery and the chain rule; refuted where the code deviates |
| C14 C15 C16 C30 | `Eval.v` | equational, for every `Ops` where no law is needed |
| C18 C19 C20 C21 | `Densvars.v` | algebra over R; relational runs; refutations by concrete densities |
| C22 | free variables of the trees | decision procedure on the tree proved sound |
| C23 C24 C29 | tables | finite computation lifted to all strings / indices |
| C26 C32 | `CTaylor.v`, `CtMem.v` | induction on N |
| C27 | `TMath.v` | differential recurrences of coefficient families |
| C31 | small-step interleaving model | invariant; refutation of the unsynchronised first call |
| C33 | `Dom.v`, `Oblig.v` | interval analysis of the trees, proved sound; what it leaves open is proved by hand (`Safe2.v`, `Safe3.v`, `Safe4.v`, `Scan2.v`, `Jt.v`, `Vwn.v`) |
| C34 | `Homog.v`, `Sep.v`, `Limit.v` | verified checkers |
| C35 C36 | `Value.v` against `Published.v`, `Composition.v` | real algebra on reduced formulas |
| C37 | `Bounds.v` | inequalities on the published formulas of C35 |
| C41 | `LrPart.v`, `PubErf.v` | monotonicity of the error-function bracket by repeated differentiation |
| C42 | `Selftest.v` | induction over the table of functionals; an arithmetic with NaN for the refutation |
| C43 | `Cont.v`, `ContS.v`, `Cont2.v`, `SmoothAway.v`, `ContR.v`, `ContR2.v` | induction on the expression trees with a filter of nearby inputs, coefficient by coefficient for derivatives |
| C38 | `Br.v`, `PubBr.v` | quadratic convergence of the Newton iteration from each of the four starting values; uniqueness of power-series inverses |
| C39 C40 | `Py.v`, `F90.v` | reduction to C08, C14 and C18; induction over the copied characters |

The formulas in `Published.v` and the compositions in `Composition.v` were
written from the publications cited there, as known to the author of the
model; there was no network access to consult them.  Constants that the code
carries in rounded form (VWN's 1.92366105093154, the k_F constant of LDAERFX, 2^(5/3) of the
Minnesota functionals, the B97 exchange prefactor, the 2^-52 under the root of
P86) are rounded in the same way in the specification; each occurrence is
marked there.

## 5. Findings

Behaviour of the code that contradicts what a user would expect.  Those with
a theorem name are proved about the model.

API
* `xcfun_eval_setup` accepts modes UNSET and NR_MODES, partial derivatives of
  order 4 and ten variable sets for which `xcfun_eval` ends the process
  (`C07_setup_supported_refuted`); a variable-set number outside the table is
  undefined behaviour (`C06_vars_not_validated_refuted`); functionals added after
  setup are not revalidated (`C06_setup_not_revalidated_refuted`).
* `xcfun_output_length` in potential mode is 3 for sets of length 1 and 10
  although two numbers are written (`C08_potential_length_refuted`); it ends the
  process in contracted mode; `xcfun_input_length` ignores the 2^order factor of
  contracted mode.
* `xcfun_enumerate_parameters` with a negative index is undefined behaviour
  (`C23_enumerate_negative_refuted`); the aliases tfk, tw, PBEX, OPTX can never be
  reached (`C23_alias_shadowed_refuted`).
* Aliases multiply parameter values by the weight; two aliases with different
  parameter values do not commute (`C17_conflicting_parameter_refuted`).
* "m06" and "m06-2x" leave the exact-exchange coefficient at 0
  (`C36_m06_refuted`).  The texts of "kt1", "vwn3" and "b3p86" name other functionals.
* Row offsets of `xcfun_eval_vec` are computed in `int`
  (`C14_offset_overflow_refuted`).
* The lazy initialisation is unsynchronised (`C31_first_calls_race_refuted`,
  `C31_late_initialiser_refuted`).

Python and Fortran
* `eval_potential_n` returns an array of shape (n, 3), not (n, 2), whose third column is
  uninitialised memory (`C39_potential_n_refuted`); `xcfun_eval` on one point returns as many
  rows as there are input variables, of which one is written (`C39_one_point_refuted`).
* XC_N_GNN and XC_A_B_GAA_GAB_GBB are not exported to Python (`C39_vars_refuted`).
* Fortran: a blank-padded name is unknown (`C40_padding_refuted`), so names obtained by
  enumeration have to be trimmed (`C40_round_trip_refuted`).  Every text function reads past the
  end of the C text, writes one character past its local variable, and dereferences a null
  pointer when there is no text (`C40_text_refuted`).  The description functions pass the name
  without a terminating NUL (`C40_describe_refuted`).

Density variables
* XC_A and XC_A_GAA never assign the alpha density (`C18_a_refuted`); XC_N_S and
  XC_N_S_GNN_GNS_GSS(_TAUN_TAUS) use a = n+s, b = n-s without the factor 1/2
  (`C18_n_s_refuted`); XC_N_2ND_TAYLOR falls through into the kinetic-energy case.
* Regularisation replaces the constant term only and keeps the derivative coefficients
  (`C21_below_is_threshold` states this exactly).  The (n,s) component sets
  regularise n but not the polarisation (`C21_polarised_n_s_refuted`).
* In potential mode with density-only functionals and a set that carries
  gradients the second slot is wrong (`C13_second_slot_refuted`).

Functionals
* TW squares |grad n|^2 (`C35_tw_refuted`, `C34_tw_scaling_refuted`) and is
  undefined at zero gradient (`C33_tw_zero_gradient_refuted`).
* SCAN exchange and correlation interpolate with exp(-c1 a/(1-a)) for a < 1 and exp(c2/(1-a))
  otherwise: at iso-orbital indicator a exactly 1 they divide by zero
  (`C33_scan_refuted`, SCAN_like_eps.hpp 166-174).
* TFK uses the total density only (`C34_tfk_spin_scaling_refuted`).
* REVTPSSX declares no kinetic energy density but divides by it
  (`C22_revtpssx_refuted`, `C13_revtpssx_refuted`).  It differs from revTPSS exchange in two
  places: |grad n|^2 is taken out of a square root leaving p^2 where
  p^2/|grad n|^4 belongs, and the denominator is not squared (`C35_revtpssx_refuted`).  As a
  result its argument can reach -kappa, where it divides by zero, at a density
  that meets every physical requirement (`C33_revtpssx_refuted`).
* REVTPSSC has the square of tau_W/tau where revTPSS has the cube; its energy is too high
  wherever 0 < tau_W < tau (`C35_revtpssc_refuted`).
* SPBEC has the values of beta and gamma exchanged, and beta/gamma for gamma in the
  exponent; its energy is too low for small gradients (`C35_spbec_refuted`).
* LDAERFX switches from the formula to its leading term at mu/(2 kF) = 100; the energy jumps there, so
  the short-range energy is not monotone in mu (`C41_ldaerfx_monotone_refuted`).
* CSC has all four Colle-Salvetti parameters equal to 1.0 (`C35_csc_refuted`).
* ZVPBESOLC and ZVPBEINTC are undefined at zero gradient.  They replace |zeta|^(9/2) by a
  polynomial in zeta fitted to about 3e-4, so they are close to the published functionals and equal
  to them only for closed shells (`C35_zv_close`, `C35_zv_refuted`).
* PZ81C is discontinuous at r_s = 1: the parameters published for the two density ranges do not
  match, and the energy jumps by about 8e-6 (`C43_pz81c_refuted`).
* BTK adds 1e-24 to the squared gradients; a uniform density has a positive energy where the
  formula gives zero (`C35_btk_close`, `C35_btk_refuted`).
* SCAN exchange compares dimensional quantities with fixed thresholds; KTX and BTK contain
  dimensional constants.

Self test
* `xcfun_test` compares with `>`, which is false for NaN: a functional that returns NaN everywhere
  passes (`C42_nan_passes`, `C42_selftest_detects_refuted`).  45 of the 78 functionals carry no test.
* `xcfun_is_compatible_library` compares the library's version with itself and answers yes
  whatever header the host was compiled with (`C42_compatibility_refuted`).

Taylor library
* `x *= x` is wrong from three variables on (`C26_aliased_refuted`).
* `asin`, `acos` expansions are wrong (`C27_asin_refuted`, `C27_acos_refuted`), as
  is `acosh`; `compose` supports degree at most 6 (`C27_compose_limit`).  None of
  these is used by the functionals.
* The rational approximation in `sqrtx_asinh_sqrtx` deviates from the function by at most
  4e-12 x (`sqas_close` in `Pade.v`); its derivatives are those of the
  approximation, not of the function.

## 6. Checking the theorems against wrong programs

`seeded/LOG.jsonl` records edits of the model that a realistic bug would make, made in a scratch
copy, with the lemmas and theorems that no longer compile.  Edits that no theorem noticed led
to new or tightened theorems, named in the record.

## 7. Trusted base

* Coq 8.16.1's kernel (and `coqchk`), the virtual machine (`vm_compute` is used in
  proofs by computation).
* The transcription of the C++ code into the definitions cited above, and the
  reading of the C++ semantics described in sections 1 and 2.
* The axioms of the standard library that `Print Assumptions` lists beneath each
  property theorem; no axiom is declared here.  By theorem:

* no axioms (closed under the global context): `C01_weights_accumulate`, `C01_writes_defined`, `C01_set_histories_run`, `C02_parameters_last_write`, `C03_unknown_rejected`, `C03_case_insensitive`, `C04_alias_is_terms`, `C04_recursion_bounded`, `C05_active_invariant`, `C06_setup_exact`, `C06_setup_code_unique`, `C06_vars_not_validated_refuted`, `C06_setup_not_revalidated_refuted`, `C23_enumerate_parameters`, `C23_names_unique`, `C23_enumerate_aliases`, `C23_alias_terms_resolve`, `C23_enumerate_negative_refuted`, `C23_alias_shadowed_refuted`, `C24_describe_known`, `C25_which_vars_sound`, `C25_which_vars_injective`, `C25_which_vars_onto`, `C25_user_eval_setup`, `C28_taylorlen_binomial`, `C29_selftest_in_bounds`, `C30_handles_independent`, `C30_failures_are_local`, `C30_cold_start`, `C31_after_completed_call`, `C31_first_calls_race_refuted`, `C31_late_initialiser_refuted`, `C30_cold_start_completes`, `C26_functional_model_refined`, `C09_enumeration`, `C09_slot_numbers`, `C07_eval_dies_exactly`, `C07_setup_supported_refuted`, `C08_partial_writes_output_length`, `C08_contracted_writes`, `C08_potential_writes`, `C08_potential_length_refuted`, `C08_reads_input_length`, `C15_evaluation_pure`, `C40_names`, `C40_padded_rejected`, `C40_padding_refuted`, `C40_text_refuted`, `C40_text_in_practice`, `C40_round_trip_refuted`, `C40_describe_terminated`, `C40_describe_refuted`, `C40_eval_vec`, `C39_construct`, `C39_raises`, `C39_energy_n`, `C39_energy_ab`, `C39_potential_ab`, `C39_potential_n_partial`, `C39_third_column`, `C39_one_point_rows`, `C42_selftest_safe`, `C42_nan_passes`, `C42_selftest_detects_refuted`, `C42_compatibility_refuted`, `C22_declared_sound`, `C22_setup_sound`, `C14_pointwise`, `C14_disjoint_rows`, `C14_outcome`

* `ClassicalDedekindReals.sig_forall_dec`, `FunctionalExtensionality.functional_extensionality_dep`: `C34_scaled_inputs`, `C20_exchange_is_exchange`

* `ClassicalDedekindReals.sig_forall_dec`, `ClassicalDedekindReals.sig_not_dec`, `Classical_Prop.classic`, `FunctionalExtensionality.functional_extensionality_dep`: `C36_composition`, `C36_energy`, `C36_m06_refuted`, `C36_b88x_is_beckex`, `C36_optx_shadowing`, `C37_exchange_enhancement`, `C37_exchange_sign`, `C37_correlation_between`, `C37_kinetic_positive`, `C37_exchange_attractive`, `C38_solver`, `C38_solver_derivatives`, `C38_hole_unique`, `C38_energy`, `C38_brx_accuracy`, `C43_continuous`, `C43_away_from_switches`, `C43_pz81c_refuted`, `C43_partial_derivatives`, `C43_contracted`, `C43_derivatives_at_densities`, `C43_potential`, `C43_potential_off_switches`, `C26_mul_accumulate`, `C26_mul_fresh`, `C26_mul_inplace`, `C26_mul_inplace_skipconst`, `C26_aliased_small`, `C26_aliased_refuted`, `C32_commutative_ring`, `C32_product_is_convolution`, `C32_operators_consistent`, `C32_division`, `C32_scalar_division`, `C32_integer_power`, `C18_equivalent_variables`, `C18_n_s_refuted`, `C18_a_refuted`, `C33_partial_defined`, `C33_contracted_defined`, `C33_potential_defined`, `C33_tw_zero_gradient_refuted`, `C33_scan_refuted`, `C09_partial_layout`, `C10_partial_derivatives`, `C11_contracted_derivatives`, `C12_order_independent`, `C12_contracted_energy`, `C34_gas_exchange`, `C34_corrections_vanish`, `C34_local_correlation`, `C16_linear_in_weights`, `C16_mixture_defined`, `C16_component_exists`, `C17_order_irrelevant`, `C17_conflicting_parameter_refuted`, `C13_functional_derivative`, `C13_density_only`, `C35_published_energy`, `C35_published_value`, `C35_tw_refuted`, `C35_published_close`, `C35_revtpssc_refuted`, `C35_spbec_refuted`, `C35_csc_refuted`, `C35_revtpssx_refuted`, `C33_revtpssx_refuted`, `C35_zv_close`, `C35_zv_refuted`, `C35_btk_close`, `C35_btk_refuted`, `C39_defined`, `C39_closed_shell`, `C39_potential_n_refuted`, `C39_one_point_refuted`, `C39_vars_refuted`, `C41_between`, `C41_monotone`, `C41_cam_partition`, `C41_ldaerfx_monotone_refuted`, `C35_ldaerfx_close`, `C21_below_is_threshold`, `C21_spin_densities`, `C21_positive_densities`, `C21_every_density_defined`, `C21_polarised_n_s_refuted`, `C19_energy_invariant`, `C19_derivatives_invariant`, `C34_exchange_scaling`, `C34_kinetic_scaling`, `C34_spin_scaling`, `C34_tw_scaling_refuted`, `C34_tfk_spin_scaling_refuted`, `C42_selftest_counts`, `C42_selftest_completes`, `C10_at_densities`, `C11_at_densities`, `C13_at_densities`, `C13_revtpssx_refuted`, `C13_second_slot_refuted`, `C10_off_switches`, `C11_off_switches`, `C13_off_switches`, `C43_derivatives_off_switches`, `C43_contracted_off_switches`, `C20_energy_symmetric`, `C20_density_symmetric`, `C20_derivatives_symmetric`, `C20_partial_derivatives`, `C20_first_derivatives`, `C27_inv`, `C27_exp`, `C27_log`, `C27_pow`, `C27_sqrt`, `C27_cbrt`, `C27_gauss`, `C27_erf`, `C27_sin`, `C27_cos`, `C27_atan`, `C27_asinh`, `C27_shift`, `C27_pade`, `C27_compose_limit`, `C27_asin_refuted`, `C27_acos_refuted`, `C22_unused_inputs`, `C22_revtpssx_refuted`, `C14_offset_overflow_refuted`, `C43_brx_jump_bound`, `C43_br_jump_bound`, `C38_br_accuracy`, `C38_br_relative`, `C37_br_sign`, `C43_br_jump_size`

