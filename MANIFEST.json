{
 "claims": [
  {
   "property": "C01",
   "status": "proved",
   "theorems": [
    "C01_order_bijection"
   ],
   "note": "Python order generator, every angular momentum; fuel is any bound >= number of components (no exhaustion)."
  },
  {
   "property": "C02",
   "status": "proved",
   "theorems": [
    "C02_psi4_table",
    "C02_gamess_table",
    "C02_psi4_table_is_python_output"
   ],
   "note": "Finite domain: the shipped tables end at am 24; checked by computation and lifted."
  },
  {
   "property": "C03",
   "status": "proved",
   "theorems": [
    "C03_runtime_table",
    "C03_table_generator",
    "C03_table_fits_fields"
   ],
   "note": "Shipped table (am <= 18) and the generator of the table for every am."
  },
  {
   "property": "C04",
   "status": "proved",
   "theorems": [
    "C04_psi4_orders_agree",
    "C04_gamess_orders_refuted",
    "C04_gamess_differs_exactly_for_d_and_f"
   ],
   "note": "Psi4 order agrees; GAMESS order refuted (d and f shells)."
  },
  {
   "property": "C05",
   "status": "proved",
   "theorems": [
    "C05_hash_injective",
    "C05_hash_256_refuted"
   ],
   "note": "Injective below 256; the documented bound 256 itself is refuted."
  },
  {
   "property": "C06",
   "status": "proved",
   "theorems": [
    "C06_quartet_positions",
    "C06_quartet_targets"
   ],
   "note": "For every ordering record; Psi4 and GAMESS are instances."
  },
  {
   "property": "C07",
   "status": "proved",
   "theorems": [
    "C07_hrr_step"
   ],
   "note": "Every doublet, both directions of each side, every commutative ring."
  },
  {
   "property": "C08",
   "status": "proved",
   "theorems": [
    "C08_hrr_plan"
   ],
   "note": "Every request list and direction pair; the iteration order of std::set is arbitrary (any duplicate-free enumeration)."
  },
  {
   "property": "C09",
   "status": "proved",
   "theorems": [
    "C09_hrr_code",
    "C09_gamess_table_driven_refuted"
   ],
   "note": "Plan plus emitted statements in inline, external and table-driven form; indeterminate entries tracked. Refuted for the table-driven form with the GAMESS order."
  },
  {
   "property": "C10",
   "status": "proved",
   "theorems": [
    "C10_general_I",
    "C10_general_J",
    "C10_general_K",
    "C10_general_L"
   ],
   "note": "All four routines, am up to the end of the table (18), any spectator sizes; reads outside a block give None."
  },
  {
   "property": "C11",
   "status": "proved",
   "theorems": [
    "C11_vrr_step"
   ],
   "note": "Every function, quartet, order; every commutative ring."
  },
  {
   "property": "C12",
   "status": "proved",
   "theorems": [
    "C12_vrr_plan",
    "C12_default_order"
   ],
   "note": "Every set of whole classes and every preference order covering the four centres; std::set order arbitrary."
  },
  {
   "property": "C13",
   "status": "proved",
   "theorems": [
    "C13_aux_orders"
   ],
   "note": "vrrmreq_max_ covers every order read, and is bounded by total momentum."
  },
  {
   "property": "C14",
   "status": "proved",
   "theorems": [
    "C14_vrr_code",
    "C14_gamess_table_driven_refuted",
    "C14_two_sided_routine_refuted"
   ],
   "note": "Whole vertical part of a kernel: in-line, separate-routine and table-driven classes, indeterminate memory outside (ss|ss). Table-driven with GAMESS order refuted; routines for two-sided classes shown never to return."
  },
  {
   "property": "C15",
   "status": "proved",
   "theorems": [
    "C15_general_vrr",
    "C15_general_vrr1"
   ],
   "note": "All four routines with dispatch to the fast paths, and vrr1; am up to the end of the table (18); access through NULL or outside an array gives None."
  },
  {
   "property": "C16",
   "status": "proved",
   "theorems": [
    "C16_fast_path"
   ],
   "note": "Same writes and same failures for every input meeting the dispatch condition."
  },
  {
   "property": "C17",
   "status": "proved",
   "theorems": [
    "C17_constants_declared",
    "C17_routine_constants"
   ],
   "note": "Constants and variables, in kernels and in separate routines."
  },
  {
   "property": "C18",
   "status": "proved",
   "theorems": [
    "C18_plan",
    "C18_disjoint",
    "C18_places",
    "C18_aligned",
    "C18_cleared",
    "C18_cleared_applies"
   ],
   "note": "Place of every scratch element for the plan of any class and any vector length: injective, inside the size used, vectors aligned; the memset clears exactly the batch arrays."
  },
  {
   "property": "C19",
   "status": "proved",
   "theorems": [
    "C19_workspace",
    "C19_served",
    "C19_memset",
    "C19_ssss"
   ],
   "note": "Table of create.py for any maximum and permutation option; covers generated, permuted and the replaced (ss|ss) kernel. The modelled plans reproduce the shipped numbers for maximum 0 and 1."
  },
  {
   "property": "C20",
   "status": "proved",
   "theorems": [
    "C20_lane_slot",
    "C20_empty_pair_refuted"
   ],
   "note": "Exact contract: every shell pair needs at least one primitive; witness that an empty pair breaks it."
  },
  {
   "property": "C21",
   "status": "proved",
   "theorems": [
    "C21_contract",
    "C21_contract_fac",
    "C21_contract_fac_scalar",
    "C21_contract_all"
   ],
   "note": "All contract, contract_fac and contract_all forms, including the AVX hadd and AVX512 transposed blocks. Order of additions (rounding) not modelled."
  },
  {
   "property": "C22",
   "status": "proved",
   "theorems": [
    "C22_contracted_sum",
    "C22_contracted_sum_hrr"
   ],
   "note": "Loop nest with and without HRR; per-vector work is a parameter, its vanishing for zero prefactor is proved for the VRR code (vrr_zero). Holds when bra groups are vector aligned (C23)."
  },
  {
   "property": "C23",
   "status": "proved",
   "theorems": [
    "C23_bra_start",
    "C23_unaligned_bra_refuted"
   ],
   "note": "Iff condition on positions, plus a computed run of the kernel model giving a wrong value when it fails."
  },
  {
   "property": "C24",
   "status": "proved",
   "theorems": [
    "C24_screening",
    "C24_screening_hrr"
   ],
   "note": "Screen values rational; both vector_max forms."
  },
  {
   "property": "C25",
   "status": "proved",
   "theorems": [
    "C25_call",
    "C25_unscreened",
    "C25_later_call_refuted"
   ],
   "note": "skel/ostei_s_s_s_s.c: the hand-written (ss|ss) kernel returns, for the screen array it is given, the same sums as the generated loop nest; without screening it is the full sum of all quartets; it overwrites the ket screen array past the clip, so a second call on the same shell pair data can lose integrals (C25_later_call_refuted)."
  },
  {
   "property": "C26",
   "status": "proved",
   "theorems": [
    "C26_dropped",
    "C26_dropped_plain",
    "C26_factor",
    "C26_same_shell_refuted"
   ],
   "note": "Exact contract: a dropped quartet contributes less than tol times the packing factors; without same-shell packing less than tol. Witness that packing breaks the plain bound. The Schwarz inequality itself is a hypothesis (analysis not modelled)."
  },
  {
   "property": "C27",
   "status": "proved",
   "theorems": [
    "C27_alloc",
    "C27_disjoint",
    "C27_inside",
    "C27_all_written"
   ],
   "note": "Allocation length, disjointness of all arrays in the one block, writes inside; complete initialisation under the fitting condition of C31."
  },
  {
   "property": "C28",
   "status": "proved",
   "theorems": [
    "C28_layout",
    "C28_counts"
   ],
   "note": "Whole create/fill routine, each screening method, with and without derivative arrays; values symbolic."
  },
  {
   "property": "C29",
   "status": "proved",
   "theorems": [
    "C29_value",
    "C29_derivative"
   ],
   "note": "Over any commutative ring; exp and inverse are parameters."
  },
  {
   "property": "C30",
   "status": "proved",
   "theorems": [
    "C30_sort"
   ],
   "note": "Quicksort with scan loops and the per-pair driver; all arrays permuted together."
  },
  {
   "property": "C31",
   "status": "proved",
   "theorems": [
    "C31_fits",
    "C31_outside",
    "C31_single",
    "C31_overrun_refuted"
   ],
   "note": "Exact condition for staying inside, and a computed overrun for two one-primitive pairs."
  },
  {
   "property": "C32",
   "status": "proved",
   "theorems": [
    "C32_single",
    "C32_general",
    "C32_two_pairs_refuted"
   ],
   "note": "True for inputs of one pair each; what is copied in general; witness that a two-pair input copies the first pair's primitives twice."
  },
  {
   "property": "C33",
   "status": "proved",
   "theorems": [
    "C33_nprim"
   ],
   "note": "Result is the previous count of the output plus the sum: correct exactly when the output starts from 0."
  },
  {
   "property": "C34",
   "status": "proved",
   "theorems": [
    "C34_copy",
    "C34_overread",
    "C34_overread_refuted"
   ],
   "note": "Copy correct when the source memory is large enough; over-read otherwise, with witness."
  },
  {
   "property": "C35",
   "status": "proved",
   "theorems": [
    "C35_run",
    "C35_fresh",
    "C35_grow",
    "C35_free_all"
   ],
   "note": "Any sequence of proper operations; double free, leaks and foreign writes excluded by the invariant."
  },
  {
   "property": "C36",
   "status": "proved",
   "theorems": [
    "C36_iff",
    "C36_distinct",
    "C36_moved_copy_refuted"
   ],
   "note": "Exact condition and a witness where two different shells sharing storage are treated as the same."
  },
  {
   "property": "C37",
   "status": "proved",
   "theorems": [
    "C37_filled",
    "C37_concatenated"
   ],
   "note": "The initial 1e99 makes the exit unreachable for filled and concatenated pairs."
  },
  {
   "property": "C38",
   "status": "proved",
   "theorems": [
    "C38_identities"
   ],
   "note": "Over any commutative ring with the inverse of the exponent sum."
  },
  {
   "property": "C39",
   "status": "proved",
   "theorems": [
    "C39_pair_data",
    "C39_requested_order",
    "C39_special"
   ],
   "note": "The called kernel is abstract (whatever leaves the integrals of its class for the exchanged pairs); the pair data and the reordering loops are modelled statement by statement."
  },
  {
   "property": "C40",
   "status": "proved",
   "theorems": [
    "C40_one_kernel",
    "C40_filled"
   ],
   "note": "The functions defined by the generated sources are exactly those of all classes up to the maximum, each once, and each permuted function is in the source of the function it calls; every table entry of a build of lower maximum is defined by a source of that build."
  },
  {
   "property": "C41",
   "status": "proved",
   "theorems": [
    "C41_lists",
    "C41_closed",
    "C41_derivatives",
    "C41_derivatives_refuted"
   ],
   "note": "File lists as references to one dictionary: contents characterised exactly; without derivatives closed under calls; with derivatives all kernels and what they call are there, and a refutation for every L shows the routine a permuted vertical routine calls is missing when routines of total 2L+1 are separate."
  },
  {
   "property": "C42",
   "status": "proved",
   "theorems": [
    "C42_invariance",
    "C42_coefficients",
    "C42_kernel"
   ],
   "note": "Rounding not modelled. Invariance is derived from the recurrence and the coefficient formulas of the kernel, not assumed; the primitive integrals are any family obeying the recurrence."
  },
  {
   "property": "C43",
   "status": "proved",
   "theorems": [
    "C43_positions",
    "C43_formula",
    "C43_in_hrr_loop",
    "C43_output_separate",
    "C43_permuted",
    "C43_gamess_refuted"
   ],
   "note": "Formation loop, output positions and permuted reordering modelled statement by statement; exact for the standard order and momenta up to 18 (the table); refuted for the GAMESS order. The formula itself is checked against evaluation with (value, derivative) pairs."
  },
  {
   "property": "C44",
   "status": "proved",
   "theorems": [
    "C44_in_row",
    "C44_split",
    "C44_past_row",
    "C44_past_factors",
    "C44_past_table",
    "C44_classes",
    "C44_every_class_refuted"
   ],
   "note": "Exact contract: in-row up to order 24, undefined from 25 on below the switch-over point; refuted for classes beyond total 24."
  },
  {
   "property": "C45",
   "status": "proved",
   "theorems": [
    "C45_recursion",
    "C45_series",
    "C45_error"
   ],
   "note": "Exact arithmetic; exp(-x) is a parameter."
  },
  {
   "property": "C46",
   "status": "proved",
   "theorems": [
    "C46_table",
    "C46_family",
    "C46_transpose",
    "C46_integrals"
   ],
   "note": "Any commutative ring; every angular momentum for the tables, up to 18 (length of the shipped table) for the contracted integrals; 1/x, sqrt, exp are arbitrary functions."
  },
  {
   "property": "C47",
   "status": "proved",
   "theorems": [
    "C47_table",
    "C47_integrals",
    "C47_exchange"
   ],
   "note": "As C46; hypotheses: half+half=1 and 1/(a+b) is the inverse."
  },
  {
   "property": "C48",
   "status": "proved",
   "theorems": [
    "C48_scratch",
    "C48_scratch_determined_refuted",
    "C48_integrals",
    "C48_family",
    "C48_exchange"
   ],
   "note": "Any initial contents, including indeterminate ones; shows also that indeterminate elements are computed with, and that the output equals the recurrence's integrals."
  },
  {
   "property": "C49",
   "status": "proved",
   "theorems": [
    "C49_arrays",
    "C49_arrays_defined",
    "C49_split",
    "C49_steps",
    "C49_parameters",
    "C49_functions",
    "C49_functions_defined",
    "C49_files",
    "C49_files_nocase",
    "C49_files_nocase_refuted",
    "C49_derivatives",
    "C49_derivatives_s_refuted",
    "C49_derivatives_used"
   ],
   "note": "Momenta are Z; reading amchar outside its 60 letters and NUL is None. Refuted parts: amchar[-1] for derivative classes with an s function; files on case-insensitive file systems."
  },
  {
   "property": "C50",
   "status": "proved",
   "theorems": [
    "C50_numbers",
    "C50_common",
    "C50_programs",
    "C50_following_refuted"
   ],
   "note": "std::stoi modelled on strings (white space, sign, digits, range of int). Refuted part: a path equal to a common option name."
  },
  {
   "property": "C51",
   "status": "proved",
   "theorems": [
    "C51_simd_round",
    "C51_simd_round_nat"
   ],
   "note": "Mask formula for every power of two."
  },
  {
   "property": "C52",
   "status": "proved",
   "theorems": [
    "C52_kernel_calls",
    "C52_generated",
    "C52_arguments",
    "C52_hrr",
    "C52_hrr_arguments"
   ],
   "note": "The log lines are exactly the calls of separate routines; the generated set is closed under calls; arrays and variables of caller and callee agree and the call runs correctly; horizontal routines are generated with the right side and direction."
  },
  {
   "property": "C53",
   "status": "proved",
   "theorems": [
    "C53_entries",
    "C53_split"
   ],
   "note": "Rational arguments, exact arithmetic; the limit is stated through partial sums of the power series, so no real-number axioms are used. Table check by interval arithmetic inside Coq (vm_compute)."
  },
  {
   "property": "C54",
   "status": "proved",
   "theorems": [
    "C54_factors",
    "C54_accuracy_refuted",
    "C54_low_orders"
   ],
   "note": "Refuted for high orders by witness; factors checked."
  },
  {
   "property": "C55",
   "status": "proved",
   "theorems": [
    "C55_kernels",
    "C55_vrr",
    "C55_hrr"
   ],
   "note": "Paths are any string ending in .c/.h as create.py builds them."
  },
  {
   "property": "C56",
   "status": "proved",
   "theorems": [
    "C56_fill",
    "C56_shipped",
    "C56_dispatch",
    "C56_build_refuted",
    "C56_before_init_refuted"
   ],
   "note": "Functions represented by names; the two shipped filling files are copied into InitData.v. Dispatch above momentum 7, second derivatives and calls before simint_init are refuted by theorem."
  },
  {
   "property": "C57",
   "status": "proved",
   "theorems": [
    "C57_exists",
    "C57_value",
    "C57_exchange",
    "C57_horizontal",
    "C57_linear"
   ],
   "note": "Shows that the hypothesis os_family of the recurrence theorems is satisfiable for all coefficients and start values, with one solution."
  },
  {
   "property": "C58",
   "status": "proved",
   "theorems": [
    "C58_kernel_integrals",
    "C58_created",
    "C58_screened",
    "C58_terms",
    "C58_defined"
   ],
   "note": "A whole kernel from the creation of the shell-pair batches to contracted integrals, with and without screening; rounding not modelled"
  },
  {
   "property": "C59",
   "status": "proved",
   "theorems": [
    "C59_create"
   ],
   "note": "Allocation, filling and sorting together; every array read back"
  },
  {
   "property": "C60",
   "status": "proved",
   "theorems": [
    "C60_repulsive_real",
    "C60_schwarz_real",
    "C60_diagonal_real",
    "C60_error_real",
    "C60_skipped_real",
    "C60_fast_value_real",
    "C60_fast_real_refuted",
    "C60_primscreen",
    "C60_shellscreen",
    "C60_buffer",
    "C60_shell_bound",
    "C60_error",
    "C60_skipped",
    "C60_fast_value",
    "C60_fast_refuted",
    "C60_shell_fast_refuted"
   ],
   "note": "Nonnegative energy of charge combinations is a hypothesis about the external functions in Prop_Screen.v and proved for the real ones in Prop_RealScreen.v (C60_repulsive_real); the fast values are refuted as bounds for every choice of external functions meeting the stated identities."
  },
  {
   "property": "C61",
   "status": "proved",
   "theorems": [
    "C61_normalized",
    "C61_table_error",
    "C61_positive",
    "C61_norm_positive",
    "C61_distinct",
    "C61_zero_norm",
    "C61_primitive",
    "C61_scale",
    "C61_domain",
    "C61_list",
    "C61_again_one",
    "C61_again",
    "C61_again_refuted"
   ],
   "note": "Norm proved positive exactly for shells other than the zero function; rounding not modelled. Momentum above 20 and a second normalisation refuted."
  },
  {
   "property": "C62",
   "status": "proved",
   "theorems": [
    "C62_pi",
    "C62_two_pi_52",
    "C62_sqrt_two_pi_52",
    "C62_sqrt_two_times_pi_52",
    "C62_norm_fac",
    "C62_longfac"
   ],
   "note": "Exact rational literals against the real numbers of the standard library; conversion of a literal to double not modelled."
  },
  {
   "property": "C63",
   "status": "proved",
   "theorems": [
    "C63_entries",
    "C63_split",
    "C63_accuracy_refuted",
    "C63_recursion"
   ],
   "note": "Against the Riemann integral of the standard library; arithmetic exact apart from the library square root and exponential, which are assumed good to 1e-15. pow is assumed consistent with the square root (pow_sqrt_ok)."
  },
  {
   "property": "C64",
   "status": "proved",
   "theorems": [
    "C64_derivatives",
    "C64_created",
    "C64_screened",
    "C64_terms",
    "C64_defined"
   ],
   "note": "From the shells to the output array, for any commutative ring with inverses of the exponent sums. Rounding is not modelled."
  },
  {
   "property": "C65",
   "status": "proved",
   "theorems": [
    "C65_boys",
    "C65_derivative",
    "C65_kernel"
   ],
   "note": "Proved with the real functions of the standard library; C65_kernel composes with C64."
  },
  {
   "property": "C66",
   "status": "proved",
   "theorems": [
    "C66_deriv_error_refuted"
   ],
   "note": "Refuted by a closed-form witness, C66_deriv_error_refuted."
  },
  {
   "property": "C67",
   "status": "proved",
   "theorems": [
    "C67_unique",
    "C67_exists",
    "C67_kernel"
   ],
   "note": "Proved; the kernel part composes with C58."
  },
  {
   "property": "C68",
   "status": "proved",
   "theorems": [
    "C68_reference",
    "C68_integrals",
    "C68_derivatives",
    "C68_derivatives_refuted",
    "C68_test",
    "C68_test_derivatives"
   ],
   "note": "rounding and reading the basis file are left out"
  },
  {
   "property": "C69",
   "status": "proved",
   "theorems": [
    "C69_unmarked",
    "C69_exact",
    "C69_nan_refuted",
    "C69_zero_refuted",
    "C69_separate_refuted"
   ],
   "note": ""
  },
  {
   "property": "C70",
   "status": "proved",
   "theorems": [
    "C70_components",
    "C70_places",
    "C70_places_refuted"
   ],
   "note": ""
  },
  {
   "property": "C71",
   "status": "proved",
   "theorems": [
    "C71_short",
    "C71_long",
    "C71_orders_refuted"
   ],
   "note": "rounding of long double is left out"
  },
  {
   "property": "C72",
   "status": "proved",
   "theorems": [
    "C72_index",
    "C72_packed"
   ],
   "note": "the computation of one shell quartet is an argument; int overflow is left out"
  },
  {
   "property": "C73",
   "status": "proved",
   "theorems": [
    "C73_round_trip",
    "C73_newline_refuted",
    "C73_count_refuted",
    "C73_letters",
    "C73_letters_refuted",
    "C73_sizes",
    "C73_sizes_one",
    "C73_threads",
    "C73_threads_refuted"
   ],
   "note": "Token-level model of gen_mol.py and ReadBasis; round trip for all geometries and basis set files; sizes from FindMaxParams; four refutations."
  },
  {
   "property": "C74",
   "status": "proved",
   "theorems": [
    "C74_runs",
    "C74_scalar",
    "C74_vector_refuted",
    "C74_counted",
    "C74_saved"
   ],
   "note": "Complete for the counting loops; the screening values are inputs. The refuted statement is that the program ends in vectorised builds."
  },
  {
   "property": "C75",
   "status": "proved",
   "theorems": [
    "C75_shell",
    "C75_pair",
    "C75_arrays",
    "C75_arrays_refuted",
    "C75_prefac_refuted",
    "C75_prototypes",
    "C75_worksize",
    "C75_create2",
    "C75_create2_refuted",
    "C75_intents"
   ],
   "note": "Layouts for all machines; the skipping of preprocessor lines and the copy for a non-contiguous argument are taken from the behaviour of the compilers and the Fortran standard. Five statements are refutations or exact limits."
  },
  {
   "property": "C76",
   "status": "proved",
   "theorems": [
    "C76_serves",
    "C76_multiple_refuted",
    "C76_fraction_refuted",
    "C76_shipped",
    "C76_between",
    "C76_rounded_refuted"
   ],
   "note": "Proved without rounding for all spacings; with rounding for the shipped arguments and two others. Two countings that disagree for multiples: refuted."
  },
  {
   "property": "C77",
   "status": "proved",
   "theorems": [
    "C77_value",
    "C77_asymptotic",
    "C77_longfac",
    "C77_normfac",
    "C77_above",
    "C77_closer",
    "C77_cutoffs",
    "C77_switch"
   ],
   "note": "Over the real numbers of the standard library; the incomplete gamma function is an argument with its defining properties."
  },
  {
   "property": "C78",
   "status": "proved",
   "theorems": [
    "C78_loads",
    "C78_cat",
    "C78_work",
    "C78_vectors",
    "C78_contract",
    "C78_contract_refuted",
    "C78_results",
    "C78_results_refuted",
    "C78_example1"
   ],
   "note": "Proved; the local array of contract_all (AVX-512) and the alignment claimed of the integrals in tests and example1 are refuted."
  },
  {
   "property": "C79",
   "status": "proved",
   "theorems": [
    "C79_refused",
    "C79_names",
    "C79_meaning",
    "C79_exactly",
    "C79_accepted_refuted",
    "C79_count_refuted"
   ],
   "note": "Proved for all strings; the two accepted names without flags or header are refuted."
  },
  {
   "property": "C80",
   "status": "proved",
   "theorems": [
    "C80_macros",
    "C80_mask",
    "C80_mask_reads",
    "C80_min",
    "C80_max",
    "C80_max_refuted"
   ],
   "note": "Proved; vector_max of SSE on negative lanes is refuted."
  },
  {
   "property": "C81",
   "status": "proved",
   "theorems": [
    "C81_kernel",
    "C81_clear",
    "C81_kernel_bound",
    "C81_results_refuted",
    "C81_allocation",
    "C81_allocation_bound",
    "C81_memsize",
    "C81_same_shell_refuted",
    "C81_tests",
    "C81_threads_refuted"
   ],
   "note": "Values of int expressions as exact naturals, run defined when all are at most 2^31-1; size_t wraps at 2^64. Screened primitives are not left out (conservative)."
  },
  {
   "property": "C82",
   "status": "proved",
   "theorems": [
    "C82_eri",
    "C82_one",
    "C82_one_refuted",
    "C82_benchmark",
    "C82_benchmark_times"
   ],
   "note": "A race is a pair of conflicting accesses of different threads without common critical section or atomicity; happens-before through critical sections is not used. Accesses inside library calls are their argument areas."
  },
  {
   "property": "C83",
   "status": "proved",
   "theorems": [
    "C83_orders",
    "C83_classes",
    "C83_equal",
    "C83_tables",
    "C83_sets",
    "C83_enumerations",
    "C83_tags",
    "C83_code",
    "C83_targets",
    "C83_types_refuted",
    "C83_mixed_refuted",
    "C83_equal_refuted",
    "C83_outside"
   ],
   "note": "All momenta in the written tables, all insertion sequences. std::set is given by its specification (increasing, equivalent elements merged), not by its tree. VRRStep and HRRDoubletStep compare their targets only, so their order is that of the targets."
  },
  {
   "property": "C84",
   "status": "proved",
   "theorems": [
    "C84_limit",
    "C84_unit"
   ],
   "note": "Uses exact exp, Boys function and arithmetic; the numerical Boys function of boys.h is the subject of C62, C63, C76 and C77. What is kept from the specification of repulsion is the textbook s value and differentiation (C67), so a wrong sign or prefactor in osoei_potential.c breaks it."
  },
  {
   "property": "C85",
   "status": "proved",
   "theorems": [
    "C85_unique",
    "C85_exists",
    "C85_overlap",
    "C85_kinetic",
    "C85_second"
   ],
   "note": "Exact square root, exponential and arithmetic. The kinetic energy theorem gives the second derivatives by an existential; C85_second says they are unique."
  },
  {
   "property": "C86",
   "status": "proved",
   "theorems": [
    "C86_blocks",
    "C86_apart",
    "C86_screened_refuted",
    "C86_examples",
    "C86_called",
    "C86_printed",
    "C86_benchmark",
    "C86_benchmark_refuted"
   ],
   "note": "Positions and counts only. The screening flag of a call is a free parameter. Both refuted statements are about code as written: the examples themselves disable screening."
  },
  {
   "property": "C87",
   "status": "proved",
   "theorems": [
    "C87_overlap",
    "C87_kinetic",
    "C87_gradient",
    "C87_unique",
    "C87_symmetric",
    "C87_positive"
   ],
   "note": "space is an iterated improper Riemann integral (innermost over z), defined from the standard library; exact real arithmetic, no rounding. Semidefinite, not definite: linearly dependent lists are included."
  },
  {
   "property": "C88",
   "status": "proved",
   "theorems": [
    "C88_contract",
    "C88_contract_all",
    "C88_factor",
    "C88_calls",
    "C88_forms",
    "C88_forms_refuted",
    "C88_exact"
   ],
   "note": "Rounding is any function with bounded relative error (unbounded exponents); fused multiply-add and overflow are outside. C88_forms_refuted: the forms of contract_all are not bitwise equal."
  },
  {
   "property": "C89",
   "status": "proved",
   "theorems": [
    "C89_hrr_rounding",
    "C89_same_code"
   ],
   "note": "The table-driven routines are the same loops with the right-hand side as an argument; overflow and underflow are left out."
  },
  {
   "property": "C90",
   "status": "proved",
   "theorems": [
    "C90_taylor_rounding",
    "C90_accuracy",
    "C90_coarse_refuted"
   ],
   "note": "Overflow and underflow are left out."
  },
  {
   "property": "C91",
   "status": "proved",
   "theorems": [
    "C91_split_rounding"
   ],
   "note": "Overflow and underflow are left out; one lane; arguments of the Taylor branch only."
  },
  {
   "property": "C92",
   "status": "proved",
   "theorems": [
    "C92_long_rounding",
    "C92_single_rounding"
   ],
   "note": "Overflow and underflow are left out; one lane; the exponents of the power function are exact; the error is against the formula, not the integral (see C54)."
  }
 ]
}