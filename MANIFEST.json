{
 "claims": [
  {
   "property": "C01",
   "status": "proved",
   "theorems": [
    "C01_unit_quaternion"
   ],
   "note": "all histories of successful calls on any built-in model, any strides"
  },
  {
   "property": "C02",
   "status": "proved",
   "theorems": [
    "C02_no_antipode",
    "C02_sign_irrelevant"
   ],
   "note": ""
  },
  {
   "property": "C03",
   "status": "proved",
   "theorems": [
    "C03_rotation",
    "C03_sign",
    "C03_product",
    "C03_action"
   ],
   "note": ""
  },
  {
   "property": "C04",
   "status": "proved",
   "theorems": [
    "C04_unit",
    "C04_rodrigues",
    "C04_axis_angle",
    "C04_small",
    "C04_zero"
   ],
   "note": "axis-angle form stated by Rodrigues' formula"
  },
  {
   "property": "C05",
   "status": "proved",
   "theorems": [
    "C05_apply",
    "C05_orthogonal",
    "C05_multiplicative"
   ],
   "note": ""
  },
  {
   "property": "C06",
   "status": "proved",
   "theorems": [
    "C06_components",
    "C06_inverse",
    "C06_trace",
    "C06_inner",
    "C06_linear",
    "C06_schmid"
   ],
   "note": ""
  },
  {
   "property": "C07",
   "status": "proved",
   "theorems": [
    "C07_deviatoric"
   ],
   "note": ""
  },
  {
   "property": "C08",
   "status": "proved",
   "theorems": [
    "C08_cubic",
    "C08_hexagonal"
   ],
   "note": ""
  },
  {
   "property": "C09",
   "status": "proved",
   "theorems": [
    "C09_energy_step",
    "C09_energy_history"
   ],
   "note": ""
  },
  {
   "property": "C10",
   "status": "proved",
   "theorems": [
    "C10_refuted",
    "C10_actual"
   ],
   "note": "The property is false of the code: tkelvV is the temperature at the energy passed in (C10_refuted, C10_actual)."
  },
  {
   "property": "C11",
   "status": "proved",
   "theorems": [
    "C11_values",
    "C11_derivatives",
    "C11_isothermal",
    "C11_reference",
    "C11_update"
   ],
   "note": ""
  },
  {
   "property": "C12",
   "status": "proved",
   "theorems": [
    "C12_bulk_floor"
   ],
   "note": ""
  },
  {
   "property": "C13",
   "status": "proved",
   "theorems": [
    "C13_fcc",
    "C13_fcc_family",
    "C13_fcc_complete",
    "C13_bcc",
    "C13_bcc_family",
    "C13_bcc_complete",
    "C13_hcp",
    "C13_hcp_family",
    "C13_hcp_complete",
    "C13_bcc_sizes"
   ],
   "note": "FCC, BCC 12/24/48, HCP for all c/a>0: unit, perpendicular, pairwise different up to sign, stored data = Schmid tensors, and the tables are exactly the complete crystallographic families; C13_bcc_sizes: the body-centred class is usable exactly with 12, 24 or 48 systems"
  },
  {
   "property": "C14",
   "status": "proved",
   "theorems": [
    "C14_voce_law",
    "C14_km_law",
    "C14_voce_sign",
    "C14_km_sign",
    "C14_voce_dissipation",
    "C14_km_dissipation",
    "C14_shear_rate",
    "C14_accumulated_shear",
    "C14_rates"
   ],
   "note": "Slip rates of both kinetics equal documented laws, are odd, have the sign of the stress; total dissipation non-negative; shear rate and accumulated shear of the driver; the slip rates stored by a call are the law at the returned stress and strength."
  },
  {
   "property": "C15",
   "status": "partial",
   "theorems": [
    "C15_voce",
    "C15_voce_refuted",
    "C15_km_partial",
    "C15_km_same_side",
    "C15_km_refuted"
   ],
   "note": "False as stated: refuted for both kinetics. Proved: Voce power law below the overflow stress; KMBalD on the same side of the switch of the drag law, and up to a relative 1e-8 everywhere."
  },
  {
   "property": "C16",
   "status": "partial",
   "theorems": [
    "C16_voce_dtau",
    "C16_voce_dg",
    "C16_km_dg",
    "C16_km_dtau_ends",
    "C16_km_dtau_actual",
    "C16_km_dtau_unbalanced",
    "C16_km_dtau_refuted"
   ],
   "note": "Exact for Voce and for the strength derivative of KMBalD; the KMBalD stress derivative is refuted where thermal and drag mechanisms both act with reverse jumps on; its true value and the cases where it is exact are proved."
  },
  {
   "property": "C17",
   "status": "proved",
   "theorems": [
    "C17_update",
    "C17_no_slip"
   ],
   "note": "Linear Voce, through the API, any solver that is accurate when it reports convergence."
  },
  {
   "property": "C18",
   "status": "proved",
   "theorems": [
    "C18_positive",
    "C18_update",
    "C18_no_slip"
   ],
   "note": "All three dislocation-density models through the API."
  },
  {
   "property": "C19",
   "status": "proved",
   "theorems": [
    "C19_one",
    "C19_many",
    "C19_voce",
    "C19_voce_nonlinear",
    "C19_km"
   ],
   "note": "Any number of strengths; the hypothesis is discharged for the three hardening laws."
  },
  {
   "property": "C20",
   "status": "proved",
   "theorems": [
    "C20_exact",
    "C16_km_dtau_refuted"
   ],
   "note": "For every built-in model and every successful call the function given to the solver returns the step equations and, away from the switches of the slip laws and for trial rotations of at least 1e-9, their exact Jacobian. Excluded: smaller trial rotations (Taylor form / non-differentiable point) and the range where C16_km_dtau_refuted applies."
  },
  {
   "property": "C21",
   "status": "proved",
   "theorems": [
    "C21_frame",
    "C21_success",
    "C21_tangent",
    "C21_success_tangent"
   ],
   "note": "Every successful pair of calls, any solver; C21_success: the turned batch succeeds. C21_tangent: the tangent is turned too, for exact linear solvers; C21_success_tangent: the turned batch succeeds with its tangent."
  },
  {
   "property": "C22",
   "status": "partial",
   "theorems": [
    "C22_systems",
    "C22_class_systems",
    "C22_hex_systems",
    "C22_call_partial",
    "C22_newton",
    "C22_damped",
    "C22_trust",
    "C22_answers",
    "C22_tiny_refuted",
    "C22_tangent",
    "C22_success"
   ],
   "note": "False as stated for rotation increments that are not zero but at most 1e-90, where the code turns about a fixed axis (C22_tiny_refuted). Otherwise: for every rotation of the cube (cubic models) or of the hexagonal lattice (hexagonal model, with the same constants for the systems of a family) the slip systems permute up to sign, and the systems of equations of the two orientations are the same in other orthonormal coordinates. The outputs agree for solvers that do not depend on the choice of orthonormal coordinates; every trust region solver with dogleg steps (the kind the library is linked with) and Newton's method are shown to be such solvers in exact arithmetic. For all other solvers: corresponding points leave residuals of the same length and corresponding answers give corresponding results (C22_answers). With corresponding answers and an exact linear solver the tangents are equal (C22_tangent), and a call whose solvers follow those of a successful call succeeds (C22_success). Missing: that a solver which depends on the coordinates gives corresponding answers."
  },
  {
   "property": "C23",
   "status": "proved",
   "theorems": [
    "C23_rest",
    "C23_unique",
    "C23_bound"
   ],
   "note": "A call on a crystal at rest succeeds and returns the state unchanged (orientation normalised); uniqueness for any accurate solver at tolerance 0; bound for positive tolerances. The strength is unchanged up to the lower limit the hardening law imposes."
  },
  {
   "property": "C24",
   "status": "proved",
   "theorems": [
    "C24_spin",
    "C24_unique"
   ],
   "note": "Exact solution exists, a call with a solver that finds it succeeds and turns the crystal; no other answer is possible for an accurate solver at tolerance 0."
  },
  {
   "property": "C25",
   "status": "proved",
   "theorems": [
    "C25_layout",
    "C25_columns",
    "C25_by_name"
   ],
   "note": "Layout, flags, initial values and name lookup for every initialised built-in model; by-name reading ties the announced names to what a call reads and writes. Layout and name lookup hold for any scalar arithmetic."
  },
  {
   "property": "C26",
   "status": "proved",
   "theorems": [
    "C26_alone",
    "C26_success",
    "C26_failure",
    "C26_local"
   ],
   "note": "Alone = batch, exact failure description, independence of strides, batch size and position. For any class and any scalar arithmetic, hence bit for bit in doubles."
  },
  {
   "property": "C27",
   "status": "proved",
   "theorems": [
    "C27_same_memory",
    "C27_each_task",
    "C27_terminates",
    "C27_progress",
    "C27_any_tasks"
   ],
   "note": "All interleavings of single loads and stores; also for any order of accesses inside a task (C27_any_tasks). Exceptions under OpenMP/GPU abort the process and are outside. For any scalar arithmetic."
  },
  {
   "property": "C28",
   "status": "proved",
   "theorems": [
    "C28_in_bounds",
    "C28_in_bounds_parallel",
    "C28_frame",
    "C28_frame_parallel"
   ],
   "note": "Sequential and every intermediate state of every interleaving. For any class and any scalar arithmetic."
  },
  {
   "property": "C29",
   "status": "proved",
   "theorems": [
    "C29_refuted",
    "C29_tangent_refuted",
    "C29_range"
   ],
   "note": "The claim as stated is false: refuted for an accepted stride and for the tangent offset; the exact valid range is proved."
  },
  {
   "property": "C30",
   "status": "proved",
   "theorems": [
    "C30_incomplete",
    "C30_last_parameters",
    "C30_rho",
    "C30_rho_in_use",
    "C30_uninitialised_refuted",
    "C30_failed_init_refuted"
   ],
   "note": "Positive parts proved for all call sequences; the last part of the statement is false in the code: refuted for complete() without initialisation and for a re-initialisation that fails late. Incompleteness, dependence on the last parameters and the uninitialised case hold for any scalar arithmetic."
  },
  {
   "property": "C31",
   "status": "proved",
   "theorems": [
    "C31_readback",
    "C31_eos",
    "C31_cubic",
    "C31_hexagonal",
    "C31_voce_linear",
    "C31_kmbald",
    "C31_voce_nonlinear_actual",
    "C31_voce_nonlinear_refuted"
   ],
   "note": "Read-back of the model object and of every component class except SlipGeom (its getParams is not modelled); false for the nonlinear Voce kinetics, whose exact output is given. For any scalar arithmetic."
  },
  {
   "property": "C32",
   "status": "proved",
   "theorems": [
    "C32_refuted",
    "C32_rest_unchanged"
   ],
   "note": "False for getParams (refuted); everything else observable is proved unchanged. The positive part holds for any scalar arithmetic."
  },
  {
   "property": "C33",
   "status": "proved",
   "theorems": [
    "C33_names",
    "C33_unknown",
    "C33_counts",
    "C33_accepts_cubic",
    "C33_accepts_hexagonal"
   ],
   "note": "Names, counts and exact acceptance conditions (HCP acceptance for positive c/a). Names and counts hold for any scalar arithmetic."
  },
  {
   "property": "C34",
   "status": "proved",
   "theorems": [
    "C34_cubic",
    "C34_hexagonal",
    "C34_spherical",
    "C34_symmetric",
    "C34_positive_cubic",
    "C34_positive_hexagonal",
    "C34_stability",
    "C34_bulk"
   ],
   "note": ""
  },
  {
   "property": "C35",
   "status": "proved",
   "theorems": [
    "C35_refuted",
    "C35_actual"
   ],
   "note": "The property is false of the code: the cubic class reports twice the shear modulus (C35_refuted); C35_actual gives the exact values."
  },
  {
   "property": "C36",
   "status": "proved",
   "theorems": [
    "C36_tangent",
    "C36_request",
    "C36_counter_refuted"
   ],
   "note": "Tangent = derivative of the Cauchy stress along curves that keep the step equations solved, for exact linear solvers, rotation >= 1e-9 and no slip system on a switch of its law; such curves exist. Requesting it changes only the evaluation counter (C36_counter_refuted shows the counter does change)."
  },
  {
   "property": "C37",
   "status": "proved",
   "theorems": [
    "C37_roots",
    "C37_model",
    "C37_thresholds"
   ],
   "note": "Roots within 1e-16 relative; thresholds ordered and logarithmic ones consistent."
  },
  {
   "property": "C38",
   "status": "proved",
   "theorems": [
    "C38_new",
    "C38_accepts",
    "C38_refuses",
    "C38_reject",
    "C38_solve",
    "C38_layout_refuted",
    "C38_bounds_refuted",
    "C38_params_refuted"
   ],
   "note": "Construction and solve: names, parameter counts, ranks and extents are checked as claimed, and for C-ordered arrays the call is the library call on the elements. Strides are not checked: three refutations show wrong results or out-of-bounds reads for strided arrays of the right shape."
  },
  {
   "property": "C39",
   "status": "partial",
   "theorems": [
    "C39_new_partial",
    "C39_state_partial",
    "C39_energy_refuted",
    "C39_hcp_refuted",
    "C39_forgets",
    "C39_refuses",
    "C39_info"
   ],
   "note": "Stress, temperature, moduli and history (except the evaluation counter) agree for six of the seven models after any earlier use of the object. The claim is false for the energy, whatever the uninitialised members hold, and for the hexagonal model, which can never be constructed. C39_info: the reported names, initial values and flags of the history."
  },
  {
   "property": "C40",
   "status": "proved",
   "theorems": [
    "C40_given",
    "C40_taken",
    "C40_stress_back",
    "C40_run",
    "C40_positive",
    "C40_volume"
   ],
   "note": "For everything main sets up: setup_data and retrieve_data of any point order (given, taken), the Voigt stress is restored, whole runs of any length are chained library calls, volume and energy follow."
  },
  {
   "property": "C41",
   "status": "partial",
   "theorems": [
    "C41_device_partial",
    "C41_device_refuted"
   ],
   "note": "The device named is chosen and set on the model that runs for voce, and for mts on the CPU. False for mts on OpenMP or GPU (orientation_evolution.cxx:346 sets it on the other object): C41_device_refuted."
  },
  {
   "property": "C42",
   "status": "proved",
   "theorems": [
    "C42_call",
    "C42_iterate",
    "C42_nonlinear_voce_refuted"
   ],
   "note": "For all seven built-in models, any batch, any solver that is itself defined: the run over option R (undefined operations give None) equals the run over R in every cell; at every iterate too. Rounding and overflow are not covered. Refuted for the nonlinear Voce law with a non-integer exponent."
  },
  {
   "property": "C43",
   "status": "proved",
   "theorems": [
    "C43_strides",
    "C43_kept",
    "C43_default"
   ],
   "note": "Exact acceptance condition; strides are kept through every call sequence. For any scalar arithmetic."
  },
  {
   "property": "C44",
   "status": "proved",
   "theorems": [
    "C44_stress"
   ],
   "note": ""
  },
  {
   "property": "C45",
   "status": "proved",
   "theorems": [
    "C45_solves"
   ],
   "note": ""
  },
  {
   "property": "C46",
   "status": "proved",
   "theorems": [
    "C46_dissipation",
    "C46_flow_strength"
   ],
   "note": ""
  },
  {
   "property": "C47",
   "status": "proved",
   "theorems": [
    "C47_relaxation"
   ],
   "note": ""
  },
  {
   "property": "C48",
   "status": "partial",
   "theorems": [
    "C48_start_partial",
    "C48_start_refuted"
   ],
   "note": "All entries except the flow strength, which is never written and keeps the content of the allocated memory (C48_start_refuted)."
  },
  {
   "property": "C49",
   "status": "proved",
   "theorems": [
    "C49_average"
   ],
   "note": "Mean of the stress tensors, any number of points."
  },
  {
   "property": "C50",
   "status": "proved",
   "theorems": [
    "C50_relative",
    "C50_slow",
    "C50_relative_refuted"
   ],
   "note": "Holds from 1e-8 of the reference rate and strain increments of 1e-6 on (C50_relative); as stated it is false below (C50_relative_refuted), where a stress-free crystal may be returned unchanged (C50_slow)."
  },
  {
   "property": "C51",
   "status": "proved",
   "theorems": [
    "C51_unit",
    "C51_finite"
   ],
   "note": "IEEE doubles with rounding, overflow and NaN (Flocq); assumes correctly rounded + - * / sqrt and sin, cos within 2^-52"
  },
  {
   "property": "C52",
   "status": "proved",
   "theorems": [
    "C52_call",
    "C52_history"
   ],
   "note": "IEEE doubles; nothing assumed of the mathematical library"
  },
  {
   "property": "C53",
   "status": "proved",
   "theorems": [
    "C53_sign"
   ],
   "note": "IEEE doubles, as C51"
  },
  {
   "property": "C54",
   "status": "proved",
   "theorems": [
    "C54_moduli"
   ],
   "note": "IEEE doubles; nothing assumed of the mathematical library"
  },
  {
   "property": "C55",
   "status": "proved",
   "theorems": [
    "C55_fcc",
    "C55_bcc",
    "C55_accepts",
    "C55_nan_accepted",
    "C55_hcp",
    "C55_hcp_accepts"
   ],
   "note": "IEEE doubles; FCC, BCC tables and the hexagonal tables for c/a in [1/2, 3]; acceptance of parameters by the cubic and hexagonal models"
  },
  {
   "property": "C56",
   "status": "partial",
   "theorems": [
    "C56_read",
    "C56_bad_orientation",
    "C56_bad_property",
    "C56_other_messages",
    "C56_points",
    "C56_random",
    "C56_extra_refuted",
    "C56_keyword_refuted",
    "C56_many_refuted"
   ],
   "note": "Reading is characterised exactly for every text and every reader of numbers. The claim that other input is refused fails for extra words on a line, misspelt keywords, no orientation at all and 2^31 or more random orientations (refuted theorems)."
  },
  {
   "property": "C57",
   "status": "proved",
   "theorems": [
    "C57_finite",
    "C57_trace",
    "C57_rates"
   ],
   "note": "doubles with rounding; libm functions of stated accuracy; rates for the Voce models"
  },
  {
   "property": "C58",
   "status": "partial",
   "theorems": [
    "C17_nonlinear_partial",
    "C17_nonlinear_above",
    "C17_nonlinear_refuted",
    "C17_nonlinear_far_refuted"
   ],
   "note": "False as stated. Proved below saturation when the solver's answer is below saturation too (C17_nonlinear_partial); that condition cannot be dropped: C17_nonlinear_far_refuted is a call from 3/4 to 7 with saturation at 2, with a solver that leaves no residual. Above saturation C17_nonlinear_above gives the update with exponent 2 for every call, C17_nonlinear_refuted a call that goes from 3 to 4 with saturation at 2."
  },
  {
   "property": "C59",
   "status": "proved",
   "theorems": [
    "C59_many",
    "C59_one",
    "C59_update",
    "C59_no_slip",
    "C59_nonlinear",
    "C59_jacobian",
    "C59_diagonal",
    "C59_rates",
    "C59_point",
    "C59_no_model",
    "C59_params",
    "C59_scale",
    "C59_info"
   ],
   "note": "Any number of strengths; nonlinear law below saturation (C58 covers what happens above). C59_no_model: the class cannot be used in a material model because getHistInfo lists one variable. C59_scale: the stress scale is the mean strength and lies between the smallest and the largest; C59_info: the reported variable."
  },
  {
   "property": "C60",
   "status": "proved",
   "theorems": [
    "C60_energy",
    "C60_energy_history",
    "C60_pressure",
    "C60_temperature",
    "C60_bulk"
   ],
   "note": "Doubles; exp, log, pow, sin, cos are any functions of stated accuracy. Inputs, parameters and solver answers of moderate size (at most 1e30; volumes between 1e-3 and 1e3). Stress components other than the pressure are not covered by an accuracy bound."
  },
  {
   "property": "C61",
   "status": "proved",
   "theorems": [
    "C61_same",
    "C61_program",
    "C61_rate",
    "C61_strain",
    "C61_bound",
    "C61_info"
   ],
   "note": "USE_DPEFF build: same outcomes and buffers as the default build except for the first two history values of each point, for every program of calls; meaning, monotonicity and bound of the two values"
  },
  {
   "property": "C62",
   "status": "proved",
   "theorems": [
    "C62_notice",
    "C62_tasks",
    "C62_drop",
    "C62_setters"
   ],
   "note": "the answer to a call depends only on the initialise, complete and strategy calls before it; the other calls can be dropped from any program; setters return normally"
  },
  {
   "property": "C63",
   "status": "proved",
   "theorems": [
    "C63_stress"
   ],
   "note": "all built-in models; both crystal symmetries; mathematical library of stated accuracy"
  },
  {
   "property": "C64",
   "status": "proved",
   "theorems": [
    "C64_units",
    "C64_tangent",
    "C64_succeeds",
    "C64_succeeds_tangent"
   ],
   "note": "Change of units for every built-in model and any nonlinear solver; off_limits excludes crossing the 1e-90 rate thresholds and, for Voce models, strengths below 1 when the stress unit changes. The tangent theorems assume exact linear solvers."
  },
  {
   "property": "C65",
   "status": "partial",
   "theorems": [
    "C65_sees_partial",
    "C65_new",
    "C65_refuses",
    "C65_shape",
    "C65_lost_refuted",
    "C65_readonly_refuted",
    "C65_temperature_refuted"
   ],
   "note": "False in part. Holds for C-ordered arrays of doubles (C65_sees_partial) and for the refusals (C65_refuses, C65_shape). Refuted: arguments of another kind are copied and their results lost without an error (C65_lost_refuted); read-only arrays are written (C65_readonly_refuted); the temperature of getState does not reach the caller (C65_temperature_refuted)."
  },
  {
   "property": "C66",
   "status": "proved",
   "theorems": [
    "C66_restart",
    "C66_success",
    "C66_flags"
   ],
   "note": "Any arithmetic; the two runs must ask for the tangent at the same steps (the evaluation count differs otherwise, C36_counter_refuted). C66_flags is stated for the seven built-in models."
  },
  {
   "property": "C67",
   "status": "proved",
   "theorems": [
    "C67_state",
    "C67_threads",
    "C67_retry",
    "C67_atomic_refuted",
    "C67_late_refuted"
   ],
   "note": "Any arithmetic. C67_atomic_refuted and C67_late_refuted show the limits named in the statement."
  },
  {
   "property": "C68",
   "status": "proved",
   "theorems": [
    "C68_programs",
    "C68_strides"
   ],
   "note": "Exact arithmetic; all call sequences."
  },
  {
   "property": "C69",
   "status": "proved",
   "theorems": [
    "C69_crystals",
    "C69_completes",
    "C69_mean",
    "C69_shuffled",
    "C69_bits_crystals",
    "C69_bits_completes",
    "C69_bits_printed"
   ],
   "note": "C69_mean and C69_shuffled over the reals; bound on the number of crystals as in C40 (32-bit indices) C69_bits_*: the same for entries compared bit for bit in any arithmetic (IEEE doubles included), and the digits printed by a repeated run."
  },
  {
   "property": "C70",
   "status": "proved",
   "theorems": [
    "C70_stress",
    "C70_rounded",
    "C70_devices",
    "C70_sequential"
   ],
   "note": "Reals: any reduction gives the mean; doubles: error bound by depth, equality of devices up to it, the sequential reduction is the average of C69. The order of a RAJA reduction is any tree over the points; formatting is not modelled."
  },
  {
   "property": "C71",
   "status": "partial",
   "theorems": [
    "C71_printed_partial",
    "C71_evals_refuted"
   ],
   "note": "Proved: the numbers printed are least, mean and greatest of state variable 2 (with starting values 100 and 0). False: that they are the numbers of evaluations, which are state variable 3 (orientation_evolution.cxx:460 reads entry 2, the flow strength): C71_evals_refuted."
  },
  {
   "property": "C72",
   "status": "partial",
   "theorems": [
    "C72_solve",
    "C72_flat",
    "C72_documented_refuted",
    "C72_run",
    "C72_rate",
    "C72_loading"
   ],
   "note": "Proved for every accepted model, layout, loading and number of steps; refuted in part by the code: the stress shape documented in the helper (six columns) is always refused. numpy's functions are modelled for arrays of doubles."
  },
  {
   "property": "C73",
   "status": "proved",
   "theorems": [
    "C73_threshold",
    "C73_step",
    "C73_history",
    "C73_load"
   ],
   "note": "All built-in models. Thresholds are sharp for the power law only; stored rates need the solver's last evaluation at its answer or a requested tangent, as in C14."
  },
  {
   "property": "C74",
   "status": "proved",
   "theorems": [
    "C74_accepts",
    "C74_reachable",
    "C74_determined"
   ],
   "note": "Exact solutions the solvers return are accepted and stored, for all seven built-in models with their hardening laws; deformation rate and spin leading to any end state exist and are unique. C45 is the converse direction."
  },
  {
   "property": "C75",
   "status": "partial",
   "theorems": [
    "C75_rows_partial",
    "C75_energy_refuted",
    "C75_temperature_refuted",
    "C75_unsolved_refuted"
   ],
   "note": "Stress, moduli and history of every row are those of the library call; refuted by the code for energy (accumulates over points and calls), temperature (not updated) and unsolved points (stored without a check)."
  },
  {
   "property": "C76",
   "status": "proved",
   "theorems": [
    "C76_decoupled",
    "C76_success"
   ],
   "note": "In any arithmetic, over sequences of calls. Hexagonal model and KMBalD kinetics are outside the claim: there temperature and energy do enter."
  },
  {
   "property": "C77",
   "status": "proved",
   "theorems": [
    "C77_energy_only",
    "C77_success",
    "C77_hexagonal",
    "C77_hexagonal_success"
   ],
   "note": "All three Kocks-Mecking models, any arithmetic, any sequence of steps; the energy handed in before each step (hexagonal model: and the pressure) is assumed equal, all other thermal inputs are arbitrary."
  },
  {
   "property": "C78",
   "status": "proved",
   "theorems": [
    "C78_pressure"
   ],
   "note": "All pairs of the six cubic models, any arithmetic; no axioms."
  },
  {
   "property": "C79",
   "status": "proved",
   "theorems": [
    "C79_only_energy",
    "C79_success",
    "C79_energy"
   ],
   "note": "Any arithmetic, all models: the deviatoric stress handed in reaches only the energy handed back; the energy difference is given exactly over the reals."
  },
  {
   "property": "C80",
   "status": "proved",
   "theorems": [
    "C80_unread",
    "C80_success"
   ],
   "note": "Any arithmetic, all models."
  }
 ]
}