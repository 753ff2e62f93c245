# A machine-checked model of ExaCMech

This directory holds a Rocq (Coq 8.16.1) model of LLNL/ExaCMech and proofs of
the properties listed in `properties.jsonl`. `MANIFEST.json` maps each property to theorem names.

## 1. How the code is modelled

* **Scalars.** All numeric code is written once, generically over a scalar type
  `T` with a class `Num T` (`theories/Num.v`) that has one field for each
  operation of C++ `double` the code uses (`+ - * /`, `fabs`, `sqrt`, `exp`,
  `log`, `sin`, `cos`, `pow`, `copysign`, `fmax`, `fmin`, comparisons) and for the
  irrational literals of `ECMech_const.h`. Four instances are given: the real
  numbers `R` (the one most theorems are about), `option R` (for C42, see below), IEEE doubles with rounding, overflow and NaN
  as formalised by Flocq (`NumD.v`, for C51-C55, C57, C60 and C63) and Coq's primitive binary64 floats (used
  only to *run* the model against numbers in the repository's own tests, see section 4).
  The theorems over `R` speak of the code in exact real arithmetic: **rounding,
  overflow and NaN are not modelled there**. The theorems over doubles assume that every `+ - * / sqrt` of the source is one
  correctly rounded operation (round to nearest, no contraction into fused multiply-add, no excess precision) and
  leave `exp log sin cos pow` open: they are a parameter `L`, of which C51 and C53 assume `trig_ok`
  (sin and cos within 2^-52; cos of an infinity or NaN is NaN).
  In `R` an undefined operation (1/0, log 0) has some value; therefore
  theorems carry the hypotheses under which the operations are defined, and
  C42 is proved with the instance `option R`, in which undefined operations yield `None`.
* **Arrays** are lists; `a[i]` is `nth i a nundef`; matrices are flat row-major lists
  indexed by the same `p*nq+q` arithmetic as `ECMECH_NN_INDX/NM_INDX`.
  Loops that accumulate are left folds in the code's order.
* **Templates** (`SlipGeom`, `Kinetics`, `ThermoElastN`, `EosModel`) are Gallina
  records of functions. Theorems about the driver hold for every record
  satisfying stated laws; each concrete class is then shown to satisfy them.
* **The nonlinear solver** (SNLS) and its LU routine are *not in the repository*. They are
  arguments (`solver`, `lusolve`) of the model, quantified over in each
  theorem: nothing is assumed about them unless the theorem says so (for
  instance "if the solver reports convergence at an exact root"). The hypotheses used are named and
  defined in the `Spec*.v` files (`accurate`, `keeps_solution`, `last_at_answer`, `settles`, ...), and a solver
  meeting them is exhibited beside the theorems (`checked`, `offer`, `newton1`).
* **Failure.** `ECMECH_FAIL` on the host throws; `assert` aborts. Both are separate outcomes of a `res` type.
* **Memory.** `getResponseECM` is modelled at two levels: the numeric per-point function, and
  a memory model with flat arrays, strides, 32-bit address arithmetic, and per-point
  programs of single reads and writes that may be interleaved arbitrarily.
* **API state.** `matModel` objects are a state machine over sequences of API calls.

## 2. Files (rocq/theories)

| file | content |
|---|---|
| `Num.v`, `NumR.v`, `NumO.v`, `NumD.v`, `NumF.v` | scalar class; instances: reals, reals with undefined results, IEEE doubles (Flocq), primitive floats |
| `Util.v` | model of ECMech_const.h / ECMech_util.h |
| `SlipGeom.v`, `Eos.v`, `KinVoce.v`, `KinKMBalD.v`, `Hard.v`, `Elast.v`, `Evptn.v` | model of the headers of the same names |
| `KinAniso.v` | the kinetics class of test/test_aniso_kinetics_VocePL.h, one strength per slip system |
| `EvptnDp.v` | the functions of `Evptn.v` and `MatModel.v` that the build option `USE_DPEFF` changes |
| `MatModel.v`, `Cases.v` | API object, batched driver, model factory |
| `Miniapp.v`, `MiniFiles.v`, `MiniPrint.v`, `Py.v`, `PyBind.v`, `PyExample.v`, `PyExampleDev.v` | mini-app kernels and runs, its input files, the numbers it prints, Python layers and the two Python examples |
| `Spec*.v` | independent specifications (3x3 tensors, rotations, Hooke's law, ...), no reference to the model |
| `P_*.v` | lemmas; `P_Demo*.v` the concrete cases; `P_Def*.v` the transfer from R to `option R`; `P_Sym*.v` crystal symmetry; `P_Gen.v` what a call returns, any scalars; `P_Dbl*.v` rounding errors |
| `Prop_*.v` | the property theorems and their non-vacuity examples |
| `Validate.v`, `Validate2.v`, `Validate3.v` | binary64 runs of the model against the repository's expected values, see section 4 |

## 3. Plan for each property

| id | what is modelled, how it will be proved |
|---|---|
| C01 | `getResponseSngl`, any history list, any solver: induction over the history; norm multiplicativity of the quaternion product |
| C02 | same model; the sign choice, and evenness of `quat_to_tensor` |
| C03 | polynomial identities over R for `quat_to_tensor`, `quat_prod` against a 3x3 matrix spec |
| C04 | `emap_to_quat` in R with sin/cos; spec = axis/angle of the matrix |
| C05 | 5x5 matrix vs. `C A C^T` in 3x3 spec |
| C06 | linear identities with sqrt 2, sqrt 3 |
| C07 | from the form of `vecdsToSvecP` at the end of `getResponseSngl` |
| C08 | EOS model + elastic law + `exp(3 log v^(1/3)) = v` |
| C09 | algebra of `getResponseSngl`; induction on histories |
| C10 | expected false: counterexample theorem `_refuted` plus the true statement (temperature at beginning of step) |
| C11, C12 | EOS model; Coquelicot derivatives; fmax |
| C13 | finite case analysis over the tables for all c/a > 0; the body-centred constructor refuses every other size |
| C14, C15, C16 | kinetics models branch by branch; Coquelicot `is_derive`; C15 (overflow branch) and part of C16 (KMBalD balancing term) expected false |
| C17, C18, C19 | hardness problem model; algebra, IVT-free (linear), positivity of exp; derivatives |
| C20 | chain rule over the full `computeRJ` for any slip-system count |
| C21 | equality of the residual and Jacobian functions of the rotated and original problems, any extensional solver; tangent: its action on a strain written with tensors, uniqueness of the answers of exact linear solvers |
| C22 | the equations and Jacobians of the two orientations are the same system in other orthonormal coordinates, for every rotation of the lattice: with integer entries (cube), or taking the basal lattice vectors to lattice vectors (hexagonal, for every c/a, with equal constants within the four families of systems); slip systems permute up to sign (all 48 signed permutations and the 12 hexagonal ones computed on the integer tables). Partial: the results correspond for solvers that do not depend on the choice of orthonormal coordinates (every trust region solver with dogleg steps is shown to be one, `SpecTrust.v`; so is Newton's method) and that stay off rotation increments in (0, 1e-90], where the claim is false (refuted by two calls whose solvers give corresponding answers, `P_Tiny.v`). The example of a trust region run uses `constructive_definite_description` of the standard library to have a linear solver. With corresponding answers and an exact linear solver the tangents are equal entry by entry (the turned Jacobian is the Jacobian in the other coordinates, `P_Sym11.v`, `P_Sym12.v`), and a call whose solvers follow those of a successful call succeeds (`SpecSym2.v`, `P_Sym13.v`) |
| C23, C24 | evaluate the residual at the claimed solution |
| C25, C30-C33 | API state machine, induction over call sequences; C32 and parts of C30/C31 expected false |
| C26-C28 | memory model, induction over points / interleavings; for any scalar type, so also for doubles with rounding and NaN |
| C29 | 32-bit arithmetic; expected false, with the exact range in which it holds |
| C34, C35 | comparison with the 6x6 Voigt law; C35 expected false for cubic |
| C36 | implicit differentiation of the residual along a solution curve, exact LU solve assumed |
| C37 | exact rational bounds on each literal |
| C38 | Python arrays as allocation + offset + shape + strides (`Py.v`); construction and `solve` reduced to the library call; strides are never checked (`_refuted`) |
| C39 | developer interface as an object with explicit uninitialised members; compared with the library call that it imitates, after any earlier use; energy and the hexagonal model false |
| C41 | mini-app device choice; expected false |
| C40 | mini-app conversion kernels, linear algebra and exp; runs by induction over the steps, any order of the points |
| C42 | the same model functions over `option R` (`NumO.v`), where an undefined operation gives `None` for good; a run on defined inputs equals the run over R, cell by cell, from `initFromParams` to `getResponseECM`, for either answer of comparisons with `None`. Overflow is not covered (real numbers). For the nonlinear Voce law the exponent must be 1, 2, 3, ...: with 3/2 the property is refuted |
| C43, C44 | strides accepted and kept; stress = Hooke's law of the returned strain, turned by the returned orientation |
| C45 | residual of `computeRJ` written out as 3x3 tensor equations (`SpecStep.v`), any accurate solver |
| C48, C49 | mini-app initial state (the flow strength is never written: `_refuted`) and average stress |
| C50 | C45 with the scale written out; false below 1e-8 of the reference rate (`_refuted`), where a stress-free crystal may be left as it is (`SpecSlow.v`) |
| C56 | files as strings, `getline` and `>>` of words defined, `>>` of numbers and the random generator as parameters; induction over the lines, against an inductive definition of the lines of a text. Partial: extra words on a line, misspelt keywords and 2^31 or more random orientations are not noticed (`_refuted`) |
| C46, C47 | contraction of the C45 equations with the Kirchhoff stress; positive definiteness (`SpecEnergy.v`) |
| C51, C53 | the same model over IEEE doubles; forward error analysis of `vecsVNormalize`, `emap_to_quat`, `quat_prod` with Flocq's error bounds, NaN propagation; induction over the calls |
| C52, C54 | monotonicity of rounding and sign of sums and products of doubles; `fmax` |
| C55 | each table entry, then each Schmid entry of the doubles is compared with the same computation over R (C13); the hexagonal tables with forward error bounds through the Miller-index conversion, for every c/a in [1/2, 3] |
| C57 | every stored quantity gets a bound 2^k, computed by a tactic through the operations of the call (`P_Dbl13`-`P_Dbl16`); the Voce rate by bounding the logarithm of the rate between the two thresholds of the code (`P_Dbl17`, `P_Dbl18`). `exp`, `log`, `pow`, `sin`, `cos` are arbitrary functions of stated accuracy (`SpecDblFin.v`, `SpecDbl.v`). Flow strength, tangent and the rates of the KMBalD models are not covered |
| C58 | the same hardness problem with the power of the distance to saturation; below saturation monotonicity of powers; above it exponent 2, where the power of a negative number is defined, for every call and by a concrete call; below saturation a concrete call whose solver takes the second root, above saturation |
| C59 | `updateHN` for any law and the per-system kinetics of test/test_aniso_kinetics_VocePL.h (`KinAniso.v`): the residual of each strength divided by its scale; monotone scalar equations per system; derivative entry by entry |
| C60 | a running error bound (relative to the sum of the magnitudes of the terms, plus a tiny absolute part) carried through the operations of the call by a tactic (`P_Dbl19`-`P_Dbl21`); the passage through `exp(3 log(v^(1/3)))` from the accuracy of the mathematical library; the history by induction. Specification: exact formulas on the doubles read and stored (`SpecDblAcc.v`) |
| C61 | the functions that the option `USE_DPEFF` reaches are modelled a second time with the other branch (`EvptnDp.v`); simulation of the two builds point by point, then call by call and program by program, in any arithmetic (`P_Dp2`-`P_Dp5`); in the reals the value is computed with 3x3 tensors, the bound by Cauchy-Schwarz. Specification `SpecDp.v`: buffers that agree except on named cells, programs of stores and calls |
| C62 | the object as a state machine (`mm_step`, `mm_run`): two objects that differ in the output level only stay so, by induction over the program; every call that is not initialise, complete or strategy leaves the object alone up to that level (`P_Quiet.v`). Specification `SpecQuiet.v` |
| C63 | the error bounds of C60 carried through the rotation tensor of the stored quaternion (`P_Dbl22`) and through the elastic law of cubic and hexagonal crystals (`P_Dbl23`). Specification: Hooke's law on 3 by 3 tensors, evaluated exactly on the doubles read and stored (`SpecDblStress.v`) |
| C64 | two calls in different units of stress and time: the residual and the Jacobian seen by the solver are the same functions (`P_Units`, `P_Units2`, `P_Units3`), hence the same answer of any solver, hence every output of the call (`P_Units4`, `P_Units5`); uniqueness of the solution of the tangent system (`P_Units6`); the call in the new units succeeds (`P_Units5`, `P_Units7`). Specification: a table of the physical dimension of each parameter, input, history entry and output (`SpecUnits.v`) |
| C65 | arguments of a call from Python as arrays of doubles or other objects with an arbitrary conversion (`PyBind.v`); `solve` reduced to C38; three refutations: results of converted arguments are dropped, read-only arrays are written, the temperature of `getState` is lost |
| C66 | `getResponseSngl` and the batch call; a point is followed through calls by `Visit` (`SpecState.v`: object, batch, position, memory before and after); induction over the two lists of visits; `sngl_state` shows that old shear rate, flow strength, count, temperature, moduli and tangent are not read. Asking for the tangent in one run only is excluded (C36_counter_refuted). C66_flags: from `hist_layout` (C25) |
| C67 | every exit of `getResponseSngl` other than the last leaves the point as it was but for the temperature (`sngl_failed`); batch loop and threads (C26, C27); continuation by C66. `proven`: some call with these parameters has succeeded, which is the observable form of a usable shear modulus. Two refutations (`P_Demo25`, `P_Demo26`) |
| C68 | the two pairs of classes that differ in the template flag of `KineticsVocePL`; `SpecRed.v`: the parameter list with the exponent put in, answers up to it; `x^0 = 1` makes the two kinetics objects equal (functional extensionality), then induction over the calls. Real arithmetic only: in doubles the two formulas associate the products differently |
| C69 | the whole mini-app run (`app_main`, `app_start`, `app_run` of `Miniapp.v`) next to another one; `SpecMini2.v`: possible results of a run, crystals alike. The inputs of the library call are equal for alike crystals, C66's results give equal outputs and success, then induction over the steps. The mean and the shuffling over the reals; the rest also in any arithmetic, so bit for bit in doubles (`C69_bits_*`, `P_Mini6.v`). Bound on the number of crystals as in C40 (32-bit indices) |
| C70 | `MiniPrint.v`: the reductions behind the printed average stress; the order and grouping of a RAJA reduction is an arbitrary tree over the points (the sequential one is a special case). Over the reals: permutation of a sum. In doubles (`NumD.v`): induction over the tree of an error bound with a relative part (3 + 2 depth) 2^-53 of the mean magnitude and an absolute part near underflow |
| C71 | the same for the numbers printed as function evaluations with the macro NEVALS_COUNTS: they are taken from state variable 2, the flow strength, while the counter is number 3. Proved: what is printed. Refuted: that it is the number of evaluations |
| C72 | `PyExample.v`: `np.atleast_2d`, the helper class and the loop of `pyecmech/example.py` with its views and rebound arrays. The helper reduces to the library call by changing the row stride of one-row tables; the loop by induction over the number of steps with the invariant on the shapes and the volume. Refuted: the documented six stress columns |
| C73 | No new model code: the calls of `MatModel.v`. The threshold of each law is read off `SpecKin.v`; with all rates zero the equations of C45 lose their slip terms and the work balance of C46 becomes two-sided. Histories by induction with the invariant "no slip rates, strength kept". For the first loading the elastic strain is shown to solve the residual exactly |
| C74 | No new model code: the calls of `MatModel.v`. An end state is put into the unknowns of the solver (`SpecReach.v`) and the residual there is shown to be zero exactly when the tensor equations of C45 hold, so the convergence test passes and the stored state is the given one. The deformation that leads to an end state is solved for in closed form. The strength of the step is an exact implicit step of the hardening law (`hardened`), or the old strength if there was no slip |
| C75 | `PyExampleDev.v` models `ECMechProbDev.solve` (example-dev.py:28-82): the loop over rows that threads the developer object through setup, the root finder and getState. scipy's `root` is any function that gives an answer and the points it evaluated. Induction over the rows with the accumulated work of the object as the invariant; each pass is compared with the point of the library call by the refinement of C39. Refuted for energy, temperature and unsolved points: shown on calls of the demonstration object, for every content of the uninitialised members, and for unsolved points in general. Not modelled: rows with gaps (column order), the 1D promotion (as in C72's model of example.py), the script's own time loop. |
| C76 | No new model code: the calls of `MatModel.v` in any arithmetic. Noninterference: the problem handed to the solver with other energy, pressure and temperature (`rethermo`) has the same residual and Jacobian functions, since the cubic law puts the pressure into the sixth stress component only and the Voce kinetics read neither; hence the same solver result, state and deviatoric stress. Lifted to batches as in C66, then induction over the steps. It does not hold for the hexagonal law (thermal stress) nor for KMBalD kinetics (temperature); see C77 for these |
| C77 | No new model code. As C76, with kinetics that read the temperature but not the pressure: the temperature of the step is computed from the energy handed in, the heat capacity and the last parameter only (`tk_eq`), so the problems handed to the solver again have the same residual and Jacobian functions. Lifted to batches and sequences of steps. For the hexagonal law the deviatoric stress contains the energy at the end of the step, which is fixed by the energy and the pressure handed in; with both equal the pressure of the equation of state again reaches the sixth component only (`T_shape`) |
| C78 | No new model code. The two outputs of a successful call of one point are computed in closed form in any arithmetic (`sngl_press`: the sixth component of the cubic law does not pass through the rotation or the solver), the equation of state of the built object is read off the parameters (`cubic_mat`), and both are lifted to batches. It does not hold for the hexagonal law, whose coupling constant puts elastic strain into the pressure |
| C79 | No new model code. A relation between two calls of one point whose inputs agree except in the deviatoric stress is carried through the one-point function in any arithmetic (`sngl_dev`), then lifted to batches (`visit_dev`) and by induction to journeys of any length (`journey_dev`). The energy difference is computed from the closed form of the energy of a successful call (`sngl_e`, `visit_e`), over the reals (`C79_energy`) |
| C80 | No new model code. The one-point function gives the same result on rates and volumes that agree in the entries that matter (`sngl_read`, any arithmetic), lifted to batches and by induction to journeys like C66 (`journey_read`, `batch_read`) |

Properties the code does not satisfy are recorded as theorems named `*_refuted`
exhibiting an input, next to a theorem stating what does hold.

## 4. Trusted base

Coq's kernel (8.16.1); the axioms of the standard library's real numbers
(`ClassicalDedekindReals.sig_forall_dec`, `sig_not_dec`, functional
extensionality, and `Classical_Prop.classic`). `Print Assumptions` is run for each
property theorem in the `Prop_*.v` files; section 6 lists the results. No axioms are declared here.
The correspondence between the C++ text and the Gallina definitions is by reading (each
definition cites file and lines) and by the float runs of `Validate.v` and `Validate2.v`.

**The float runs.** The same generic definitions, instantiated with Coq's binary64 numbers (`NumF.v`: `+ - * / sqrt`
are the primitive operations, `exp log sin cos pow` are series written there), are run on the inputs of the
repository's tests. SNLS is not available here, so `Validate.v` contains a reconstruction of its trust-region
dog-leg method with the default settings. All expected values of `test_hardening`, `test_evptn`, `test_updst` and `test_px` are reproduced within
the tolerances of those tests, and so are the numbers of function evaluations, which shows that the residual, Jacobian,
scaling and stopping rule are those of the code. `Validate2.v` also contains the generator of normal deviates
that `test_px` takes from the C++ standard library. `Validate3.v` does the same for `test_aniso_hardening`. The runs are tests of the model, not
proofs: no property theorem depends on them. The Examples of `Validate.v` are checked
by the kernel (which then relies on its primitive floats); the values of `Validate2.v` come from `Eval vm_compute`
in a definition, so there the kernel checks only their type.

## 5. Not modelled

SNLS (nonlinear and LU solver), RAJA beyond "runs the lambda once for each
index, in some interleaving", memory allocation, host/device transfer, printing and debug
output, conversion of text to numbers, Python array aliasing, what numpy's conversion of other objects yields (any function), build system, the `MORE_DERIVS` variant, rounding outside C51-C55, C57, C60 and C63, accuracy of the mathematical library.

## 6. Assumptions printed

`Print Assumptions` of every theorem named in `MANIFEST.json` (all axioms are the standard library's):

| axioms | theorems |
|---|---|
| none | C13_fcc_family, C13_fcc_complete, C13_bcc_family, C13_bcc_complete, C13_hcp_family, C13_hcp_complete, C13_bcc_sizes, C25_layout, C25_columns, C26_alone, C26_success, C26_failure, C26_local, C27_same_memory, C27_each_task, C27_terminates, C27_progress, C27_any_tasks, C28_in_bounds, C28_in_bounds_parallel, C28_frame, C28_frame_parallel, C29_tangent_refuted, C29_range, C30_incomplete, C30_last_parameters, C30_uninitialised_refuted, C31_readback, C31_eos, C31_cubic, C31_hexagonal, C31_voce_linear, C31_kmbald, C31_voce_nonlinear_actual, C31_voce_nonlinear_refuted, C32_rest_unchanged, C33_names, C33_unknown, C33_counts, C39_info, C43_strides, C43_kept, C43_default, C56_read, C56_bad_orientation, C56_bad_property, C56_other_messages, C61_same, C61_program, C62_notice, C62_tasks, C62_drop, C62_setters, C66_restart, C66_success, C66_flags, C67_state, C67_threads, C67_retry, C69_bits_crystals, C69_bits_completes, C69_bits_printed, C70_sequential, C78_pressure, C79_only_energy, C79_success, C80_unread, C80_success |
| `ClassicalDedekindReals.sig_forall_dec`, `ClassicalDedekindReals.sig_not_dec`, `FunctionalExtensionality.functional_extensionality_dep` | C22_systems, C34_spherical, C37_roots, C72_rate |
| `ClassicalDedekindReals.sig_forall_dec`, `FunctionalExtensionality.functional_extensionality_dep` | C22_newton, C22_damped, C34_symmetric, C34_positive_cubic, C34_positive_hexagonal, C34_stability |
| `FunctionalExtensionality.functional_extensionality_dep` | C76_decoupled, C76_success, C77_energy_only, C77_success, C77_hexagonal, C77_hexagonal_success |
| `ClassicalDedekindReals.sig_forall_dec`, `ClassicalDedekindReals.sig_not_dec`, `Classical_Prop.classic`, `FunctionalExtensionality.functional_extensionality_dep` | all others (228) |
