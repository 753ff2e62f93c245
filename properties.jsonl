{"id": "C01", "title": "The stored orientation stays a unit quaternion for ever", "statement": "After any number of successful getResponseECM calls on a material point whose initial orientation quaternion is not zero, the four quat_* history entries have Euclidean norm exactly 1 (in real arithmetic), whatever deformation rates, spins, time steps, volume ratios, energies and solver results were used.", "quantifier": "all histories (any length), all inputs of each call, all solver answers", "why_tests_cant": "a test drives a few steps from a few orientations; drift or a missing normalisation in one branch would only show on other histories", "anchors": ["src/ecmech/ECMech_evptn.h: getResponseSngl, stateFromX", "src/ecmech/ECMech_util.h: emap_to_quat, get_c_quat, quat_prod, vecsVNormalize"]}
{"id": "C02", "title": "Orientation never jumps to the antipode", "statement": "The orientation quaternion returned by one getResponseECM call has a non-negative inner product with the (normalised) quaternion passed in, and choosing that sign does not change the rotation it represents nor any stress returned.", "quantifier": "all inputs of a call and all solver answers", "why_tests_cant": "the flip is only taken for large rotation increments, which tests do not generate", "anchors": ["src/ecmech/ECMech_evptn.h: getResponseSngl lines 1219-1227"]}
{"id": "C03", "title": "quat_to_tensor of a unit quaternion is a proper rotation", "statement": "For every unit quaternion q the 3x3 matrix R(q) satisfies R R^T = R^T R = I and det R = 1, R(-q) = R(q), R(p q) = R(p) R(q) for quat_prod, and the conversion agrees with q v q*.", "quantifier": "all unit quaternions", "why_tests_cant": "continuum of inputs", "anchors": ["src/ecmech/ECMech_util.h: quat_to_tensor, quat_prod"]}
{"id": "C04", "title": "The exponential map yields the rotation with the given axis and angle", "statement": "emap_to_quat maps every 3-vector w to a unit quaternion; for |w| above the code's small-angle threshold (1e-90) the rotation built from it fixes w, has trace 1 + 2 cos|w|, and -w gives the inverse rotation; at or below the threshold the result is the rotation by |w| about the first axis, and exactly the identity for w = 0.", "quantifier": "all 3-vectors, including the zero vector and both sides of the threshold", "why_tests_cant": "boundary between the two branches and all directions", "anchors": ["src/ecmech/ECMech_util.h: emap_to_quat"]}
{"id": "C05", "title": "The 5x5 rotation of deviatoric vectors is the tensor rotation", "statement": "For every rotation C and every symmetric deviatoric tensor A, applying the 5x5 matrix produced by get_rot_mat_vecd to the 5-vector of A gives the 5-vector of C A C^T; the matrix is orthogonal and C -> Q(C) is multiplicative.", "quantifier": "all rotation matrices and all deviatoric tensors", "why_tests_cant": "25 polynomial identities over a 3-parameter family", "anchors": ["src/ecmech/ECMech_util.h: get_rot_mat_vecd, vecsVMa, vecsVMTa"]}
{"id": "C06", "title": "Changing stress and strain notation loses nothing", "statement": "The conversions between Voigt deviatoric+pressure 7-vectors, 6-vectors and the 5/6-component vecds basis are mutually inverse, linear, keep the trace convention (first three components sum to zero, pressure = -trace/3), and preserve the tensor inner product A:B.", "quantifier": "all tensors / vectors", "why_tests_cant": "continuum of inputs", "anchors": ["src/ecmech/ECMech_util.h: svecToVecd, vecdsToSvecP, svecpToSvec, symmToVecd, vecsInnerSvecDev, vecd_Deff"]}
{"id": "C07", "title": "The stress handed back is deviatoric plus pressure", "statement": "After every successful getResponseECM the first three components of stressSvecP sum to zero for every point, for every built-in crystal model.", "quantifier": "all inputs, all solver answers, all models", "why_tests_cant": "continuum of inputs", "anchors": ["src/ecmech/ECMech_evptn.h: getResponseSngl", "src/ecmech/ECMech_util.h: vecdsToSvecP"]}
{"id": "C08", "title": "Returned pressure is the equation-of-state pressure", "statement": "For cubic models the pressure component returned by getResponseECM equals the EOS pressure at (vNew, eOld - delv*pOld); for hexagonal models it differs from it by exactly the deviatoric-volumetric coupling term; in both cases the end-of-step elastic strain does not enter the EOS.", "quantifier": "all inputs with vNew > 0", "why_tests_cant": "exp/log round trip over a continuum", "anchors": ["src/ecmech/ECMech_evptn.h: elastNEtoT, elastNEtoC, ThermoElastNCubic::eval, ThermoElastNHexag::eval", "src/ecmech/ECMech_eosSimple.h: updateSimple"]}
{"id": "C09", "title": "Energy bookkeeping is the trapezoidal work sum", "statement": "Across one call, eInt changes by exactly -delv*pOld plus dt*(vOld+vNew)/2 times the average of beginning- and end-of-step deviatoric stress power; across any history the increments add up (telescoping).", "quantifier": "all inputs and histories", "why_tests_cant": "continuum of inputs and any number of steps", "anchors": ["src/ecmech/ECMech_evptn.h: getResponseSngl lines 1049-1055, 1214-1217, 1238-1242"]}
{"id": "C10", "title": "tkelvV is the end-of-step temperature", "statement": "The API documentation says tkelvV is the end-of-step temperature, so it should equal the EOS temperature at the returned internal energy.", "quantifier": "all inputs", "why_tests_cant": "tests do not look at tkelv across an adiabatic step", "anchors": ["src/ecmech/ECMech_matModelBase.h: getResponseECM doc line 152", "src/ecmech/ECMech_evptn.h: getResponseSngl lines 1063-1077"]}
{"id": "C11", "title": "The equation of state is self-consistent", "statement": "evalPT and evalPTDiff agree on pressure and temperature; the reported bulk modulus, dp/de and dT/de are the true partial derivatives; reference state v=1,e=0 gives p=0; temperature is affine in energy with T(ec0)=0 in the non-isothermal case and constant in the isothermal one; the derivative-flagged dtde is the stated regularised value when isothermal.", "quantifier": "all parameters with cvav, v nonzero; all v, e", "why_tests_cant": "derivatives are limits", "anchors": ["src/ecmech/ECMech_eosSimple.h: EosModelConst, updateSimple"]}
{"id": "C12", "title": "The bulk modulus output never drops below its floor", "statement": "sdd[bulk] returned by getResponseECM is at least 1e-5 times the reference bulk modulus, hence strictly positive for every model that initialised successfully.", "quantifier": "all inputs, all states", "why_tests_cant": "extreme tensile pressures are not tested", "anchors": ["src/ecmech/ECMech_eosSimple.h: updateSimple", "src/ecmech/ECMech_evptn.h: getResponseSngl"]}
{"id": "C13", "title": "Every slip system is a legal slip system", "statement": "For FCC (12), BCC (12, 24 and 48) and HCP (24 systems, any c/a > 0) each slip direction is a unit vector perpendicular to its unit plane normal, all systems are pairwise different, and the stored symmetric / skew Schmid data are the deviatoric 5-vector and axial 3-vector of s (x) m.", "quantifier": "all slip systems, every c/a > 0", "why_tests_cant": "the HCP geometry is a function of a real parameter", "anchors": ["src/ecmech/ECMech_slipgeom.h: SlipGeomFCC, SlipGeomBCC, SlipGeomHCPaBRYcaY1", "src/ecmech/ECMech_util.h: matToPQ"]}
{"id": "C14", "title": "Slip dissipates energy", "statement": "For each kinetics model the slip rate of a system has the sign of its resolved shear stress or is zero, is odd in it, and the total plastic dissipation tau.gdot is non-negative; the reported effective shear rate is non-negative and accumulated shear never decreases over any history with dt >= 0.", "quantifier": "all stresses, strengths, parameters in the documented ranges, all histories", "why_tests_cant": "continuum of inputs and unbounded histories", "anchors": ["src/ecmech/ECMech_kinetics_VocePL.h: evalGdot, evalGdots", "src/ecmech/ECMech_kinetics_KMBalD.h: evalGdot, evalGdots", "src/ecmech/ECMech_evptn.h: getResponseSngl"]}
{"id": "C15", "title": "Slip rate never falls when the stress rises", "statement": "For fixed strength the magnitude of the slip rate is a non-decreasing function of the magnitude of the resolved shear stress.", "quantifier": "all pairs of stresses", "why_tests_cant": "pairs of reals; the overflow branch is never reached by tests", "anchors": ["src/ecmech/ECMech_kinetics_VocePL.h: evalGdot"]}
{"id": "C16", "title": "Slip-rate derivatives are the derivatives of the slip rate", "statement": "dgdot_dtau and dgdot_dg returned by evalGdot are the partial derivatives of the returned gdot at every interior point of every branch (VocePL and KMBalD).", "quantifier": "all stresses and strengths in the interior of branches", "why_tests_cant": "derivatives are limits; a wrong derivative only slows the solver and corrupts the tangent", "anchors": ["src/ecmech/ECMech_kinetics_VocePL.h: evalGdot", "src/ecmech/ECMech_kinetics_KMBalD.h: evalGdot"]}
{"id": "C17", "title": "Voce strength update is well posed and bounded", "statement": "The implicit strength update equation of the linear Voce model has exactly one solution for every non-negative dt and shear rate; it lies between the old strength and the saturation strength; a converged solver answer is within tolerance*scale of it; zero shear rate leaves the strength unchanged.", "quantifier": "all old strengths, shear rates, time steps, parameters in range", "why_tests_cant": "existence and uniqueness quantify over all reals", "anchors": ["src/ecmech/ECMech_kinetics_VocePL.h: getSdot1, getEvolVals, updateH", "src/ecmech/ECMech_kinetics.h: Kinetics_H1Problem, updateH1"]}
{"id": "C18", "title": "Dislocation density stays positive", "statement": "For the KMBalD models the updated dislocation density returned by the hardness update is strictly positive for every positive old density, every shear rate and time step and every solver answer; no slip activity means no change of density.", "quantifier": "all old densities, rates, time steps, solver answers", "why_tests_cant": "continuum and solver-independence", "anchors": ["src/ecmech/ECMech_kinetics_KMBalD.h: updateH, getSdot1, getEvolVals", "src/ecmech/ECMech_kinetics.h: updateH1"]}
{"id": "C19", "title": "Hardness-solver Jacobians are exact", "statement": "The Jacobians that the single-variable and N-variable hardness problems hand to the nonlinear solver are the derivatives of the residuals they return, for every kinetics whose rate derivative is exact.", "quantifier": "all states, all N", "why_tests_cant": "derivatives are limits; N is unbounded", "anchors": ["src/ecmech/ECMech_kinetics.h: Kinetics_H1Problem::computeRJ, Kinetics_HNProblem::computeRJ"]}
{"id": "C20", "title": "The crystal-update Jacobian is exact", "statement": "The 8x8 Jacobian returned by computeRJ is the derivative of the returned residual with respect to x at every x where the rotation increment is above the small-angle threshold and the kinetics is differentiable with the reported derivative.", "quantifier": "all states, inputs, x; all slip geometries and numbers of slip systems", "why_tests_cant": "64 derivative identities over a continuum", "anchors": ["src/ecmech/ECMech_evptn.h: EvptnUpdstProblem::computeRJ", "src/ecmech/ECMech_util.h: eval_d_dxi_impl_quat, d_quat_to_tensor, dquat_demap_T, d_rot_mat_vecd_latop, d_rot_mat_wveccp_latop, M35_d_AAoB_dA"]}
{"id": "C21", "title": "Material response is frame indifferent", "statement": "Rotating the sample-frame inputs (deformation rate, spin, beginning-of-step stress) and the crystal orientation by the same rotation rotates the returned stress and orientation by it and leaves all scalar outputs (energy, temperature, pressure, strengths, shear rates, elastic strain in the lattice frame) unchanged. The returned tangent is rotated as well (exact linear solver).", "quantifier": "all rotations, inputs, states, models; any deterministic solver started from the same residual function", "why_tests_cant": "continuum of rotations; whole-call property", "anchors": ["src/ecmech/ECMech_evptn.h: computeRJ, getResponseSngl"]}
{"id": "C22", "title": "Crystal symmetry of the response", "statement": "Replacing the orientation of an FCC, BCC or HCP crystal by a crystallographically equivalent one (and permuting slip systems accordingly; in HCP the systems of a family have the same constants) leaves stress, energy, tangent and scalar outputs unchanged, and the call succeeds when the other one does.", "quantifier": "all 24 rotations of the cube or all 12 of the hexagonal lattice, all inputs", "why_tests_cant": "24 or 12 x continuum", "anchors": ["src/ecmech/ECMech_slipgeom.h: SlipGeomFCC, SlipGeomBCC, SlipGeomHCP", "src/ecmech/ECMech_evptn.h: ThermoElastNCubic::eval, ThermoElastNHexag::eval, computeRJ"]}
{"id": "C23", "title": "Doing nothing changes nothing", "statement": "With zero deformation rate, zero spin, no volume change and zero beginning-of-step elastic strain, x = 0 is an exact zero of the residual, the returned deviatoric stress is zero, and orientation, strengths (no slip) and energy are unchanged.", "quantifier": "all orientations, parameters, time steps", "why_tests_cant": "continuum of states", "anchors": ["src/ecmech/ECMech_evptn.h: getResponseSngl, computeRJ"]}
{"id": "C24", "title": "Pure rigid spin just rotates the crystal", "statement": "With zero deformation rate and a constant spin w on a stress-free crystal, the exact solution of the update equations rotates the orientation by the rotation exp(w dt) (up to the small-angle threshold) and leaves the crystal stress free.", "quantifier": "all spins, time steps, orientations", "why_tests_cant": "continuum of states", "anchors": ["src/ecmech/ECMech_evptn.h: computeRJ, stateFromX", "src/ecmech/ECMech_util.h: emap_to_quat, get_c_quat"]}
{"id": "C25", "title": "History layout is what getHistInfo announces", "statement": "For each built-in model the number of names, initial values, plot flags and state flags returned by getHistInfo equals getNumHist(); names are pairwise distinct; the entry called quat_k / t_k / shrate_k / h... is at the index getResponseECM reads and writes for that quantity; the initial orientation is the unit quaternion.", "quantifier": "all built-in models, all successful parameter sets", "why_tests_cant": "ties two independently written tables together", "anchors": ["src/ecmech/ECMech_evptnWrap.h: initFromParams, getHistInfo, getNumHist", "src/ecmech/ECMech_evptn.h: NumHist, iHistLb*"]}
{"id": "C26", "title": "Points do not influence one another", "statement": "For every number of points and every valid stride set, the outputs of getResponseECM for point i depend only on the inputs of point i, and equal those of a call with that point alone.", "quantifier": "all nPassed, all strides, all memory contents", "why_tests_cant": "unbounded number of points", "anchors": ["src/ecmech/ECMech_evptnWrap.h: getResponseECM"]}
{"id": "C27", "title": "The execution strategy does not change the answer", "statement": "Any order or interleaving of the per-point work (sequential, OpenMP, GPU) ends in the same memory as the sequential loop.", "quantifier": "all schedules of all nPassed point tasks at the granularity of single memory accesses", "why_tests_cant": "exponentially many schedules", "anchors": ["src/ecmech/ECMech_evptnWrap.h: getResponseECM"]}
{"id": "C28", "title": "Batch call stays inside the caller's buffers and touches nothing else", "statement": "With buffers of at least stride*(n-1)+width entries no access is out of bounds; only eInt, stress, hist, tkelv, sdd (and mtan when not null) entries belonging to a point are written; padding between strides, the input-only arrays, and a null tangent buffer are untouched.", "quantifier": "all nPassed, all strides, all buffer contents within the 32-bit index range", "why_tests_cant": "frame property over all memory", "anchors": ["src/ecmech/ECMech_evptnWrap.h: getResponseECM"]}
{"id": "C29", "title": "Large batches index the right memory", "statement": "For every nPassed representable as int and every accepted stride set the per-point address arithmetic of getResponseECM is the mathematical stride*i.", "quantifier": "all nPassed up to 2^31-1, all accepted strides", "why_tests_cant": "needs billions of points", "anchors": ["src/ecmech/ECMech_evptnWrap.h: getResponseECM lines 304-331"]}
{"id": "C30", "title": "getResponse only runs on a completed model", "statement": "In every sequence of API calls, getResponseECM fails cleanly before complete(); after complete() it uses the parameters of the last successful initFromParams; getRhoRef fails before initialisation; completing a model that was never initialised must not let getResponseECM read uninitialised parameters.", "quantifier": "all sequences of API calls", "why_tests_cant": "unbounded histories of calls", "anchors": ["src/ecmech/ECMech_evptnWrap.h: complete, initFromParams, getResponseECM", "src/ecmech/ECMech_matModelBase.h: getRhoRef, isComplete"]}
{"id": "C31", "title": "Parameters can be read back", "statement": "getParams after a successful initFromParams returns exactly the vectors that were passed, whatever was called in between; for each component class, setParams followed by getParams returns the parameter vector.", "quantifier": "all parameter vectors, all API histories", "why_tests_cant": "all vectors; component getParams are never tested for all template variants", "anchors": ["src/ecmech/ECMech_evptnWrap.h: getParams, initFromParams", "src/ecmech/ECMech_kinetics_VocePL.h: getParams", "src/ecmech/ECMech_kinetics_KMBalD.h: getParams", "src/ecmech/ECMech_eosSimple.h: getParams", "src/ecmech/ECMech_evptn.h: ThermoElastNCubic::getParams, ThermoElastNHexag::getParams", "src/ecmech/ECMech_slipgeom.h: getParams"]}
{"id": "C32", "title": "A failed initialisation leaves the model as it was", "statement": "If initFromParams fails because of wrong numbers of options, parameters or strings, the observable state of the model (getParams, getHistInfo, getRhoRef, responses) is unchanged.", "quantifier": "all parameter vectors and prior states", "why_tests_cant": "all histories", "anchors": ["src/ecmech/ECMech_evptnWrap.h: initFromParams lines 166-180"]}
{"id": "C33", "title": "Models are found by name and unknown names fail", "statement": "makeMatModel returns the documented model for each of its documented names, fails for every other string, and the returned model announces the right number of parameters and history variables; initFromParams accepts exactly vectors with that number of parameters.", "quantifier": "all strings, all vector lengths", "why_tests_cant": "all strings", "anchors": ["src/ecmech/ECMech_cases.cxx: makeMatModel", "src/ecmech/ECMech_evptnWrap.h: nParams, initFromParams"]}
{"id": "C34", "title": "Elastic laws are Hooke's law with the stated constants", "statement": "In the crystal frame, the deviatoric stress law evaluated by the cubic and hexagonal elasticity classes is exactly the linear law with Voigt stiffness (c11,c12,c44) resp. (c11,c12,c13,c33,c44); it is symmetric (derives from an energy) and positive definite when the usual stability inequalities hold; bulk modulus is the Voigt bulk modulus.", "quantifier": "all elastic constants and strains", "why_tests_cant": "linear-algebra identities over the reals", "anchors": ["src/ecmech/ECMech_evptn.h: ThermoElastNCubic, ThermoElastNHexag"]}
{"id": "C35", "title": "Cubic and hexagonal models report the same shear modulus for the same isotropic material", "statement": "For an isotropic material with shear modulus mu, sdd[gmod] equals mu whichever elasticity class is used.", "quantifier": "all isotropic elastic constants", "why_tests_cant": "tests do not check sdd values", "anchors": ["src/ecmech/ECMech_evptn.h: ThermoElastNCubic::setParams line 77, ThermoElastNHexag::setParams line 267"]}
{"id": "C36", "title": "The tangent stiffness is the derivative of the stress", "statement": "When requested, mtanSD is, in engineering-shear Voigt form, the derivative of the returned stress with respect to the strain increment along the solution of the update equations (at fixed hardness and EOS pressure), plus the bulk term for volume changes; requesting it changes no other output, except that the evaluation counter in the history counts the extra evaluation.", "quantifier": "all states at which the update Jacobian is invertible, the rotation of the step is at least 1e-9 and no slip system sits on a switch of its law", "why_tests_cant": "implicit-function derivative over a continuum", "anchors": ["src/ecmech/ECMech_evptn.h: computeRJ lines 796-912, getResponseSngl lines 1137-1166", "src/ecmech/ECMech_util.h: mtan_conv_sd_svec, qr6x6_pre_mul, d_rot_mat_vecd_smop"]}
{"id": "C37", "title": "Numeric constants are what their names say", "statement": "Each literal in the constants header (square roots, thirds, ...) is within 1e-16 relative of the mathematical constant its name denotes, and the small/large thresholds are consistently ordered.", "quantifier": "all constants", "why_tests_cant": "decimal literals can only be compared with irrational numbers by proof", "anchors": ["src/ecmech/ECMech_const.h"]}
{"id": "C38", "title": "Python interface rejects arrays of the wrong shape", "statement": "Every array handed to the Python solve call is checked for its rank and extents against the declared number of points and widths; a mismatch fails before any computation; names and parameter counts are the C++ ones.", "quantifier": "all shapes", "why_tests_cant": "all shapes", "anchors": ["pyecmech/ecmechpy.cpp: solve, check2D_dim", "pyecmech/ecmechpy.hpp"]}
{"id": "C39", "title": "Developer Python interface returns the same state as the library", "statement": "For any x, setup followed by getState of the developer interface yields the same stress, history and energy as the library call that converged to x.", "quantifier": "all states and x", "why_tests_cant": "whole-call equivalence", "anchors": ["pyecmech/ecmech_classes.hpp: pyEvptn_norm::setup, getState", "src/ecmech/ECMech_evptn.h: getResponseSngl"]}
{"id": "C40", "title": "Velocity gradient and stress conversions of the mini-app are lossless", "statement": "The mini-app's split of the velocity gradient into deviatoric rate, volumetric rate and spin reassembles to the same gradient, the volume ratio obeys vNew = vOld*exp(tr(D) dt) > 0, and writing stress back restores the Voigt stress exactly.", "quantifier": "all velocity gradients, stresses, numbers of points", "why_tests_cant": "continuum of inputs", "anchors": ["miniapp/setup_kernels.cxx: setup_data_cpu", "miniapp/retrieve_kernels.cxx: retrieve_data_cpu"]}
{"id": "C41", "title": "The requested device is the one used", "statement": "In the mini-app the execution strategy requested in the option file is the one set on the material model that is run, for both material models.", "quantifier": "both models, all device strings", "why_tests_cant": "needs GPU/OpenMP hardware to observe", "anchors": ["miniapp/orientation_evolution.cxx: main lines 305-348"]}
{"id": "C42", "title": "Valid inputs never produce NaN", "statement": "With parameters in their documented ranges (an integer exponent for the nonlinear Voce law), positive volume ratios, a positive temperature, non-zero dt and a non-zero orientation, no elementary operation of one evaluation of kinetics, hardness rate, EOS or residual is undefined (no division by zero, log of a non-positive number, root of a negative number, 0^negative).", "quantifier": "all in-range inputs", "why_tests_cant": "continuum of inputs; edge values", "anchors": ["src/ecmech/ECMech_kinetics_VocePL.h: evalGdot, getSdot1", "src/ecmech/ECMech_kinetics_KMBalD.h: evalGdot, getSdot1", "src/ecmech/ECMech_evptn.h: computeRJ", "src/ecmech/ECMech_eosSimple.h"]}
{"id": "C43", "title": "Bad strides are rejected, good strides accepted", "statement": "The stride constructor fails if and only if the stride count is not 8 or some stride is below the documented minimum width of its array; the default constructor uses the close-packed strides.", "quantifier": "all stride vectors", "why_tests_cant": "all vectors", "anchors": ["src/ecmech/ECMech_evptnWrap.h: matModel(const unsigned int*, unsigned int)"]}
{"id": "C44", "title": "Returned stress, elastic strain and orientation belong together", "statement": "After every successful getResponseECM with vNew > 0 and a non-zero orientation passed in, the deviatoric stress returned for a point is exactly the linear elastic law with the elastic constants of the parameters in use, applied to the elastic strain returned in the history variables (deviatoric components scaled by vNew^(1/3), volumetric part ln vNew), divided by vNew and turned from crystal to sample axes by the returned orientation.", "quantifier": "all built-in models, parameters, inputs, strides, numbers of points and solver answers", "why_tests_cant": "A test compares a few stress values; that stress and state agree for every solver answer (also inexact ones) is a statement about all executions.", "anchors": ["src/ecmech/ECMech_evptn.h: getResponseSngl, elastNEtoC, ThermoElastNCubic, ThermoElastNHexag"]}
{"id": "C45", "title": "A successful call solves the equations of the step", "statement": "After every successful getResponseECM made with a solver that is accurate when it reports convergence, the returned state of a point satisfies the implicit-Euler equations of the step up to the solver tolerance times the rate scale: elastic strain rate + lattice rotation term + slip of all systems at the rates given by the slip law at the returned stress and strength = deformation rate in crystal axes, and the lattice spin balance with the returned orientation equal to the old one followed by a rotation.", "quantifier": "all built-in models, parameters, inputs, numbers of points, strides and accurate solvers", "why_tests_cant": "a test sees a few numbers; the equations relate outputs to inputs for a continuum of states", "anchors": ["src/ecmech/ECMech_evptn.h: EvptnUpdstProblem::computeRJ, stateFromX, getResponseSngl", "src/ecmech/ECMech_util.h: get_c_quat, emap_to_quat, quat_to_tensor, M35_d_AAoB_dA, veccp_to_skew"]}
{"id": "C46", "title": "Work is stored or dissipated", "statement": "In every successful call the end-of-step deviatoric work equals the elastic work plus the slip dissipation, which is never negative, up to the solver tolerance; the returned flow strength times the effective deformation rate is exactly the dissipation of the returned slip rates per current volume.", "quantifier": "all built-in models, inputs and accurate solvers", "why_tests_cant": "an inequality over a continuum of states and all slip systems", "anchors": ["src/ecmech/ECMech_evptn.h: computeRJ, getResponseSngl (flow strength)", "src/ecmech/ECMech_kinetics_VocePL.h: evalGdots", "src/ecmech/ECMech_kinetics_KMBalD.h: evalGdots"]}
{"id": "C47", "title": "Stress relaxes", "statement": "In a step without deformation and without volumetric or thermal load the stored elastic energy of the returned elastic strain does not exceed that of the elastic strain passed in, up to the solver tolerance.", "quantifier": "all built-in models with positive definite elastic constants, all states, spins, time steps and accurate solvers", "why_tests_cant": "an inequality over a continuum of states", "anchors": ["src/ecmech/ECMech_evptn.h: computeRJ, getResponseSngl"]}
{"id": "C48", "title": "The mini-app starts from the library's initial state", "statement": "Before the first step every history variable of every point has the initial value reported by getHistInfo, except the orientation, which is the one read for the point; the volume ratio is one, energy and stress are zero.", "quantifier": "both models, all orientations, numbers of points, orders of the loop and contents of the allocated memory", "why_tests_cant": "allocated memory usually happens to be zero", "anchors": ["miniapp/setup_kernels.cxx: init_data, setup_vgrad", "miniapp/orientation_evolution.cxx: main lines 356-375"]}
{"id": "C49", "title": "The printed stress is the mean over the points", "statement": "The average stress of the mini-app is the sum of the Voigt stresses of all points divided by their number.", "quantifier": "all numbers of points and stresses", "why_tests_cant": "all batch sizes", "anchors": ["miniapp/orientation_evolution.cxx: main lines 428-474"]}
{"id": "C50", "title": "The tolerance bounds the error relative to the applied deformation rate", "statement": "When a call succeeds, the returned strain, orientation and slip rates satisfy the equations of the step up to the solver tolerance times the applied deformation rate.", "quantifier": "all built-in models, parameters, points, deformation rates, time steps and accurate solvers", "why_tests_cant": "the test suite's expected values were produced by the code itself, including its looser scaling at low rates; the bound must hold for every rate", "anchors": ["src/ecmech/ECMech_evptn.h: EvptnUpdstProblem constructor (epsdot_scl_nzeff), computeRJ", "src/ecmech/ECMech_kinetics_KMBalD.h: getFixedRefRate"]}
{"id": "C51", "title": "Orientations keep unit length in double precision", "statement": "With rounding, overflow and NaN taken into account, after every successful call the stored orientation is NaN in all components or its squared length is 1 up to 1e-13; the error does not accumulate. If the solver returns finite moderate unknowns it is never NaN.", "quantifier": "all built-in models, solvers, histories of any length, time steps, deformation rates and orientations with length between 1e-100 and 1e100; all libms whose sin and cos are accurate to 2^-52", "why_tests_cant": "rounding errors depend on every input; drift shows only after very many steps", "anchors": ["src/ecmech/ECMech_evptn.h: getResponseSngl, stateFromX", "src/ecmech/ECMech_util.h: vecsVNormalize, emap_to_quat, quat_prod, get_c_quat"]}
{"id": "C52", "title": "Accumulated shear never decreases in double precision", "statement": "The reported effective shear rate is NaN or not negative, and the accumulated effective shear after a call is NaN or not below its value before, as compared in double arithmetic.", "quantifier": "all built-in models, doubles as inputs (infinities and NaN included), solvers and histories with time steps that are not negative", "why_tests_cant": "rounding of every sum", "anchors": ["src/ecmech/ECMech_evptn.h: getResponseSngl, computeRJ", "src/ecmech/ECMech_util.h: vecsssumabs"]}
{"id": "C53", "title": "The orientation does not jump to its antipode in double precision", "statement": "After each call the inner product of new and old orientation is not negative up to 1e-14 of the length of the old one, or the new orientation is NaN.", "quantifier": "all built-in models, solvers, inputs with orientation length between 1e-100 and 1e100", "why_tests_cant": "rounding may flip the sign test", "anchors": ["src/ecmech/ECMech_evptn.h: getResponseSngl lines 1219-1228"]}
{"id": "C54", "title": "Returned moduli are positive numbers in double precision", "statement": "When a call succeeds, the returned bulk modulus is a number that is not negative and the shear modulus a positive number, whatever NaN or infinity the state contains.", "quantifier": "all built-in models with finite elastic constants up to 1e300, all states", "why_tests_cant": "a NaN state must not reach the moduli for any input", "anchors": ["src/ecmech/ECMech_evptn.h: getGmod, getResponseSngl", "src/ecmech/ECMech_eosSimple.h: updateSimple"]}
{"id": "C55", "title": "Rounding does not make the construction of a model fail", "statement": "With double arithmetic the slip-system tables of FCC, BCC (12, 24, 48) and HCP pass the orthogonality tests; their Schmid tensors are accurate to 1e-14 (cubic) and 1e-11 (hexagonal). initFromParams of a cubic model accepts finite elastic constants with c11 + 2 c12 at least 1e-300 and rejects those with c11 + 2 c12 <= 0; that of the hexagonal model accepts constants up to m with 2 c11 + 2 c12 + 4 c13 + c33 >= 1e-14 m and p = q = 1, and rejects a sum below -1e-14 m. A NaN constant is accepted by cubic models.", "quantifier": "all models; parameter vectors with finite elastic constants up to 1e300; every double c/a in [1/2, 3]; all libms", "why_tests_cant": "all parameter vectors; the tables are compared with their exact values", "anchors": ["src/ecmech/ECMech_slipgeom.h: fillFromMS, SlipGeomFCC, SlipGeomBCC, SlipGeomHCPaBRYcaY1", "src/ecmech/ECMech_util.h: miller_to_orthog_sngl", "src/ecmech/ECMech_evptnWrap.h: initFromParams", "src/ecmech/ECMech_evptn.h: getBulkMod"]}
{"id": "C56", "title": "The mini-app runs what its input files say", "statement": "The mini-app starts with one point for each line of the orientation file after the first, the orientation of a point being the four numbers of its line (or with k unit quaternions for '#random k'), with the model, parameters and device named in the option and property files, in their order. Any other input ends with a message before a model is set up: a wrong number of arguments, a missing or short option file, a first line without keyword and number, a line without its numbers (the message names the first such line), a wrong number of parameters, an unknown model or device.", "quantifier": "all contents of all files, all arguments, any reader of numbers, any number of lines", "why_tests_cant": "Tests feed a few well-formed files; the claim is about every text, including missing final line ends, blank lines, extra words, and files of any length.", "anchors": ["miniapp/orientation_evolution.cxx: main lines 27-33, 152-265, 268-375", "miniapp/setup_kernels.cxx: init_data"]}
{"id": "C57", "title": "Moderate inputs give finite results in double precision", "statement": "When a call succeeds on inputs of ordinary size (time step, rates, energy, stress and elastic strain at most 1e30, relative volumes between 1e-3 and 1e3, parameters at most 1e30) and the nonlinear solver's answer is below 1e100, then the stored stresses, energy, temperature, moduli, elastic strains and orientation are all finite: no overflow and no NaN. The trace of the stored deviatoric stress is zero up to 1e-15 of its normal components. For the Voce models with rate sensitivity between 1e-6 and 1 the stored slip rates, effective shear rate and accumulated shear are finite too.", "quantifier": "all built-in models (Voce models for the rates), all batch sizes and points, all such inputs, any solver, any exp, log, pow, sin and cos accurate to 2^-50", "why_tests_cant": "overflow has to be excluded over sixty orders of magnitude of every input at once", "anchors": ["src/ecmech/ECMech_evptn.h: getResponseSngl, stateFromX, elastNEtoT, elastNEtoC, ThermoElastN*::eval", "src/ecmech/ECMech_eosSimple.h: updateSimple, evalT", "src/ecmech/ECMech_kinetics_VocePL.h: evalGdot"]}
{"id": "C58", "title": "Nonlinear Voce strength update stays between the old strength and saturation", "statement": "For the two material models with nonlinear Voce hardening, the implicit strength update has one solution between the old strength and the saturation strength, and a successful call stores it within the solver tolerance. (Holds below saturation; false above it: with exponent 2 a crystal whose strength exceeds saturation keeps hardening, faster the further it is above.)", "quantifier": "all old strengths, slip rates, time steps and parameters in range, all accurate hardness solvers", "why_tests_cant": "existence and uniqueness quantify over all reals; the wrong regime above saturation is only met after a change of strain rate", "anchors": ["src/ecmech/ECMech_kinetics_VocePL.h: getSdot1, getEvolVals, updateH", "src/ecmech/ECMech_kinetics.h: Kinetics_H1Problem, updateH1"]}
{"id": "C59", "title": "Hardening with several strengths solves each strength's own implicit equation", "statement": "The hardness update for several strengths (updateHN), when it returns, gives strengths that satisfy the coupled implicit equations within 1e-10 relative to max(1, old strength), and for one strength it is the scalar update. With the per-slip-system Voce kinetics of the repository, every updated strength is within that tolerance of the only solution of its own equation, which lies between its old value and saturation (nonlinear law: for strengths below saturation); without slip the strengths stay; every system slips by the power law at its own strength; the Jacobian given to the solver is exact, and for the linear law diagonal with entries at least 1; a successful update of a material point stores the strengths in its history and all are positive. A material model built on that class rejects every parameter set, because the class reports a single history variable.", "quantifier": "every number of strengths, rate law, solver meeting its documented tolerance, parameter vector, old strengths, slip rates and time step", "why_tests_cant": "the tests run one update with twelve equal strengths and look at the last one; coupling between systems, unequal strengths and the Jacobian need all inputs", "anchors": ["src/ecmech/ECMech_kinetics.h: updateHN, Kinetics_HNProblem", "test/test_aniso_kinetics_VocePL.h: KineticsAnisoVocePL", "test/test_aniso_hardening.cxx", "src/ecmech/ECMech_evptn.h: getResponseSngl"]}
{"id": "C60", "title": "Energy, pressure, temperature and bulk modulus are accurate in double precision", "statement": "In double precision arithmetic, for inputs, parameters and solver answers of moderate size, a successful call stores: an internal energy equal to the energy read plus the work done on the point (minus volume increment times pressure, plus time step times mean relative volume times mean stress power), a pressure, a temperature and a bulk modulus equal to those of the equation of state (with the anisotropic coupling term in hexagonal crystals), each within 1e-13 of the sum of the magnitudes of the terms of its formula and an absolute 1e-40. Over a history of calls the energy equals the initial energy plus the total work within the sum of these bounds.", "quantifier": "every built-in model, batch, point, moderate input and parameter, every solver and mathematical library accurate to 2^-50, every number of calls", "why_tests_cant": "rounding errors and cancellation depend on every input; accumulated drift depends on the number of calls", "anchors": ["src/ecmech/ECMech_evptn.h: getResponseSngl, elastNEtoT", "src/ecmech/ECMech_eosSimple.h: updateSimple, evalPT, evalPTDiff", "src/ecmech/ECMech_util.h: vecsInnerSvecDev", "src/ecmech/ECMech_evptn.h: ThermoElastNCubic, ThermoElastNHexag: eval"]}
{"id": "C61", "title": "The USE_DPEFF build differs from the default build in exactly two history values per point", "statement": "Built with the option USE_DPEFF (output effective plastic deformation rate instead of effective shear rate), the library has the same outcomes and computes the same stresses, energies, temperatures, moduli, tangents and history values as the default build, for any sequence of calls and stores into the buffers, except for the first two history values of each point. Those are the effective plastic deformation rate (the square root of 2/3 times the norm of the sum over the slip systems of stored slip rate times symmetrised Schmid tensor) and its time integral. The rate is not negative and at most the effective shear rate of the default build divided by the square root of 3; the integral never decreases. The two history entries are renamed, nothing else in the history description changes.", "quantifier": "every built-in model, batch, point, input, solver behaviour and number of calls; the comparison of the builds for every arithmetic, so bit for bit in doubles", "why_tests_cant": "the two builds are separate libraries, a test run exercises one of them; equality must hold for every input and every history of calls", "anchors": ["src/ecmech/ECMech_evptn.h: evalEv / computeRJ, ECMECH_USE_DPEFF (lines 665-669), getResponseSngl", "src/ecmech/ECMech_evptnWrap.h: initFromParams, getHistInfo (lines 230-236), getResponseECM", "cmake/ECMechOptions.cmake: USE_DPEFF"]}
{"id": "C62", "title": "Queries, logging, the output level and earlier responses do not influence later calls", "statement": "In any sequence of calls on one model object, the answer to a call depends only on the initFromParams, complete and setExecutionStrategy calls before it: queries, logParameters, setOutputLevel and getResponseECM calls can be dropped or added anywhere without changing the answers of the others. complete, setExecutionStrategy and setOutputLevel return normally at any time.", "quantifier": "every model class, every object, every finite sequence of API calls, every arithmetic", "why_tests_cant": "the statement compares all sequences of calls of any length; tests run a handful of fixed sequences", "anchors": ["src/ecmech/ECMech_matModelBase.h: matModelBase (setOutputLevel, setExecutionStrategy, logParameters, getRhoRef, isComplete)", "src/ecmech/ECMech_evptnWrap.h: matModel (initFromParams, getParams, getHistInfo, complete, getResponseECM)"]}
{"id": "C63", "title": "Rounding error of the stored deviatoric stress", "statement": "In double precision, for inputs, parameters and solver answers of moderate size, the six deviatoric stress components a successful getResponseECM call stores at a point are those of Hooke's law (cubic or hexagonal elastic constants, thermal anisotropy term of hexagonal crystals) applied to the elastic strain the call stores in the history and the relative volume passed in, turned into the sample frame by the orientation the call stores. The error is at most 1e-12 of the sum of the magnitudes of the elastic constants times those of the strains, and of the thermal term, plus 1e-40.", "quantifier": "every built-in model, every point of every batch, every input and parameter set in the stated range, every solver behaviour, every mathematical library of stated accuracy", "why_tests_cant": "a bound on rounding errors for all inputs; a test compares two numbers computed with the same rounding", "anchors": ["src/ecmech/ECMech_evptn.h: elastNEtoC, getResponseSngl (rotation of the stress to the sample frame)", "src/ecmech/ECMech_evptn.h: ThermoElastNCubic, ThermoElastNHexag eval", "src/ecmech/ECMech_util.h: quat_to_tensor, get_rot_mat_vecd, vecsVMa"]}
{"id": "C64", "title": "Results do not depend on the units of stress and time", "statement": "When the parameters, the time step, the loading and the incoming state of a point are expressed in other units of stress and energy (numbers lam times larger) and of time (numbers kap times larger), getResponseECM succeeds whenever it succeeded before, and every result is the old one expressed in the new units: energy, stress, pressure, moduli and flow strength times lam, rates divided by kap, elastic strain, orientation, accumulated shear, number of evaluations and temperature unchanged, strength as a stress or a density according to the hardening law. With an exact linear solver the tangent is multiplied by lam. Exceptions stated in the hypotheses: the code's comparison of rates with 1e-90, and its lower limit 1 for the scale of a Voce strength.", "quantifier": "all positive factors, every built-in model, every nonlinear solver, every point of every batch", "why_tests_cant": "tests run in one set of units; the claim is about every pair of unit systems and every loading", "anchors": ["src/ecmech/ECMech_evptn.h: EvptnUpdstProblem constructor, computeRJ, getResponseSngl", "src/ecmech/ECMech_kinetics_VocePL.h: setParams, getVals, evalGdot, updateH", "src/ecmech/ECMech_kinetics_KMBalD.h: setParams, getVals, evalGdot, updateH", "src/ecmech/ECMech_eosSimple.h: setParams, evalPT, updateSimple"]}
{"id": "C65", "title": "Results reach the Python caller", "statement": "After solve has returned normally from Python, the arrays the caller passed hold the results of the library call on their elements; arguments that cannot be used (not convertible to doubles, wrong shape, a number of points that is no int) raise an exception; a read-only array is not written; the developer interface hands back the temperature. (Holds for C-ordered arrays of doubles. False for arguments of another element type or kind: numpy's copy is updated and dropped, no error. False for read-only arrays, which are written. False for the temperature of getState, a C++ reference to a Python float.)", "quantifier": "all arguments of any kind, all conversions numpy may do, all shapes, all models", "why_tests_cant": "tests use arrays of doubles; the kinds, shapes and values of eight arguments are unbounded", "anchors": ["pyecmech/ecmech_pybind11.cpp: solve, getState", "pyecmech/ecmechpy.hpp: py_darray", "pyecmech/ecmechpy.cpp: solve, getState"]}
{"id": "C66", "title": "The state of a point is energy, stress and history", "statement": "What a material point carries from step to step is its energy, its stress and its history without entries 0 (shear rate), 2 (flow strength) and 3 (evaluation count). A calculation that hands on only these — written to a restart file, moved to another process, batch, position or memory layout, continued on another model object with the same parameters — gives the same results at the point after every later step as the uninterrupted one, bit for bit, whatever the buffers of temperature, moduli and tangent held. A call all of whose points are in states and steps of which each has succeeded somewhere succeeds. In particular it is enough to hand on energy, stress and the history entries that getHistInfo flags as state.", "quantifier": "all models, parameters, solvers, all arithmetics (doubles included), all sequences of calls of any length, all batches, layouts and positions at each step", "why_tests_cant": "histories, batches and the old contents of buffers are unbounded; a hidden dependence shows only for some of them", "anchors": ["src/ecmech/ECMech_evptn.h: getResponseSngl", "src/ecmech/ECMech_evptnWrap.h: getResponseECM", "src/ecmech/ECMech_evptnWrap.h: getHistInfo (_rhvState)"]}
{"id": "C67", "title": "What a call that throws leaves behind", "statement": "When getResponseECM throws because a solver does not converge at some point of the batch, the points before it have their results, the failing point keeps its energy, stress, history, moduli and tangent (only its temperature is written), and the points after it are untouched; with threads every point has either its results or its state. So those points can be continued from the buffers as they are, with other steps or in other batches, and the results are those of a calculation in which the failed call was never made. This needs parameters with which some call can succeed at all. (Two things do not hold: the call is not atomic over the batch, so it must not be repeated as a whole; and a model with a shear modulus that is not positive is accepted, and its calls throw after storing stress and history and before storing the energy.)", "quantifier": "all models, parameters, solvers, arithmetics, batches, interleavings, failing points, later calculations of any length", "why_tests_cant": "the point of failure and the stage of failure are arbitrary; a test sees one", "anchors": ["src/ecmech/ECMech_evptn.h: getResponseSngl", "src/ecmech/ECMech_evptnWrap.h: getResponseECM", "src/ecmech/ECMech_evptn.h: ThermoElastNCubic::getGmod"]}
{"id": "C68", "title": "The nonlinear Voce models with exponent one are the linear ones", "statement": "With the hardening exponent set to 1 the models evptn_FCC_AH and the nonlinear bcc Voce model give, in exact arithmetic, the same answers as evptn_FCC_A and the linear bcc Voce model with the remaining parameters: initialisation succeeds for the same values, history information, densities, responses (all buffers, success or failure) and parallel tasks are equal after every sequence of calls; only the parameter vector read back has the additional entry.", "quantifier": "all sequences of calls on an object, all parameters, strides, buffers, solvers", "why_tests_cant": "parameters, states and call sequences are unbounded; old strengths above saturation (where the base of the power is negative) are included", "anchors": ["src/ecmech/ECMech_kinetics_VocePL.h: setParams, getSdot1", "src/ecmech/ECMech_cases.h", "pyecmech/ecmechpy.cpp: matModelEvptn_BCC_B/BH typedefs"]}
{"id": "C69", "title": "Every crystal of the mini-app behaves as if it were alone", "statement": "Two crystals of the same orientation, in one run of the orientation-evolution mini-app or in two runs of the same number of steps with any other crystals, any number of crystals, any position in the orientation file, any order of the loops and any left-over contents of the allocated memory, end with the same stress, history, volume and energy; a run succeeds when each of its crystals occurs in some run that succeeds; the printed average stress is the mean of the stresses of the crystals run alone, and does not depend on the order of the crystals in the file. In floating point the equality of the crystals is bit for bit, and repeating a run prints the same digits when the device adds the points in the same way.", "quantifier": "all numbers of crystals (32-bit indices), orientations, numbers of steps, loop orders, initial memory, model and parameters accepted by the mini-app, solvers", "why_tests_cant": "the number of crystals and steps, the loop schedules and the left-over memory are unbounded; a run on one machine shows one schedule and one memory content", "anchors": ["miniapp/orientation_evolution.cxx: main", "miniapp/setup_kernels.cxx: init_data, setup_data", "miniapp/retrieve_kernels.cxx: retrieve_data", "miniapp/material_kernels.cxx: mat_model_kernel"]}
{"id": "C70", "title": "The printed average stress is the mean over the crystals on every device", "statement": "After a time step the mini-app prints, for each stress component, the mean over the crystals, however the device combines the partial sums; in double precision it differs from the exact mean of the stored stresses by at most a rounding error that grows with the depth of the reduction only, so two devices print the same up to that error, and a finite number printed means that every crystal's stress is finite.", "quantifier": "all numbers of crystals, stresses, orders and groupings of the reduction", "why_tests_cant": "the order in which a parallel reduction combines its parts is not specified and changes from run to run; the error bound ranges over all stresses", "anchors": ["miniapp/orientation_evolution.cxx: main (RAJA::ReduceSum over the stress array)"]}
{"id": "C71", "title": "The printed function-evaluation statistics are those of the solver", "statement": "With NEVALS_COUNTS the mini-app prints the least, mean and greatest number of function evaluations the solver needed at the crystals in the last step.", "quantifier": "all runs, numbers of crystals, orders of the reduction", "why_tests_cant": "the numbers look plausible in any one run; they must agree with the stored counters in all", "anchors": ["miniapp/orientation_evolution.cxx: NEVALS_COUNTS", "src/ecmech/ECMech_evptn.h: iHistA_flowStr, iHistA_nFEval"]}
{"id": "C72", "title": "The Python example's helper and time loop make the intended library calls", "statement": "The example's helper class accepts a vector for a single point, a scalar for a single number, or tables without gaps; it does nothing undefined and either throws or makes the library call on exactly these numbers and returns tables holding the results. The example's loop, for any number of steps, any model name and parameters accepted, any deformation rate, spin and time step, is a chain of library calls at one point: each call continues with the energy, stress, history and temperature of the one before, the first starts from the object's initial history without stress or energy, every call gets the same rate, spin and time step, and the volumes passed are those of a volume growing exponentially at the given rate, without drift. The script's loading is uniaxial extension along the first axis. The array shapes documented in the helper are accepted (refuted: six stress columns are always refused).", "quantifier": "all accepted models and parameter vectors, array layouts of rank 0, 1, 2, numbers of points, deformation rates, spins, time steps, numbers of time steps, solvers", "why_tests_cant": "the example is a single run of 41 steps; that state is carried over by aliasing promoted views and by rebinding returned arrays must hold for every model, loading and number of steps", "anchors": ["pyecmech/example.py: ECMechProb.solve, loop over time steps", "pyecmech/ecmechpy.cpp: solve", "pyecmech/ecmech_pybind11.cpp: pyECMech"]}
{"id": "C73", "title": "Below the slip thresholds a crystal is elastic", "statement": "Every slip system has a stress threshold (power law: strength times 1e-60 to the rate sensitivity; thermally activated kinetics: the athermal strength) up to which it does not slip at all; with the power law it slips beyond it. A successful call that ends with every resolved shear stress at or below its threshold stores zero slip rates, zero effective rate, zero flow strength and no new accumulated shear; the elastic strain takes up the whole deformation and the lattice turns with the spin of the sample and of the elastic strain, within the tolerance; the work done is the work of the elastic strain, in both directions within the tolerance. A history of any length that starts without slip and stays below the thresholds of the initial strength keeps the strength and the accumulated shear. Loading an unstrained crystal without spin gives exactly the elastic strain and stress, with unchanged orientation, whenever that stress is below the thresholds and the solver finds exact solutions.", "quantifier": "all built-in models, parameter vectors in range, states, orientations, deformation rates and spins, time steps, numbers of points, histories of any length, solvers", "why_tests_cant": "tests load a crystal well beyond the thresholds for a few steps; absence of slip must hold for every stress below the threshold, every orientation and every number of steps", "anchors": ["src/ecmech/ECMech_kinetics_VocePL.h: evalGdot", "src/ecmech/ECMech_kinetics_KMBalD.h: evalGdot", "src/ecmech/ECMech_evptn.h: computeRJ, getResponseEvptnSngl"]}
{"id": "C74", "title": "Every exact solution of a step is accepted, and every end state can be reached", "statement": "Take points whose strength update has an exact solution that the hardening solver finds (an implicit step of the hardening law; after a step without slip the strength is kept). If, for every point of a batch, an elastic strain and a lattice rotation satisfy the equations of the step exactly (kinematics of elastic strain, slip and spin at the end state, slip law at the new strength) and the nonlinear solver returns them when asked, the call succeeds and stores exactly these elastic strains, the orientation turned by exactly this rotation, the new strength, and the slip rates given by the slip law at the resulting resolved shear stresses. For every deviatoric elastic strain and every lattice rotation there are a deformation rate without volume change and a spin for which they are such an exact solution, whatever the time step; these are the only ones.", "quantifier": "all built-in models, parameter vectors in range, states, orientations, deformation rates, spins, end strains and rotations, time steps, numbers of points, solvers that find the solutions", "why_tests_cant": "tests compare a few loading paths with stored numbers; that no valid solution is turned away and no end state is out of reach must hold for every strain, rotation, crystal and step", "anchors": ["src/ecmech/ECMech_evptn.h: computeRJ, getResponseEvptnSngl", "src/ecmech/ECMech_evptnWrap.h: getResponseECM"]}
{"id": "C75", "title": "The loop over points of the developer example against a call of the library", "statement": "ECMechProbDev.solve of the developer example, with a root finder that behaves as the solver of the library, should leave in every row of the arrays what one library call on the same batch leaves for that point, and store nothing for a point that was not solved. It does so for stress, moduli and history (the evaluation counter is 0), leaves the inputs alone, and completes. It does not for the temperature (kept at the old value), for the energy (the work of all points handled before, in this and in earlier calls, is in it, times a member that nothing initialises) and for unsolved points (any answer of the root finder is stored, where the library throws).", "quantifier": "all classes the module can make, parameter vectors, batches of any size on which the library call succeeds, histories of the developer object, contents of the uninitialised members, root finders", "why_tests_cant": "the example has no test; what leaks from one point into the next shows only for batches of every size and objects with every history, and the root finder is outside the code", "anchors": ["pyecmech/example-dev.py: ECMechProbDev.solve, computeRJ, getState", "pyecmech/ecmech_classes.hpp: setup, computeRJ, getState", "pyecmech/ecmech_pybind11.cpp: pyECMechDev"]}
{"id": "C76", "title": "The mechanics of the Voce models does not depend on the thermal state", "statement": "Take two calculations with the same model with the Voce slip law (any of the four), whose parameters differ at most in density, heat capacity and the constants of the equation of state. If they impose the same steps (time step, deformation rate, spin, volumes) on a point that starts from the same history, then after every step the deviatoric stress, the whole history (elastic strain, orientation, strength, slip rates, accumulated shear, flow strength, solver counter) and the shear modulus are the same numbers, bit for bit, whatever energies, stresses, pressures and temperatures the caller supplies before each step; and a call succeeds in one exactly when it does in the other.", "quantifier": "all four Voce models, parameter vectors, equations of state, energies, stresses and temperatures, numbers of points, positions, layouts, sequences of steps, solvers, and any arithmetic", "why_tests_cant": "the tests use one set of thermal constants; that no thermal quantity leaks into the mechanical response must hold for every value of them and every loading history", "anchors": ["src/ecmech/ECMech_evptn.h: getResponseSngl, EvptnUpdstProblem, ThermoElastNCubic", "src/ecmech/ECMech_kinetics_VocePL.h: getVals", "src/ecmech/ECMech_evptnWrap.h: matModel"]}
{"id": "C77", "title": "Models with thermally activated slip feel the thermal state only through the energy at the start of the step", "statement": "Take two calculations with the same cubic model with the Kocks-Mecking (balanced thermally activated) slip law (evptn_FCC_B or evptn_BCC_A), whose parameters differ at most in density and Grueneisen constant. If they impose the same steps on a point that starts from the same history, and the internal energy (first energy entry) handed in before each step is the same, then after every step the deviatoric stress, the whole history and the shear modulus are the same numbers, bit for bit, whatever stresses, pressures and temperatures the caller supplies before each step; and a call succeeds in one exactly when it does in the other. In particular the temperature array is output only, and the pressure never enters the slip law. The same holds for the hexagonal model (evptn_HCP_A) if also the pressure handed in before each step is the same, since it enters the energy at the end of the step and with it the anisotropic thermal stress; density, isotropic Grueneisen constant, deviatoric stress and temperature handed in have no effect.", "quantifier": "all three models of this kind, parameter vectors, densities, Grueneisen constants, stresses, pressures (cubic models) and temperatures, numbers of points, positions, layouts, sequences of steps, solvers, and any arithmetic", "why_tests_cant": "the tests use one density and Grueneisen constant and always feed back the library's own stress and temperature; the independence must hold for every value of them and every loading history", "anchors": ["src/ecmech/ECMech_evptn.h: getResponseSngl, EvptnUpdstProblem, ThermoElastNCubic, ThermoElastNHexag", "src/ecmech/ECMech_kinetics_KMBalD.h: getVals", "src/ecmech/ECMech_eosSimple.h: evalPT", "src/ecmech/ECMech_evptnWrap.h: matModel"]}
{"id": "C78", "title": "Pressure and bulk modulus of the cubic models do not depend on the mechanics", "statement": "Take two successful calls, each of any of the six cubic models, with the same elastic constants c11 and c12 and the same Grueneisen constant. If at a point of each the new volume, the volume increment, the energy and the pressure handed in are the same, then the pressure and the bulk modulus handed back at the two points are the same numbers, bit for bit: whatever the slip laws and their parameters, c44, density, heat capacity, deformation rates, spins, time steps, histories, deviatoric stresses, solvers, layouts and numbers of points are, and whether or not the tangent is asked for.", "quantifier": "all pairs of cubic models, parameter vectors, calls, points, layouts, solvers, and any arithmetic", "why_tests_cant": "the tests compare a few runs of each model with stored numbers and never compare the pressure across models, solvers or histories; that nothing mechanical leaks into it, not even by rounding, must hold for every input", "anchors": ["src/ecmech/ECMech_evptn.h: getResponseSngl, ThermoElastNCubic", "src/ecmech/ECMech_eosSimple.h: updateSimple, evalPTDiff", "src/ecmech/ECMech_util.h: vecdsToSvecP", "src/ecmech/ECMech_evptnWrap.h: matModel"]}
{"id": "C79", "title": "The deviatoric stress handed in affects only the energy handed back", "statement": "Take two calculations with the same model and parameters that impose the same steps (rate, spin, volumes, time step, tangent asked for or not) on a point, start from the same history, and hand in the same energy and the same pressure before every step. Then after every step the stress, the history, the temperature, the moduli and the tangent at that point are the same numbers, bit for bit, whatever deviatoric stresses are handed in: only the energy handed back can differ. If one of them succeeds at every point, so does the other. In real arithmetic the energies handed back then differ by exactly a quarter of the sum of old and new volume, times the time step, times the deviatoric stress difference contracted with the deformation rate.", "quantifier": "all models, parameter vectors, sequences of steps of any length, points, numbers of points, layouts, solvers, stresses handed in, and any arithmetic", "why_tests_cant": "the tests always hand back the stress of the previous step; that a restart which lost or rounded the deviatoric stress reproduces everything but the energy must hold for every history and every stress", "anchors": ["src/ecmech/ECMech_evptn.h: getResponseSngl", "src/ecmech/ECMech_evptnWrap.h: matModel"]}
{"id": "C80", "title": "The trace of the deformation rate and the rate of the volume are without effect", "statement": "Of the seven numbers of the deformation rate the call uses the first six, and of the four volume numbers (old, new, rate, increment) all but the rate. Two calculations with the same parameters that agree in the step except in these two entries, and start from the same state, hand back the same energy, stress, history, temperature, moduli and tangent after every step, bit for bit, and one succeeds when the other does, even when the two entries contradict the rest of the step.", "quantifier": "all models, parameter vectors, sequences of steps of any length, points, numbers of points, layouts, solvers, values of the two entries, and any arithmetic", "why_tests_cant": "the tests pass consistent steps; that an inconsistent or uninitialised trace or volume rate never reaches any output must hold for every value, not a number included", "anchors": ["src/ecmech/ECMech_evptn.h: getResponseSngl", "src/ecmech/ECMech_util.h: svecToVecd, vecsInnerSvecDev", "src/ecmech/ECMech_evptnWrap.h: matModel"]}
