{"id": "C01", "title": "Potential derivatives are the derivatives of V", "statement": "For every concrete potential class without a feature, dV, d2V, d3V and d4V are the first to fourth derivatives of V with respect to phi.", "quantifier": "every parameter value, every amplitude Lambda, every field value in the domain of the class (including negative fields where the power is an integer)", "why_tests_cant": "tests compare against finite differences at a few field values and parameters; a wrong coefficient can vanish or hide below tolerance at those points", "anchors": ["primpy/potentials.py: MonomialPotential, LinearPotential, QuadraticPotential, CubicPotential, QuarticPotential, StarobinskyPotential, NaturalPotential, DoubleWellPotential, TmodelPotential, RadionGaugePotential: V,dV,d2V,d3V,d4V"]}
{"id": "C02", "title": "Feature potentials: derivatives up to third order", "statement": "For a potential with a Gaussian dip or tanh step, dV, d2V and d3V are the first three derivatives of V(phi)=V0(phi)(1+F(phi)).", "quantifier": "every Lambda, feature position, height, non-zero width, every phi", "why_tests_cant": "a sampled check far from the feature only sees the base potential", "anchors": ["primpy/potentials.py: GaussianDip, TanhStep, FeaturePotential, StarobinskyGaussianDipPotential, StarobinskyTanhStepPotential"]}
{"id": "C03", "title": "Feature potentials: fourth derivative", "statement": "For a potential with a feature, d4V is the fourth derivative of V.", "quantifier": "every feature parameter and field value", "why_tests_cant": "the tests only go to third derivatives for feature potentials; the inherited d4V ignores the feature", "anchors": ["primpy/potentials.py: FeaturePotential (d4V is not overridden), StarobinskyPotential.d4V"]}
{"id": "C04", "title": "Potential slow-roll hierarchy", "statement": "get_epsilon_1V equals (V'/V)^2/2 and each get_epsilon_{n+1}V (n=1,2,3) equals -(V'/V) d ln(epsilon_nV)/dphi, so the closed forms agree with V and dV of the same object.", "quantifier": "every featureless class, parameter value and field value where the quantities are defined", "why_tests_cant": "closed forms contain long polynomials whose errors can be small at sampled points", "anchors": ["primpy/potentials.py: get_epsilon_1V..get_epsilon_4V of every class"]}
{"id": "C05", "title": "inv_V inverts V", "statement": "V(inv_V(v)) = v for every attainable potential value v, and inv_V(V(phi)) = phi on the inflating branch of the field.", "quantifier": "every class without a feature, every amplitude and every v in the open range of V on the inflating branch", "why_tests_cant": "round trips are only sampled", "anchors": ["primpy/potentials.py: inv_V"]}
{"id": "C06", "title": "phi_end marks the end of slow-roll inflation", "statement": "The closed-form phi_end of a class is a positive field value with get_epsilon_1V(phi_end) = 1.", "quantifier": "every parameter value of Monomial (and fixed powers), Starobinsky, Natural, DoubleWell2, Tmodel, RadionGauge2", "why_tests_cant": "radicals (Cardano) are only tested at a few parameter values", "anchors": ["primpy/potentials.py: phi_end"]}
{"id": "C07", "title": "sr_phi2N counts slow-roll e-folds", "statement": "sr_phi2N(phi) is zero at phi_end and its derivative with respect to phi is V/V', so it equals the integral of V/V' from phi_end to phi.", "quantifier": "every class without a feature, every parameter and field value on the inflating branch (except the single degenerate double well p=1, phi0=sqrt 2)", "why_tests_cant": "an additive or multiplicative slip is invisible to a monotonicity or smoke test", "anchors": ["primpy/potentials.py: sr_phi2N"]}
{"id": "C08", "title": "sr_N2phi inverts sr_phi2N", "statement": "sr_phi2N(sr_N2phi(N)) = N for every N >= 0, and sr_N2phi(sr_phi2N(phi)) = phi on the inflating branch.", "quantifier": "every class without a feature, every N >= 0, every parameter; for Starobinsky every solution of the Lambert equation on branch -1", "why_tests_cant": "tests sample one or two N values", "anchors": ["primpy/potentials.py: sr_N2phi"]}
{"id": "C09", "title": "n_s and r conversions are inverse pairs", "statement": "sr_ns2Nstar inverts sr_Nstar2ns and sr_r2Nstar inverts sr_Nstar2r for monomial, Starobinsky and natural inflation.", "quantifier": "every N_star > 0 and admissible parameter", "why_tests_cant": "sampled only", "anchors": ["primpy/potentials.py: sr_Nstar2ns, sr_ns2Nstar, sr_Nstar2r, sr_r2Nstar"]}
{"id": "C10", "title": "Amplitude calibration is exact in slow roll", "statement": "The Lambda returned by sr_As2Lambda makes the leading-order slow-roll amplitude V/(24 pi^2 epsilon_1V) at phi_star equal to A_s, and does not depend on the Lambda the object had before.", "quantifier": "every class (with or without feature), every A_s > 0, phi_star in the domain and previous Lambda > 0", "why_tests_cant": "scaling with Lambda^4 and independence of the slow-roll parameters from Lambda must hold for every class", "anchors": ["primpy/potentials.py: InflationaryPotential.sr_As2Lambda, InflationaryPotential.__init__"]}
{"id": "C11", "title": "Constructor keyword handling of potentials", "statement": "Constructing a potential accepts exactly the documented keyword combinations: A_s requires exactly one of N_star and phi_star, unknown keywords are rejected, and without A_s the amplitude is the given Lambda (default 1).", "quantifier": "every set of keyword arguments", "why_tests_cant": "tests try a handful of the exponentially many combinations", "anchors": ["primpy/potentials.py: InflationaryPotential.__init__"]}
{"id": "C12", "title": "Deprecated phi2efolds agrees with sr_phi2N", "statement": "phi2efolds returns the same number of e-folds as sr_phi2N for Starobinsky, Natural, DoubleWell2 and DoubleWell4 potentials (for DoubleWell4 its radical phi_end_squared solves epsilon_1V=1).", "quantifier": "every phi on the inflating branch and every phi0", "why_tests_cant": "two independent closed forms of the same quantity, sampled only", "anchors": ["primpy/potentials.py: phi2efolds, phi_end_squared"]}
{"id": "C13", "title": "Friedmann constraint in cosmic time", "statement": "H2 computed from a state satisfies 3 H^2 = dphidt^2/2 + V - 3K/a^2, and along every solution of the coded ODE the derivative of H is get_dH (=H*get_dH_H), so the constraint is consistent with the evolution.", "quantifier": "every potential, curvature K and every solution trajectory with H2 > 0", "why_tests_cant": "tests integrate a few trajectories numerically", "anchors": ["primpy/time/inflation.py: InflationEquationsT.__call__, get_H2, get_dH, get_dH_H"]}
{"id": "C14", "title": "Closed-form time derivatives along cosmic-time solutions", "statement": "Along every solution of the cosmic-time equations, get_d2phi, get_d2H, get_d3H and get_d4phi are the derivatives of dphidt, get_dH, get_d2H and get_d3phi when fed true lower derivatives, for flat and curved universes.", "quantifier": "every potential, every K, every solution trajectory", "why_tests_cant": "hand-derived formulas with several terms; only sampled for a quadratic potential", "anchors": ["primpy/time/inflation.py: get_d2phi, get_d3phi, get_d4phi, get_d2H, get_d3H"]}
{"id": "C15", "title": "Third field derivative in curved universes (cosmic time)", "statement": "get_d3phi is the third cosmic-time derivative of the field along every solution for every K.", "quantifier": "every K including +1 and -1", "why_tests_cant": "the existing tests only exercise flat universes, where the missing curvature term vanishes", "anchors": ["primpy/time/inflation.py: get_d3phi"]}
{"id": "C16", "title": "Closed-form derivatives along e-fold solutions", "statement": "Along every solution of the e-fold equations, get_H2 satisfies the Friedmann constraint and get_dH, get_d2H, get_d3H, get_d2phi, get_d3phi, get_d4phi are the successive derivatives of H and phi with respect to N.", "quantifier": "every potential, K and solution trajectory with H2 > 0", "why_tests_cant": "as above", "anchors": ["primpy/efolds/inflation.py: InflationEquationsN"]}
{"id": "C17", "title": "The two time variables describe the same universe", "statement": "Mapping a cosmic-time state to (N, phi, dphidt/H) gives the same H2, w and inflating value in both equation classes, and turns every cosmic-time solution into a solution of the e-fold equations (and the t and eta components agree under dN = H dt).", "quantifier": "every state with H2 > 0, every K, every potential and solution", "why_tests_cant": "numerical comparison of two integrations only bounds the error at samples", "anchors": ["primpy/time/inflation.py: __call__, H2, w, inflating", "primpy/efolds/inflation.py: __call__, H2, w, inflating"]}
{"id": "C18", "title": "Hubble-flow parameters", "statement": "get_epsilon_1H = -d ln H/dN, get_epsilon_2H = d ln epsilon_1H/dN, get_epsilon_3H = d ln epsilon_2H/dN, and kind='Gong' gives (d epsilon_1/dt)/H and (d^2 epsilon_1/dt^2)/H^2; both equation classes return the same numbers for the same physical state.", "quantifier": "every smooth expansion history with the required non-vanishing denominators", "why_tests_cant": "long rational expressions, sampled only", "anchors": ["primpy/time/inflation.py: get_epsilon_1H..3H", "primpy/efolds/inflation.py: get_epsilon_1H..3H"]}
{"id": "C19", "title": "Field slow-roll parameters delta_n", "statement": "get_delta_1, get_delta_2, get_delta_3 of the two classes return the same value, namely d^{n+1}phi/dt^{n+1} / (H^n dphi/dt), when each is fed derivatives with respect to its own time variable.", "quantifier": "every smooth history with dphi != 0, H > 0", "why_tests_cant": "sampled only", "anchors": ["primpy/time/inflation.py: get_delta_1..3", "primpy/efolds/inflation.py: get_delta_1..3"]}
{"id": "C20", "title": "Inflating diagnostic means accelerated expansion", "statement": "inflating > 0 exactly when the scale factor accelerates and exactly when w < -1/3 (for positive energy density); inflating = 3 a''/a.", "quantifier": "every state and K (open, flat, closed), every solution trajectory", "why_tests_cant": "equivalence of three criteria on the whole state space", "anchors": ["primpy/time/inflation.py: inflating, w", "primpy/efolds/inflation.py: inflating, w", "primpy/events.py: InflationEvent"]}
{"id": "C21", "title": "Equation of state bounds", "statement": "w lies in [-1, 1] whenever V >= 0 and the energy density is positive, w=-1 exactly when the kinetic energy vanishes, w=1 exactly when V vanishes.", "quantifier": "every state", "why_tests_cant": "bounds over a continuum", "anchors": ["primpy/time/inflation.py: w", "primpy/efolds/inflation.py: w"]}
{"id": "C22", "title": "Variable registry is a bijection", "statement": "After adding distinct variable names in any calls to add_variable, idx maps the names to 0..n-1 in order of addition and each accessor method returns the corresponding component of y; a repeated name breaks this (index out of range).", "quantifier": "every finite sequence of add_variable calls", "why_tests_cant": "tests use two fixed variables", "anchors": ["primpy/equations.py: add_variable, _add_variable, _set_independent_variable"]}
{"id": "C23", "title": "Solution post-processing relabels without loss", "statement": "solve() exposes component i of y under the variable's name, the abscissa under the independent variable's name, and for distinct event names x_events[name], y_events[name] and <var>_events[name] hold exactly the data scipy returned for that event.", "quantifier": "every variable registry and every list of events with distinct names", "why_tests_cant": "dictionary bookkeeping over arbitrary many events", "anchors": ["primpy/equations.py: Equations.sol", "primpy/solver.py: solve"]}
{"id": "C24", "title": "Event names collide only by name", "statement": "Each tracked event's record is retrievable from the events dictionaries.", "quantifier": "every list of events", "why_tests_cant": "tests never track two events of one kind; events sharing a name (e.g. two UntilNEvent) silently overwrite each other", "anchors": ["primpy/events.py: names", "primpy/equations.py: Equations.sol"]}
{"id": "C25", "title": "Event functions vanish exactly at the tracked condition", "statement": "UntilN, UntilT, Collapse, Phi0, AfterInflationEnd, Inflation and ModeExit events return zero exactly when N=value, t=value, H2=value, phi=value, w=value, acceleration vanishes (offset value), respectively when aH=value.", "quantifier": "every state and value; InflationEvent except at its declared initial time", "why_tests_cant": "continuum of states", "anchors": ["primpy/events.py: __call__ methods"]}
{"id": "C26", "title": "Inflation start warning identifies missing tracking", "statement": "InflationStartWarning(events=...) claims that InflationEvent is not tracked only if no event with direction +1 is tracked.", "quantifier": "every list of tracked events", "why_tests_cant": "the message is never inspected by the tests; the key spelled 'dir+1' never occurs", "anchors": ["primpy/exceptionhandling.py: InflationStartWarning", "primpy/events.py: InflationEvent"]}
{"id": "C27", "title": "Start of inflation extraction", "statement": "_N_beg is NaN if the universe collapsed; otherwise the first e-fold if inflation holds at the start; otherwise the first recorded non-terminal start event; otherwise NaN with a warning when verbose.", "quantifier": "every solution record and event list", "why_tests_cant": "decision over arbitrary event histories", "anchors": ["primpy/inflation.py: postprocessing_inflation_start"]}
{"id": "C28", "title": "Start event with terminal=True", "statement": "If an InflationEvent with direction +1 is tracked and fires, _N_beg is the e-fold number of its first firing.", "quantifier": "every event configuration (terminal or not)", "why_tests_cant": "tests only use terminal=False", "anchors": ["primpy/inflation.py: postprocessing_inflation_start"]}
{"id": "C29", "title": "End of inflation extraction and N_tot", "statement": "_N_end, phi_end, H_end, V_end come from the first recorded end event (terminal event preferred), all are NaN if there is none, and N_tot=_N_end-_N_beg is finite exactly if both start and end were found.", "quantifier": "every solution record and event list", "why_tests_cant": "decision over arbitrary event histories", "anchors": ["primpy/inflation.py: postprocessing_inflation_end, sol"]}
{"id": "C30", "title": "SlowRollIC: N_i and Omega_Ki are interchangeable", "statement": "Initialising with N_i and re-initialising with the resulting Omega_Ki (or the other way round) gives the same N_i, Omega_Ki, aH_i and initial state, in curved universes.", "quantifier": "every K != 0, V_i > 0, N_i or Omega_Ki in the admissible range", "why_tests_cant": "sampled only", "anchors": ["primpy/initialconditions.py: SlowRollIC.__init__"]}
{"id": "C31", "title": "InflationStartIC starts exactly at the onset of inflation", "statement": "The initial state produced by InflationStartIC satisfies dphi/dt^2 = V, so the inflating diagnostic is zero, and the H of the equations at that state equals H_i = aH_i exp(-N_i); N_i and Omega_Ki are interchangeable (for e-folds except at Omega_Ki = -2, where dphi/dN^2 = 6 and the e-fold expression of H^2 is 0/0).", "quantifier": "every potential value, K, N_i or Omega_Ki in the admissible range, both time variables", "why_tests_cant": "sampled only", "anchors": ["primpy/initialconditions.py: InflationStartIC.__init__, __call__"]}
{"id": "C32", "title": "Initial conditions fill the whole state vector", "statement": "Calling an initial condition writes every component of y0 registered in the equations (including optional t and eta) and raises an assertion if a tracked quantity has no initial value.", "quantifier": "both equation classes and all tracking flags", "why_tests_cant": "combinations of flags", "anchors": ["primpy/initialconditions.py: SlowRollIC.__call__, InflationStartIC.__call__"]}
{"id": "C33", "title": "Initial curvature guards", "statement": "Exactly one of N_i and Omega_Ki must be given; Omega_Ki >= 1 and N_i with negative (aH)^2 raise InflationStartError; otherwise all derived quantities are finite real numbers.", "quantifier": "every K, V_i > 0 and keyword combination", "why_tests_cant": "boundary cases: (aH)^2 = 0 and Omega_Ki of the wrong sign are accepted and give infinities or NaN", "anchors": ["primpy/initialconditions.py: SlowRollIC.__init__, InflationStartIC.__init__"]}
{"id": "C34", "title": "Shooting objective has the right sign", "statement": "The function ISIC_Nt minimises is negative when the run yields less than N_tot e-folds (or no inflation / collapse), positive when it yields more, zero exactly when it yields N_tot; other outcomes raise.", "quantifier": "every integration outcome", "why_tests_cant": "rare outcomes (collapse, early end, step-size failure) are not hit by tests", "anchors": ["primpy/initialconditions.py: ISIC_Nt.__call__.phii2Ntot"]}
{"id": "C35", "title": "Shooting keeps the requested curvature input", "statement": "After ISIC_Nt or ISIC_NsOk has optimised phi_i the initial condition still has the user's N_i (or Omega_Ki) and the found phi_i, and the returned state is the InflationStartIC state for it.", "quantifier": "every root returned by the root finder", "why_tests_cant": "sampled only", "anchors": ["primpy/initialconditions.py: ISIC_Nt.__call__, ISIC_NsOk.__call__"]}
{"id": "C36", "title": "Flat N_star calibration puts the pivot scale at horizon crossing", "statement": "After calibrate_scale_factor(N_star=...) in a flat universe the calibrated comoving Hubble scale at _N_cross=_N_end-N_star equals the pivot scale: exp(_logaH_star+delta_N_calib)=K_STAR in Planck units, and all calibrated N differ from _N by the same constant.", "quantifier": "every background solution with enough e-folds and every 0 < N_star <= N_tot inside the sampled range", "why_tests_cant": "sampled only", "anchors": ["primpy/inflation.py: calibrate_scale_factor"]}
{"id": "C37", "title": "E-fold bookkeeping", "statement": "After any successful calibration of an object from its own background (no background keyword) N_star + N_dagg = N_tot = N_end - N_beg and N_cross = N_end - N_star.", "quantifier": "every geometry, calibration method and background", "why_tests_cant": "several independent assignments must agree on every path", "anchors": ["primpy/inflation.py: calibrate_scale_factor"]}
{"id": "C38", "title": "Wavenumbers are inverse comoving Hubble horizons", "statement": "k_iMpc equals 1/cHH_Mpc at every retained sample, and the conversion used by PrimordialPowerSpectrum maps the internal k of that sample to k_iMpc.", "quantifier": "every geometry, calibration method and sample", "why_tests_cant": "unit bookkeeping over all paths", "anchors": ["primpy/inflation.py: calibrate_scale_factor", "primpy/perturbations.py: PrimordialPowerSpectrum"]}
{"id": "C39", "title": "Flat reheating parametrisations agree", "statement": "Calibrating with (w_reh, DeltaN_reh), with (w_reh, rho_reh) for the derived rho_reh, with DeltaN_minus1 (plus rho_reh), or with the derived N_star (plus w_reh or plus rho_reh) gives the same calibration and the same reheating parameters.", "quantifier": "every background, w_reh > -1/3 (!= 1/3), DeltaN_reh > 0", "why_tests_cant": "six algebraic paths, sampled only", "anchors": ["primpy/inflation.py: calibrate_scale_factor"]}
{"id": "C40", "title": "Curved reheating round trip", "statement": "Calibrating a curved universe by (w_reh, DeltaN_reh) and then by the derived Omega_K0 and rho_reh reproduces a0, w_reh, DeltaN_reh and DeltaN_minus1.", "quantifier": "every K in {-1,+1}, h > 0, background, w_reh, DeltaN_reh", "why_tests_cant": "sampled only", "anchors": ["primpy/inflation.py: calibrate_scale_factor"]}
{"id": "C41", "title": "Curved reheating from w_reh and rho_reh", "statement": "In curved universes, calibrating with (w_reh, rho_reh) for the rho_reh derived from (w_reh, DeltaN_reh) recovers DeltaN_reh.", "quantifier": "every w_reh in (-1/3, 1), not only w_reh=0", "why_tests_cant": "the wrong prefactor (1+w)/3 coincides with the right 1/(3(1+w)) at w=0, the value tests use", "anchors": ["primpy/inflation.py: calibrate_scale_factor"]}
{"id": "C42", "title": "Omega_K0 calibration fixes the curvature radius", "statement": "calibrate_scale_factor(Omega_K0, h) sets a0 such that Omega_K0 = -K/(a0 H0)^2, the same a0 as bigbang.get_a0; the reheating calibration reports the Omega_K0 that would give its a0.", "quantifier": "every K, h > 0, Omega_K0 of the right sign", "why_tests_cant": "sampled only", "anchors": ["primpy/inflation.py: calibrate_scale_factor", "primpy/bigbang.py: get_a0"]}
{"id": "C43", "title": "Calibration argument validation", "statement": "calibrate_scale_factor raises ValueError/NotImplementedError/InsufficientInflationError exactly for the documented invalid argument combinations (non-zero Omega_K0 in flat universes, missing N_star or h, wrong sign of Omega_K0, contradictory reheating arguments, unknown method, pivot outside the inflation window).", "quantifier": "every argument combination and background", "why_tests_cant": "exponentially many combinations", "anchors": ["primpy/inflation.py: calibrate_scale_factor"]}
{"id": "C44", "title": "Wavenumber grid is duplicate free and recalibration keeps it", "statement": "After calibration logk has no repeated values and contains a sample for each distinct value of aH whose first occurrence lies inside inflation; calibrating again does not change which samples are retained.", "quantifier": "every sampled background", "why_tests_cant": "duplicates occur only for special grids", "anchors": ["primpy/inflation.py: calibrate_scale_factor (np.unique, inflation_mask)"]}
{"id": "C45", "title": "Instant reheating decision", "statement": "is_instant_reheating returns True exactly when N_star is None and either all reheating parameters are None or at least one of w_reh=1/3, DeltaN_reh=0, DeltaN_minus1=0 holds with all given others consistent and rho_reh None; raises ValueError exactly for contradictory combinations; otherwise False.", "quantifier": "every combination of None/real values of the five arguments", "why_tests_cant": "operator precedence of and/or over 2^5 presence patterns", "anchors": ["primpy/reheating.py: is_instant_reheating"]}
{"id": "C46", "title": "Approximate spectra refer to the current calibration", "statement": "P_s_approx/P_t_approx(k, method, order) return the spectrum of the current calibration for every method.", "quantifier": "every history of calibrate_scale_factor, derive_approx_power and P_s/t_approx calls", "why_tests_cant": "history dependent: LLMS and STE results are cached across recalibration, so a stale spectrum is returned; tests calibrate once", "anchors": ["primpy/inflation.py: derive_approx_power*, P_s_approx, P_t_approx"]}
{"id": "C47", "title": "Querying a spectrum does not change derived parameters", "statement": "Calling P_s_approx/P_t_approx never changes A_s, n_s, n_run, n_runrun, A_t, n_t, r.", "quantifier": "every history of queries", "why_tests_cant": "history dependent", "anchors": ["primpy/inflation.py: P_s_approx, P_t_approx, derive_approx_power"]}
{"id": "C48", "title": "set_ns shooting", "statement": "set_ns raises PrimpyError in curved universes or when the target lies outside the values at the bracket ends, hands the root finder only brackets with a sign change, and on success leaves the background calibrated with the root, so n_s is the target.", "quantifier": "every target, bracket and background", "why_tests_cant": "depends on the sign pattern at the bracket ends", "anchors": ["primpy/inflation.py: set_ns"]}
{"id": "C49", "title": "Consistency relation at leading order", "statement": "At leading order the approximate tensor and scalar spectra satisfy P_t = 16 epsilon_1 P_s.", "quantifier": "every sample", "why_tests_cant": "continuum", "anchors": ["primpy/inflation.py: derive_approx_power_CGS, _LLMS, _STE, _ARBDS"]}
{"id": "C50", "title": "Slow-roll expansions agree to second order", "statement": "The CGS series, the LLMS exponent, the STE series, and the ARBDS series for the amplitude at the pivot agree through second order in the Hubble-flow parameters, and the ARBDS series reproduces the LLMS spectral index and running at the order where they are defined.", "quantifier": "all values of the flow parameters (as polynomial identities)", "why_tests_cant": "truncation differences hide a wrong second-order coefficient in numerical tests", "anchors": ["primpy/inflation.py: derive_approx_power_LLMS, _STE, _ARBDS"]}
{"id": "C51", "title": "Mode solution matches the vacuum initial conditions", "statement": "With the coefficients (a,b) the combined solution a*y1+b*y2 has exactly the requested vacuum value and derivative at the start, and they are the only such coefficients.", "quantifier": "every complex initial data with non-zero Wronskian", "why_tests_cant": "continuum", "anchors": ["primpy/perturbations.py: _get_coefficients_a_b, _combine_solutions"]}
{"id": "C52", "title": "Mukhanov-Sasaki coefficients agree between time variables", "statement": "The frequency and damping used with cosmic time and with e-folds describe the same oscillator: a function solves the cosmic-time equation along a background solution exactly if it solves the e-fold equation, for scalar and tensor modes.", "quantifier": "every K, k and background state with H>0, dphi != 0", "why_tests_cant": "continuum", "anchors": ["primpy/time/perturbations.py: mukhanov_sasaki_frequency_damping", "primpy/efolds/perturbations.py: mukhanov_sasaki_frequency_damping"]}
{"id": "C53", "title": "Flat Mukhanov-Sasaki equation", "statement": "For K=0 the scalar coefficients are those of R'' + (H + 2 z'/z) R' + k^2/a^2 R with z = a dphi/H, and the tensor ones those with z replaced by a.", "quantifier": "every background solution and k", "why_tests_cant": "continuum", "anchors": ["primpy/time/perturbations.py: mukhanov_sasaki_frequency_damping"]}
{"id": "C54", "title": "Vacuum states are canonically normalised", "statement": "Each vacuum (k, HD, RST) for scalar and tensor modes has the canonical Wronskian (-i/(a z^2) per unit cosmic time; with factor 4 and z=a for tensors).", "quantifier": "every k > 0, background state with the required positive frequency", "why_tests_cant": "continuum", "anchors": ["primpy/time/perturbations.py: get_vacuum_ic_*", "primpy/efolds/perturbations.py: get_vacuum_ic_*"]}
{"id": "C55", "title": "Vacuum states agree between time variables", "statement": "The initial value is the same and the initial derivative differs by the factor H between the cosmic-time and e-fold classes for k, HD and RST vacua.", "quantifier": "every flat background state (and curved ones except where the third field derivative enters)", "why_tests_cant": "continuum; for curved universes the HD vacuum disagrees because of the third derivative", "anchors": ["primpy/time/perturbations.py: get_vacuum_ic_*", "primpy/efolds/perturbations.py: get_vacuum_ic_*"]}
{"id": "C56", "title": "HD vacuum uses the instantaneous conformal frequency", "statement": "The HD frequency squared is k^2 minus the conformal-time second derivative of z over z (of a over a for tensors).", "quantifier": "every background solution with smooth z", "why_tests_cant": "continuum", "anchors": ["primpy/time/perturbations.py: get_vacuum_ic_HD", "primpy/efolds/perturbations.py: get_vacuum_ic_HD"]}
{"id": "C57", "title": "Integration window of solve_oscode", "statement": "For each mode idx_beg <= idx_end, idx_end is the first sample where the horizon exceeds the mode by fac_end or, if that is less than 10 e-folds after the start, the first sample more than 10 e-folds after it; if no such sample exists IndexError is raised.", "quantifier": "every background sampling with increasing _N, every k, fac_beg, fac_end", "why_tests_cant": "index arithmetic over arbitrary arrays", "anchors": ["primpy/oscode_solver.py: solve_oscode"]}
{"id": "C58", "title": "Spectrum arrays are filled pointwise", "statement": "In the returned spectrum entry i of P_s_<vac>/P_t_<vac> depends only on k[i] (and the background), for every requested vacuum, and a scalar k returns the mode object; closed-universe scales k<1 are suppressed to 1e-30.", "quantifier": "every list of wavenumbers and vacua", "why_tests_cant": "suppression is applied to the RST scalar spectrum only", "anchors": ["primpy/oscode_solver.py: solve_oscode"]}
{"id": "C59", "title": "Present-day Hubble rate is recovered", "statement": "Hubble_parameter evaluated at N0=ln(a0) returns get_H0(h) in the same units.", "quantifier": "every h > 0, Omega_m0 >= 0, Omega_K0 for which no error is raised", "why_tests_cant": "continuum", "anchors": ["primpy/bigbang.py: Hubble_parameter"]}
{"id": "C60", "title": "No-Big-Bang line separates bouncing universes", "statement": "no_Big_Bang_line(Omega_m0) is the Omega_L0 such that for smaller or equal values E^2(a) stays non-negative for all past times and for larger values E^2 is negative at some past time (radiation neglected).", "quantifier": "every Omega_m0 >= 0 and Omega_L0", "why_tests_cant": "threshold property over all past times", "anchors": ["primpy/bigbang.py: no_Big_Bang_line"]}
{"id": "C61", "title": "Recollapse line separates recollapsing universes", "statement": "expand_recollapse_line(Omega_m0) is the Omega_L0 such that for larger or equal values E^2(a) stays non-negative for all future times and for smaller values E^2 is negative at some future time (radiation neglected).", "quantifier": "every Omega_m0 >= 0 and Omega_L0", "why_tests_cant": "threshold property over all future times", "anchors": ["primpy/bigbang.py: expand_recollapse_line"]}
{"id": "C62", "title": "Hubble parameter is real in the past", "statement": "If Hubble_parameter does not raise BigBangError the radicand is non-negative for every N <= N0 (radiation included), so H is a real number at all past times.", "quantifier": "every h, Omega_m0, Omega_K0 without error, every N <= N0", "why_tests_cant": "all past times", "anchors": ["primpy/bigbang.py: Hubble_parameter"]}
{"id": "C63", "title": "Scale factor today and curvature density", "statement": "get_a0 satisfies Omega_K0 = -K/(a0*H0)^2 in Planck units and units convert consistently (Planck length, Mpc, metres); get_H0 units likewise.", "quantifier": "every h > 0, Omega_K0 != 0", "why_tests_cant": "continuum", "anchors": ["primpy/bigbang.py: get_a0, get_H0", "primpy/units.py"]}
{"id": "C64", "title": "Comoving Hubble horizon units", "statement": "comoving_Hubble_horizon in 'SI' equals its 'Mpc' value times Mpc_m and its 'planck' value times lp_m.", "quantifier": "every N and cosmology without error", "why_tests_cant": "continuum", "anchors": ["primpy/bigbang.py: comoving_Hubble_horizon", "primpy/units.py"]}
{"id": "C65", "title": "Conformal time is additive and increasing", "statement": "conformal_time(N1,N3) = conformal_time(N1,N2)+conformal_time(N2,N3), is zero for equal limits, positive for N1<N2<=N0 and d eta/dN = exp(-N)/H.", "quantifier": "every cosmology without error, all limits up to today", "why_tests_cant": "continuum of integration limits", "anchors": ["primpy/bigbang.py: conformal_time"]}
{"id": "C66", "title": "Reheating equation of state from horizons", "statement": "get_w_delta_reh inverts the relation log cHH_reh - log cHH_end = (1+3w)/2 * (N_reh - N_end).", "quantifier": "every N_end != N_reh and w", "why_tests_cant": "continuum", "anchors": ["primpy/bigbang.py: get_w_delta_reh"]}
{"id": "C67", "title": "Reduced Planck units are coherent", "statement": "lp = c*tp, hbar = mp*c*lp, kB*Tp = mp*c^2, mp_GeV*lp_iGeV = 1 and tp_iGeV = lp_iGeV, so rho_GeV^4/mp_GeV*lp_iGeV^3 = (rho_GeV/mp_GeV)^4 and the conversions between rho_reh_GeV and rho_reh_mp4 are inverse.", "quantifier": "all positive values of the fundamental constants", "why_tests_cant": "a test only checks today's CODATA numbers", "anchors": ["primpy/units.py"]}
{"id": "C68", "title": "Power-law spectrum parameters are the log-derivatives at the pivot", "statement": "The power-law scalar spectrum has amplitude A_s, tilt n_s-1, running n_run and running-of-running n_runrun as log-derivatives at k_pivot; the tensor one A_t, n_t, n_t_run.", "quantifier": "all parameter values", "why_tests_cant": "continuum", "anchors": ["cobaya_wrapper/powerlaw_pps.py: power_law_primordial_scalar_pk, power_law_primordial_tensor_pk"]}
{"id": "C69", "title": "Power-law wrapper parameter resolution", "statement": "PowerLawPPS.calculate uses A_t if positive (requiring r = A_t/A_s), else r*A_s; n_t from the consistency relation when absent (rejecting a given non-zero n_t_run); the tensor-to-scalar ratio of the produced spectra at the pivot is r.", "quantifier": "every parameter dictionary with A_s > 0, A_t >= 0 and r >= 0", "why_tests_cant": "presence/absence patterns", "anchors": ["cobaya_wrapper/powerlaw_pps.py: PowerLawPPS.calculate"]}
{"id": "C70", "title": "Feature wrappers reduce to the power law when the feature is off", "statement": "With amplitude 0 the log- and linear-oscillation wrappers return the power-law spectra and any parameter set accepted by PowerLawPPS is accepted.", "quantifier": "every parameter dictionary", "why_tests_cant": "missing optional parameters (n_t given without n_t_run, oscillation parameters omitted) crash in the feature wrappers", "anchors": ["cobaya_wrapper/feature_pps.py: LogOscillationPPS.calculate, LinOscillationPPS.calculate, CutoffPPS.calculate"]}
{"id": "C71", "title": "Amplitude shooting loop terminates with a verified amplitude", "statement": "SlowRollPPS.calculate either returns after at most 11 background solutions with |A_s - target| below tolerance or raises; if the amplitude scales as Lambda^4 the second background already meets the target.", "quantifier": "every potential, target and background response", "why_tests_cant": "loop over an external solver", "anchors": ["cobaya_wrapper/slowroll_pps.py: SlowRollPPS.calculate"]}
{"id": "C72", "title": "Version bump passes the version check", "statement": "For every release version, bumping it (micro, minor or major) yields a version that unit_incremented accepts relative to the old one, and unit_incremented accepts nothing else among release versions.", "quantifier": "all triples of natural numbers", "why_tests_cant": "unbounded version numbers", "anchors": ["bin/bump_version.py", "bin/utils.py: unit_incremented", ".github/workflows/check_version.py: unit_incremented"]}
{"id": "C73", "title": "Pre-release after release check is a version order", "statement": "unit_incremented accepts a first pre-release of any larger base version.", "quantifier": "all version numbers", "why_tests_cant": "base versions are compared as strings, so 2.10.0 is not larger than 2.9.0; tests cannot enumerate digits", "anchors": ["bin/utils.py: unit_incremented"]}
{"id": "C74", "title": "Feature potentials: inverse and slow-roll parameters refer to the feature", "statement": "For a potential with a feature, V(inv_V(v)) = v and get_epsilon_1V = (dV/V)^2/2 for the V and dV of the same object.", "quantifier": "every feature position, height, width, amplitude and attainable v", "why_tests_cant": "far away from the feature the inherited featureless closed forms agree to within any tolerance; only near the feature they are wrong", "anchors": ["primpy/potentials.py: FeaturePotential (inv_V, get_epsilon_*V, phi_end, sr_* not overridden)"]}
{"id": "C75", "title": "Copied calibration: bookkeeping", "statement": "After calibrate_scale_factor(background=other) the e-fold bookkeeping N_star + N_dagg = N_end - N_beg = N_tot holds, and the call succeeds for runs that do not see the end of inflation themselves.", "quantifier": "every flat run and every calibrated background it copies from", "why_tests_cant": "the copied numbers meet the object's own numbers only for particular pairs of runs; the runs for which the keyword is documented are the ones without an end", "anchors": ["primpy/inflation.py: calibrate_scale_factor (background)"]}
{"id": "C76", "title": "Third-order slow-roll expansions agree", "statement": "The third-order spectra P_s/P_t of method CGS and of method ARBDS (at the wavenumber its series refers to) agree through third order in the Hubble-flow parameters.", "quantifier": "all values of the flow parameters and of zeta(3)", "why_tests_cant": "a wrong third-order coefficient changes the spectrum by less than any usable tolerance at realistic slow-roll parameters", "anchors": ["primpy/inflation.py: derive_approx_power_CGS, derive_approx_power_ARBDS"]}
{"id": "C77", "title": "Coded scalar equation is the linearised Einstein equation", "statement": "For every spatial curvature K, wavenumber k and cosmic-time background solution, the comoving curvature perturbation R = Phi + H dphi/phi' of any solution of the linearised Einstein equations (longitudinal gauge, 00 and 0i components) satisfies R'' + 2*damping*R' + frequency^2*R = 0 with the damping and frequency that the mode object computes from the background.", "quantifier": "every K, k, potential, background solution with phi' != 0 and non-degenerate kappa^2 + K eps, and every perturbation solution", "why_tests_cant": "a test can compare spectra for a few backgrounds; the identity has to hold at every point of every background in curved and flat space", "anchors": ["primpy/time/perturbations.py: ScalarModeT.mukhanov_sasaki_frequency_damping"]}
{"id": "C78", "title": "Power spectrum independent of the two starting solutions", "statement": "If the integrator propagates linearly and the mode functions are frozen over their last five samples, the power P = |u_end|^2 * norm computed from the two numerical solutions is that of the mode with the vacuum initial data, whatever (linearly independent) initial values y0 were used for the two solutions.", "quantifier": "every pair of complex initial data with non-zero Wronskian, every linear propagator, every grid", "why_tests_cant": "the choice of y0 is arbitrary and only a few choices can be tried", "anchors": ["primpy/perturbations.py: Perturbation._combine_solutions, _get_coefficients_a_b", "primpy/oscode_solver.py: solve_oscode"]}
{"id": "C79", "title": "solve_oscode stops well outside the horizon", "statement": "For a mode solved with fac_end, the last integration point handed to the oscillatory solver lies at least a factor fac_end outside the horizon (k <= aH/fac_end at that point), so that the returned power is evaluated after freeze-out.", "quantifier": "every calibrated background (arrays logaH, N of equal length), wavenumber k, fac_beg and fac_end for which solve_oscode does not raise", "why_tests_cant": "Depends on the shape of the sampled logaH array and on the position of the crossing sample relative to the 10-e-fold margin; a test fixes one background and a few k.", "anchors": ["primpy/oscode_solver.py: solve_oscode (idx_end computation)", "primpy/perturbations.py: Perturbation.__init__"]}
{"id": "C80", "title": "BigBangError exactly for universes without a Big Bang", "statement": "Hubble_parameter raises BigBangError if and only if the Friedmann equation with the density parameters of the call (radiation derived from h included) has no solution at some earlier time.", "quantifier": "every N, Omega_m0 >= 0, Omega_K0, h > 0", "why_tests_cant": "the criterion is evaluated on a dividing line that neglects radiation; the discrepancy is a thin region of parameter space", "anchors": ["primpy/bigbang.py: Hubble_parameter, no_Big_Bang_line"]}
{"id": "C81", "title": "BigBangWarning exactly for recollapsing universes", "statement": "Hubble_parameter warns if and only if the expansion stops at some later time (radiation included).", "quantifier": "every N, Omega_m0 >= 0, Omega_K0, h > 0 without error", "why_tests_cant": "thin region of parameter space", "anchors": ["primpy/bigbang.py: Hubble_parameter, expand_recollapse_line"]}
{"id": "C82", "title": "Conformal time ratio", "statement": "conformal_time_ratio is the conformal time before the end of inflation divided by the (positive) one from the end of inflation until today, and it does not depend on the arbitrary origin of the e-fold variable in flat universes.", "quantifier": "every calibrated background with conformal time and every cosmology without error", "why_tests_cant": "tests use curved universes only; invariance ranges over all origins", "anchors": ["primpy/bigbang.py: conformal_time_ratio"]}
{"id": "C83", "title": "Feature wrappers modulate scalars and tensors alike", "statement": "The log-oscillation, linear-oscillation and cutoff wrappers return the power-law scalar and tensor spectra multiplied, at each k, by one and the same documented factor; the factor is positive for |A|<1 and for a cutoff lies in (0,1) and grows with k.", "quantifier": "every wavenumber grid, parameter dictionary and feature parameters", "why_tests_cant": "ranges over all parameters and grids; the wrappers have no tests", "anchors": ["cobaya_wrapper/feature_pps.py: LogOscillationPPS.calculate, LinOscillationPPS.calculate, CutoffPPS.calculate"]}
{"id": "C84", "title": "Wavenumber grid is log-regular between kmin and kmax", "statement": "The grid declared log_regular starts at kmin, ends at kmax, has a constant ratio between neighbours and only positive entries.", "quantifier": "all grid indices", "why_tests_cant": "declared to the consumer as log_regular with kmin/kmax; nothing checks the relation between the number of points and the end points", "anchors": ["cobaya_wrapper/powerlaw_pps.py: ExternalPrimordialPowerSpectrum.initialize"]}
{"id": "C85", "title": "Hubble-flow approximations from potential slow-roll parameters have the claimed order", "statement": "get_epsilon_1 and get_epsilon_2 of every featureless potential approximate the Hubble-flow parameters (defined by the background equations: d phi/dN = -(V'/V)/(1+eps_2/(2(3-eps_1))) and eps_(n+1) = d ln eps_n/dN) with an explicit fourth-order error bound; get_epsilon_3 and get_epsilon_4 are accurate to second and first order, their next-order defect being exactly the fifth potential parameter that the code sets to zero. The value of the overall scale Lambda is irrelevant.", "quantifier": "every potential class, parameter, field value with V, V', eps_2V, eps_3V nonzero and the slow-roll parameters small; every flat trajectory point for the exact relation", "why_tests_cant": "the order of an asymptotic approximation is a bound over all field values; a test compares a handful of numbers to a tolerance", "anchors": ["primpy/potentials.py: InflationaryPotential.get_epsilon_1, get_epsilon_2, get_epsilon_3, get_epsilon_4"]}
{"id": "C86", "title": "ISIC_NsOk objective: sign, root and scale factor", "statement": "The function ISIC_NsOk shoots on is the calibrated N_star minus the requested one whenever the run inflates for more than N_star e-folds (calibration errors propagate), positive when the run goes beyond the present-day scale factor, -N_star when it collapses, inflates too little or ends at once; other outcomes raise. It vanishes exactly when calibrating the run to (Omega_K0, h) yields the requested N_star, and the N0 at which runs are stopped is the N0 the calibration assigns. Failure to start inflation raises (unlike ISIC_Nt).", "quantifier": "every integration outcome satisfying scipy's contract, every potential, curvature, time variable and input", "why_tests_cant": "rare outcomes are not hit by tests; the composition of solver, event bookkeeping and calibration is exercised for a few potentials only", "anchors": ["primpy/initialconditions.py: ISIC_NsOk.__init__, ISIC_NsOk.__call__.phii2Nstar", "primpy/bigbang.py: get_a0", "primpy/inflation.py: calibrate_scale_factor"]}
{"id": "C87", "title": "The searches for the end of inflation succeed", "statement": "For double-well potentials with 1 < p <= 2^50 and 0 < phi0 <= 2^51, and for radion gauge potentials with 1e-3 <= p <= 2^52 and alpha >= 2^-51, reading phi_end never fails and returns the only field value on the inflating branch with get_epsilon_1V = 1; for radion gauge potentials (p <= 1e6, alpha >= 2e-15) sr_N2phi(N) returns for every 0 <= N <= 900.", "quantifier": "every amplitude and all parameters in these ranges", "why_tests_cant": "root_scalar raises ValueError if its bracket does not straddle the root; tests try a few parameters out of ranges spanning many orders of magnitude", "anchors": ["primpy/potentials.py: DoubleWellPotential.phi_end, RadionGaugePotential.phi_end, RadionGaugePotential.sr_N2phi, EPS"]}
{"id": "C88", "title": "phi_end separates slow-roll inflation from its end", "statement": "On the inflating branch get_epsilon_1V(phi) < 1 exactly for phi > phi_end and > 1 exactly for phi < phi_end, and sr_phi2N(phi) is positive exactly where get_epsilon_1V(phi) < 1.", "quantifier": "every featureless class, amplitude, parameter (double wells with p >= 1) and field value on the branch", "why_tests_cant": "a statement about a whole continuum of field values on both sides of phi_end", "anchors": ["primpy/potentials.py: phi_end, get_epsilon_1V, sr_phi2N"]}
{"id": "C89", "title": "The power of one mode, end to end", "statement": "For a scalar wavenumber k, solve_oscode returns, for every requested vacuum, the power k^3/(2 pi^2)|u_end|^2 for scalar modes and k^3/pi^2 |u_end|^2 for tensor modes (up to the closed-universe override), where u_end is the late-time value of the Mukhanov-Sasaki solution that starts at the first sample of the mode's window with that vacuum's value and derivative, independently of the two real starting solutions chosen through y0 as long as these are linearly independent; the dense output gives the same power at every output point.", "quantifier": "all backgrounds, wavenumbers, windows, vacua, starting values with nonzero Wronskian, and all integrators that propagate linearly", "why_tests_cant": "Tests integrate a few modes and compare against stored spectra; the statement is about every background and start vector.", "anchors": ["primpy/oscode_solver.py: solve_oscode", "primpy/perturbations.py: Perturbation.oscode_postprocessing, _combine_solutions, coefficients_a_b", "primpy/time/perturbations.py", "primpy/efolds/perturbations.py"]}
{"id": "C90", "title": "Global behaviour along background solutions", "statement": "Along every solution of the background equations, in either independent variable: the other clock (e-folds for cosmic time, tracked time for e-folds) and conformal time strictly increase, the energy density of the inflaton never grows, the Hubble rate never grows unless the universe is closed, and the comoving Hubble rate aH grows while the 'inflating' diagnostic is non-negative and shrinks while it is non-positive.", "quantifier": "every potential, curvature, tracked-time option, solution and pair of times in its interval", "why_tests_cant": "A statement about every exact solution on every interval; a test sees sampled points of one numerical integration.", "anchors": ["primpy/time/inflation.py: InflationEquationsT.__call__, H2, inflating", "primpy/efolds/inflation.py: InflationEquationsN.__call__, H2, inflating"]}
{"id": "C91", "title": "solve() hands the user's settings to every integration", "statement": "solve(ic, **kwargs) integrates with the user's events, method (default RK45), rtol (default 1e-10), atol (default 1e-12) and every other keyword unchanged, and the trial runs of ISIC_Nt and ISIC_NsOk use the same settings, so that solve(ISIC_Nt(N_tot=T)) returns a solution with N_tot = T when the root finder found a root. Positional arguments after ic, the names ic, y0, fun, t_span, and events that are not a list of events are not accepted.", "quantifier": "every initial-condition class, keyword dictionary, integrator and root finder", "why_tests_cant": "Tests use default settings or one method; the claim is about every keyword dictionary and about what reaches an arbitrary integrator.", "anchors": ["primpy/solver.py: solve", "primpy/initialconditions.py: ISIC_Nt.__call__, ISIC_NsOk.__call__"]}
{"id": "C92", "title": "What the events mean along exact solutions and what ends a run", "statement": "On every step of an exact expanding background, in either time variable: UntilT/UntilN events are active exactly when the value is reached on the step; InflationEvent(direction=+1/-1) exactly when accelerated expansion starts/ends across the step; AfterInflationEndEvent only once expansion has stopped accelerating; CollapseEvent never (it is active exactly when H^2 changes sign, which cannot happen in flat or open universes with V > 0); ModeExitEvent during inflation exactly when aH passes k, once and upward. A trial run of the shooting classes is stopped on a step exactly when the target e-fold number is reached or acceleration ends there.", "quantifier": "every potential, curvature, solution, pair of times, event value", "why_tests_cant": "A statement about every exact solution and every step; tests look at a few recorded events.", "anchors": ["primpy/events.py: all classes", "primpy/initialconditions.py: ISIC_Nt.__call__, ISIC_NsOk.__call__"]}
{"id": "C93", "title": "The approximate spectra pass through their tables", "statement": "After a successful calibrate_scale_factor, P_s_approx and P_t_approx at a wavenumber of the grid k_iMpc return the entry of P_scalar_approx and P_tensor_approx there, also after any further spectrum or derive_approx_power calls. For CGS and STE the entry at index i is the published formula with the Hubble-flow parameters of the i-th sample, whose wavenumber is k_iMpc[i] = 1/cHH_Mpc; for LLMS and ARBDS it is the published expansion in ln(k/K_STAR) with the parameters interpolated to the pivot crossing. If K_STAR is on the grid, A_s, A_t and r are the table entries and their ratio there; at CGS order 0, r = 16 epsilon_1.", "quantifier": "every background, potential, calibration arguments, method, order, interpolating spline and later history of calls", "why_tests_cant": "Tests compare plots at loose tolerances for one model; agreement is needed at every grid point for every object and history.", "anchors": ["primpy/inflation.py: derive_approx_power, P_s_approx, P_t_approx, calibrate_scale_factor"]}
{"id": "C94", "title": "LLMS derived parameters are the published expressions at the pivot", "statement": "After calibrate_scale_factor(approx='LLMS') with K_STAR inside the range of k_iMpc, A_s, A_t, n_s, n_run, n_runrun = 0 and n_t are the second-order slow-roll expressions in the Hubble-flow parameters interpolated to the pivot crossing, whatever the grid.", "quantifier": "every background, potential, calibration argument and grid, for splines exact on parabolas", "why_tests_cant": "The values go through a spline over an arbitrary grid; a test sees one grid.", "anchors": ["primpy/inflation.py: derive_approx_power, calibrate_scale_factor"]}
{"id": "C95", "title": "Dense output of solve_oscode", "statement": "With num_eval = n > 0 the scalar and tensor modes get the same n output points x_eval, from the first to the last sample of the integration window (only the first if n = 1), increasing and inside the window, log-spaced in cosmic time (for positive times; a window starting at t = 0 gives NaN for all but the last) and evenly spaced in e-folds, with N_eval the same points shifted by the calibration; P_s_<vac>_eval and P_t_<vac>_eval are the normalised power of the solution with the vacuum's initial data at every output point. Asking for output points changes neither the spectrum nor the end values, and num_eval <= 0 sets no output attributes and changes nothing else.", "quantifier": "every background, wavenumber, vacuum list, window factors, number of points and integrator propagating the two solutions", "why_tests_cant": "Tests compare a few shapes; the claims are about every window, number of points and integrator.", "anchors": ["primpy/time/perturbations.py: ScalarModeT.__init__, TensorModeT.__init__", "primpy/efolds/perturbations.py: ScalarModeN.__init__, TensorModeN.__init__", "primpy/perturbations.py: Perturbation.oscode_postprocessing, _combine_solutions", "primpy/oscode_solver.py: solve_oscode"]}
{"id": "C96", "title": "Modes stay bounded and freeze out", "statement": "Along every background, a tensor mode (any curvature, non-negative frequency) and a scalar mode in flat space (as long as |a phi'/H| does not shrink) never gains energy a^2|u'|^2 + kappa|u|^2, so it stays bounded; between two instants it moves by at most the square root of that energy times the elapsed conformal time; and while -H'/H^2 <= e < 1 all later change is at most sqrt(|du/dN|^2 + (|u|/fac)^2)/(1-e) once k <= aH/fac. The value read at the end of the integration window is therefore the final one up to this bound, in cosmic time and in e-folds alike.", "quantifier": "all potentials, curvatures, wavenumbers, background solutions, mode solutions and pairs of instants", "why_tests_cant": "A bound over all solutions of an ODE with arbitrary background; a test integrates one mode.", "anchors": ["primpy/time/perturbations.py: mukhanov_sasaki_frequency_damping", "primpy/efolds/perturbations.py: mukhanov_sasaki_frequency_damping", "primpy/oscode_solver.py: solve_oscode"]}
{"id": "C97", "title": "Vacua prepare the positive-frequency state", "statement": "A mode started from the k vacuum (HD vacuum) has canonical variable z u (z = a phi'/H for scalars, a for tensors) with amplitude c/sqrt(2w), c = 1 for scalars and 2 for tensors, and conformal-time derivative -i w z u, with w = k (the HD frequency); one started from the RST vacuum has the same amplitude and u' = -i k/a u without a term from z'. In cosmic time and in e-folds.", "quantifier": "every curvature, potential, background solution, instant, wavenumber and mode with these initial data", "why_tests_cant": "A relation between the derivative of the background-dependent z and the initial data at every state; the Wronskian (C54) is blind to the real part of the derivative.", "anchors": ["primpy/time/perturbations.py: get_vacuum_ic_k, get_vacuum_ic_HD, get_vacuum_ic_RST", "primpy/efolds/perturbations.py: get_vacuum_ic_k, get_vacuum_ic_HD, get_vacuum_ic_RST"]}
{"id": "C98", "title": "The slow-roll wrapper's outputs always exist", "statement": "Whenever solving the background and the wrapper's calibration stage (reheating, N_star or n_s mode) succeed, the output stage cannot fail and does not modify the background object: it returns one positive power per wavenumber for scalars and tensors and a dictionary with exactly the 17 advertised derived parameters in order, each the number stored under that name on the background object; at the pivot the spectra equal the reported A_s and A_t, with r = A_t/A_s. More generally every successful calibration, flat or curved, by any method, leaves N_star, N_end, N_reh, w_reh, DeltaN_reh, rho_reh_GeV, DeltaN_minus1, A_s, n_s, n_run, n_runrun, A_t, n_t, r as numbers.", "quantifier": "all solutions, equations, constants, splines, calibration arguments and modes, root finders acting only through their function, and wavenumber lists", "why_tests_cant": "An attribute missing on one of the many combinations of calibration arguments raises AttributeError only there; tests cannot enumerate arguments, backgrounds and root-finder histories.", "anchors": ["cobaya_wrapper/slowroll_pps.py: SlowRollPPS.calculate, get_can_provide_params", "primpy/inflation.py: calibrate_scale_factor, set_ns, derive_approx_power, P_s_approx, P_t_approx", "primpy/solver.py: solve"]}
{"id": "C99", "title": "The flow parameters behind the approximate spectra are derivatives of the solution", "statement": "The numbers computed from a sample (N, H, phi, phi') of a solution for the slow-roll spectra are, along the exact solution: eps_1 = -dlnH/dN, eps_2 = dln eps_1/dN, eps_3 = dln eps_2/dN, delta_n = (d^(n+1)phi/dt^(n+1))/(H^n dphi/dt), and Gong's eps_2, eps_3 are the derivatives of eps_1 - in e-folds for every curvature, in cosmic time for flat universes (for curved ones up to first order; delta_2 is then off by exactly 3K/(aH)^2, see C15). For one physical state both time variables give the same numbers in flat space, and the same first-order numbers in curved space.", "quantifier": "all potentials, curvatures, exact solutions and instants", "why_tests_cant": "An identity between pointwise formulas and derivatives along every solution.", "anchors": ["primpy/inflation.py: derive_approx_power_CGS, derive_approx_power_LLMS, derive_approx_power_STE, derive_approx_power_ARBDS", "primpy/time/inflation.py: get_epsilon_1H, get_delta_1", "primpy/efolds/inflation.py: get_epsilon_1H, get_delta_1"]}
{"id": "C100", "title": "The energy scale Lambda is only a unit", "statement": "Multiplying the potential by a constant c > 0 (Lambda -> c^(1/4) Lambda) changes nothing but units: every potential is Lambda^4 times a function of the field, so the slow-roll field values and e-fold numbers do not depend on Lambda, and the amplitude found for a requested A_s does not depend on the Lambda the object had before; every background solution, with time rescaled (and the e-fold origin moved, and K scaled accordingly), is a solution for c V with H multiplied by sqrt(c) and the same equation of state and Omega_K; the Hubble-flow numbers are unchanged and all approximate spectra are multiplied by c; and solve_oscode on the rescaled background at rescaled wavenumbers returns exactly the same result with every scalar and tensor power multiplied by c and the same wavenumbers in 1/Mpc, or the same exception.", "quantifier": "all potentials, c > 0, shifts of the e-fold origin, background solutions and tables, wavenumbers, vacua, and answers of the external ODE solver", "why_tests_cant": "A symmetry of the whole pipeline for every input and every solver answer.", "anchors": ["primpy/potentials.py: InflationPotential.sr_As2Lambda, V, dV", "primpy/inflation.py: derive_approx_power", "primpy/efolds/inflation.py: InflationEquationsN", "primpy/time/inflation.py: InflationEquationsT", "primpy/efolds/perturbations.py: ScalarModeN, TensorModeN", "primpy/oscode_solver.py: solve_oscode"]}
{"id": "C101", "title": "What the slow-roll Cobaya wrapper makes of its parameters", "statement": "The result of a slow-roll wrapper depends only on the parameters it declares as supported. It works only if A_s is given and exactly the parameters of the potential class it is named after are given (never for the base class); then every background is solved for that potential with exactly those parameters and the trial amplitude; the first amplitude reproduces the requested A_s in slow roll at N_star (75 if not given), and the field starts at 90 slow-roll e-folds before the end of inflation (never beyond phi0 for potentials that have one).", "quantifier": "all parameter dictionaries, wrapper classes, and answers of the background solver, calibration, Lambert-W and root finder", "why_tests_cant": "Ranges over every dictionary of parameters and every potential class; tests run one dictionary per class.", "anchors": ["cobaya_wrapper/slowroll_pps.py: SlowRollPPS.get_can_support_params, SlowRollPPS.calculate, the subclasses", "primpy/potentials.py: InflationaryPotential.__init__, sr_As2Lambda, sr_N2phi"]}
{"id": "C102", "title": "The origin of the e-fold count is a convention in flat universes", "statement": "Adding a constant to every number of e-folds of a flat run (samples, begin and end of inflation) changes neither the outcome of calibrate_scale_factor (exception, warnings) nor N, N_beg, N_end, N_cross, N_star, N_reh, wavenumbers, comoving Hubble horizons, spectra or their parameters; only the internal quantities that refer to the origin (_N_cross, _N_reh, _logaH_star, delta_N_calib, _k, a0_Mpc) move along.", "quantifier": "all flat backgrounds, constants, keyword arguments of the calibration, methods and orders of the spectra, spline implementations", "why_tests_cant": "A symmetry that must hold for every background and shift.", "anchors": ["primpy/inflation.py: calibrate_scale_factor, derive_approx_power"]}
{"id": "C103", "title": "Cosmic time or e-folds: the same calibrated solution", "statement": "If a run in cosmic time and a run in e-folds of a flat universe contain the same N, H and phi samples and velocities related by dphi/dt = H dphi/dN, calibrate_scale_factor has the same outcome (exception, warnings) on both and all calibrated attributes, spectra and their parameters are the same numbers.", "quantifier": "all flat backgrounds with epsilon_2 != 0 on the samples in use, keyword arguments, methods and orders, spline implementations", "why_tests_cant": "The two classes have independent formulas for eight flow parameters; agreement is needed for every sample.", "anchors": ["primpy/inflation.py: calibrate_scale_factor, derive_approx_power", "primpy/time/inflation.py: InflationEquationsT", "primpy/efolds/inflation.py: InflationEquationsN"]}
{"id": "C104", "title": "A calibration does not depend on what was done to the object before", "statement": "After any sequence of calibrations (successful or failed, any arguments) and spectrum queries, calibrate_scale_factor has the same outcome and sets the same calibrated attributes, spectra and parameters as on the untouched solution object.", "quantifier": "all histories of calls on all solution objects", "why_tests_cant": "Quantifies over histories of arbitrary length, including failed calls that leave half-updated attributes.", "anchors": ["primpy/inflation.py: calibrate_scale_factor, P_s_approx, P_t_approx"]}
{"id": "C105", "title": "The order of the events and other tracked events are irrelevant", "statement": "Two runs of the same equations that return the same samples, and for which the events that mark collapse, start and end of inflation recorded the same, give solution objects with the same warnings and the same value of every attribute except the list of event names; the event dictionaries have the same entries under every event name for which the same was recorded. In particular the order in which events are passed to solve() does not matter, and tracking an additional event of another kind adds its entries to the event dictionaries and changes nothing else.", "quantifier": "all equations of the package, all lists of events with distinct names, all samples and event records returned by the integrator", "why_tests_cant": "Ranges over every list of events, every permutation of it and every integrator result; tests use one order.", "anchors": ["primpy/solver.py: solve", "primpy/equations.py: Equations.sol", "primpy/inflation.py: InflationEquations.postprocessing_inflation_start, postprocessing_inflation_end, sol", "primpy/events.py: Event.name"]}
{"id": "C106", "title": "The sign and the origin of the field are conventions", "statement": "Re-expressing a potential in the coordinate g*phi + c with g = 1 or -1 changes nothing observable: the equations of motion (cosmic time and e-folds), H^2, w and the inflating criterion are the same at the corresponding state, the moved history of a background is a background of the moved potential, every event function keeps its value (a Phi0Event asked for at the moved place keeps it up to the sign g), all Hubble-flow numbers behind the approximate spectra are the same, and solve_oscode returns exactly the same result. In particular for the package's symmetric potentials (monomials, natural about minimum and maximum, double wells, integer T-models, even radion gauge) starting from the mirror-image field value and velocity gives the mirror-image evolution and the same primordial power spectra.", "quantifier": "every potential object, curvature, state, solution, wavenumber(s), vacuum choice, independent variable, and whatever the mode solver returns", "why_tests_cant": "a symmetry of the whole pipeline for all potentials and histories; tests sample a handful of trajectories, always with the field rolling in one direction", "anchors": ["primpy/time/inflation.py: InflationEquationsT", "primpy/efolds/inflation.py: InflationEquationsN", "primpy/events.py", "primpy/oscode_solver.py: solve_oscode", "primpy/time/perturbations.py", "primpy/efolds/perturbations.py", "primpy/potentials.py"]}
{"id": "C107", "title": "The Friedmann equation survives rounding in flat and open universes", "statement": "Evaluated in double precision, operator by operator, get_H2 of a flat universe is never negative, is positive and within six units of roundoff (2^-53) of the exact value for every double field velocity and every double V >= 2^-1000; in e-folds the same holds for (dphi/dN)^2 <= 3 (non-negativity up to 6). In open universes (K = -1) it is positive and within 8 (cosmic time) or 12 (e-folds) units of roundoff. No intermediate result overflows while V and dphi^2 are below 2^500. With positive curvature (K = 1) the e-folds formula never gets the sign of H^2 wrong for the computed exp(-2N). (The cosmic-time formula does lose all relative accuracy by cancellation when K = 1: an explicit state has H^2 > 0 and computed value 0.)", "quantifier": "every double-precision state and potential value above 2^-1000, every faithfully rounded pow and every accurate exp", "why_tests_cant": "a statement about all 2^64 bit patterns of each argument; tests compare a few values with a tolerance", "anchors": ["primpy/time/inflation.py: InflationEquationsT.get_H2, w, inflating", "primpy/efolds/inflation.py: InflationEquationsN.get_H2, w, inflating"]}
{"id": "C108", "title": "The computed equation of state stays between -1 and 1", "statement": "In double precision w(x, y) always lies in [-1, 1] and is never a division by zero when V > 0: in cosmic time for any curvature, in e-folds whenever the computed H^2 is not negative. Rounding cannot produce w slightly below -1 or above 1.", "quantifier": "every double-precision state and potential value > 0, every curvature, every faithfully rounded pow and every exp", "why_tests_cant": "a range property of all doubles; a violation would appear only for particular roundings", "anchors": ["primpy/time/inflation.py: InflationEquationsT.get_H2, w, inflating", "primpy/efolds/inflation.py: InflationEquationsN.get_H2, w, inflating"]}
{"id": "C109", "title": "Rounding does not flip the criterion for inflation", "statement": "In cosmic time the double-precision value of inflating(x, y) is positive only if dphi^2 < V exactly, negative only if dphi^2 > V exactly, and zero if they are equal; it vanishes exactly when the rounded square equals V. In e-folds (flat) it has the right sign unless (dphi/dN)^2 is within 16 units of roundoff of 2.", "quantifier": "every double-precision state with V >= 2^-1000 (e-folds) or any V (time), every faithfully rounded pow", "why_tests_cant": "the criterion drives event detection near its zero, precisely where rounding matters; all doubles near the zero are covered", "anchors": ["primpy/time/inflation.py: InflationEquationsT.get_H2, w, inflating", "primpy/efolds/inflation.py: InflationEquationsN.get_H2, w, inflating"]}
{"id": "C110", "title": "The state at one moment determines the whole evolution", "statement": "Two backgrounds of the same equations (same K, same potential) that have the same state vector at one moment have the same state vector at every moment both cover, in cosmic time and in e-folds. In cosmic time only the elapsed time matters: equal states at different times are followed by equal states. The options track_time and track_eta do not influence phi, dphi/dN or H; the tracked clocks of two such runs differ by a constant. A cosmic-time run and an e-fold run that describe the same universe at one moment do so at every moment both cover: the e-fold state at N(t) is the cosmic-time state at t.", "quantifier": "every curvature, every potential with three derivatives along the trajectories, every pair of expanding solutions on any overlapping intervals, every combination of options", "why_tests_cant": "uniqueness ranges over all solutions of the equations of motion and all moments, and needs Lipschitz bounds that hold along unknown trajectories", "anchors": ["primpy/time/inflation.py: InflationEquationsT.__call__, H2", "primpy/efolds/inflation.py: InflationEquationsN.__call__, H2", "primpy/equations.py: Equations.add_variable"]}
{"id": "C111", "title": "Bumping the version keeps its two declarations consistent", "statement": "If primpy/__version__.py ends with the assignment of a version and README.rst declares the same version (last line containing ':Version:'), then after bin/bump_version.py, with any update type, both files declare exactly the bumped version and tests/test_version.py passes; the same holds after any sequence of bumps. No line is added or removed and lines that do not contain the current version are unchanged. (Lines other than the declaration that contain the characters of the version are rewritten too.)", "quantifier": "every version (with or without pre-release tag), every README text, every update type, every sequence of bumps", "why_tests_cant": "the test only checks the two files of one commit; the claim is about every text sed may meet and every history of releases", "anchors": ["bin/bump_version.py", "tests/test_version.py: test_version", "primpy/__version__.py", "README.rst"]}
{"id": "C112", "title": "The vacuum determines the mode, and both time variables give the same power", "statement": "On a background (in cosmic time or in e-folds) on which the mode equations are regular, there is at most one mode function that starts from given initial data at a given moment, and it is the linear combination, with the initial value and derivative as coefficients, of the two basis solutions that the code evolves; and two independent runs, one in cosmic time and one in e-folds, that describe the same universe at one moment and start a mode of wavenumber k there from the same vacuum (any of Bunch-Davies/k, Hamiltonian diagonalisation, renormalised stress-energy; for scalars the Hamiltonian-diagonalisation one only without curvature, see C55) give the same value of the mode function, hence of the power, at every later and earlier moment.", "quantifier": "every potential, curvature, wavenumber, background in either time variable, initial moment, vacuum, scalar and tensor modes", "why_tests_cant": "tests compare the two time variables numerically for a few potentials and wavenumbers with tolerances; uniqueness is a statement about all functions satisfying the equation", "anchors": ["primpy/time/perturbations.py: CurvaturePerturbationT, TensorPerturbationT", "primpy/efolds/perturbations.py: CurvaturePerturbationN, TensorPerturbationN", "primpy/perturbations.py: Mode", "primpy/oscode_solver.py: solve_oscode"]}
{"id": "C113", "title": "Equations and initial-condition objects can be kept and used again", "statement": "In any sequence of operations that builds equations objects, builds initial-condition objects of the four classes on them and calls solve on these (with any keywords, also in runs that fail), solving an initial-conditions object returns the solution, or raises the exception, that the same request gives in a fresh session; in particular asking twice gives the same answer twice, although shooting objects overwrite their own attributes, and objects sharing equations do not influence each other's results. Constructors succeed or fail as on fresh equations. Throughout, an initial-conditions object keeps its class, targets (N_tot, N_star, Omega_K0, h, bracket) and options, and after a successful solve its attributes are those of the initial conditions that were integrated.", "quantifier": "every finite history of constructor and solve calls, every integrator and root finder, every keyword", "why_tests_cant": "tests build fresh objects for each assertion; the claim ranges over all histories of a mutable object, including failed calls", "anchors": ["primpy/initialconditions.py: SlowRollIC, InflationStartIC, ISIC_Nt, ISIC_NsOk (__init__, __call__)", "primpy/solver.py: solve", "primpy/inflation.py: InflationEquations.__init__"]}
{"id": "C114", "title": "Verbosity decides which warnings are shown and nothing else, and the requested verbosity is honoured", "statement": "The verbose flags never change a result or exception; the warnings of a run are exactly those it deserves if the verbosity in force is on, and none otherwise; trial runs of a shooting object show warnings only if both the object and the equations are verbose; and the verbosity in force is the one requested when the equations were built. (The last part is false of the code: building a shooting object ISIC_Nt or ISIC_NsOk replaces the flag of the shared equations object, so with its default verbose=False it silences later runs of any object on equations built with verbose=True.)", "quantifier": "every finite history of constructor and solve calls", "why_tests_cant": "the tests use one object per equations; interference needs a history", "anchors": ["primpy/inflation.py: InflationEquations.__init__ (vwarn), postprocessing_inflation_start, postprocessing_inflation_end", "primpy/initialconditions.py: ISIC_Nt.__init__, ISIC_NsOk.__init__"]}
{"id": "C115", "title": "solve_oscode reports the same power whether the background was run in cosmic time or in e-folds", "statement": "If one background object holds samples of a solution integrated in cosmic time and another holds samples, at the same moments, of a solution integrated in e-folds that describes the same universe at some moment, and the integrator solves the mode equation handed to it exactly in both, then solve_oscode for the same wavenumber, vacua and factors integrates the same window and reports the same tensor power for every vacuum and the same scalar power for every vacuum (except, in curved space, the Hamiltonian-diagonalisation one), whatever pairs of starting solutions are used in the two runs.", "quantifier": "every potential, curvature, wavenumber, pair of matching solutions, list of sample times, window factors, pair of initial-value quadruples with non-zero Wronskian, vacuum, drop flag", "why_tests_cant": "It compares two continua of differential equations and their initial states for every potential and background; tests can compare a few integrated spectra to a tolerance.", "anchors": ["primpy/oscode_solver.py: solve_oscode", "primpy/perturbations.py: Mode.oscode_postprocessing", "primpy/time/perturbations.py", "primpy/efolds/perturbations.py"]}
{"id": "C116", "title": "The text of the end-of-inflation warning states the true reason", "statement": "A run with verbose equations that does not determine the end of inflation issues exactly then an InflationEndWarning, and its text says that no InflationEvent of direction -1 is tracked if and only if none is tracked; otherwise that the universe is still inflating, quoting N, phi and w of the last sample, if and only if w < -1/3 there, which for positive energy density is the same as accelerated expansion at the last sample; otherwise only that the end was not determined.", "quantifier": "every background run (any equations, events with distinct names, integrator output) that ends at some sample", "why_tests_cant": "the text depends on the event list and on the state reached at the end of the integration; tests look at single messages", "anchors": ["primpy/exceptionhandling.py: InflationEndWarning", "primpy/inflation.py: postprocessing_inflation_end"]}
{"id": "C117", "title": "Nearby initial conditions give nearby evolutions", "statement": "Take any expanding background evolution of the coded equations, in cosmic time or in e-folds, and any closed stretch of it. Every other evolution of the same equations that starts close enough to it stays close: its distance in (phi, dphi/dt, N), respectively (phi, dphi/dN), grows at most like an exponential in the elapsed time, forwards and backwards, with a rate that depends only on the given evolution. Hence the state at every moment of the stretch depends continuously on the initial conditions, and if the given evolution goes from accelerating (V > dphi^2) at t1 to decelerating at t2, so does every evolution that starts close enough, ending inflation between t1 and t2.", "quantifier": "every potential, curvature, tracking option, evolution with H^2>0 through a region where V is differentiable, stretch, reference moment and neighbouring evolution", "why_tests_cant": "a statement about all neighbouring trajectories of every trajectory, on which the shooting for N_star, N_tot or Omega_K relies; tests run single trajectories", "anchors": ["primpy/time/inflation.py: InflationEquationsT.__call__", "primpy/efolds/inflation.py: InflationEquationsN.__call__", "primpy/initialconditions.py: ISIC_NsOk, ISIC_Nt"]}
{"id": "C118", "title": "The slow-roll count of e-folds is a lower bound for the e-folds the evolution inflates", "statement": "In a flat universe started by SlowRollIC on the inflating side of phi_end of one of the featureless potentials (double wells with p >= 1), the number of e-folds sr_phi2N(phi_i) announces is never more than what the evolution of the coded equations delivers: inflation cannot have stopped before that many e-folds have passed, and as long as it has not stopped fewer than phi_i V/V' e-folds (times sqrt(1+eps_1/3) for a start in cosmic time) have passed. As long as the field is above phi_end the universe is still inflating and the field has not risen above phi_i. In an open universe (K < 0) the lower bound and the statement about the field above phi_end hold unchanged.", "quantifier": "every featureless potential, amplitude, start on its branch, tracking options, choice of t or N as independent variable, and every evolution from that start", "why_tests_cant": "an inequality between a closed formula and all solutions of a differential equation; tests compare single runs within tolerances", "anchors": ["primpy/potentials.py: sr_phi2N, get_epsilon_1V", "primpy/initialconditions.py: SlowRollIC", "primpy/time/inflation.py: InflationEquationsT.__call__", "primpy/efolds/inflation.py: InflationEquationsN.__call__"]}
{"id": "C119", "title": "Every admissible start has an evolution, and an evolution among admissible states can be continued", "statement": "Through every state with H^2 > 0 around which the potential is differentiable (and dphi/dN not at the value where the e-fold equations are singular) there is an evolution of the coded equations, forwards and backwards for some span, for every curvature; in particular through every state SlowRollIC and InflationStartIC write. An evolution can only stop where it leaves the admissible states: one that keeps inside a box of states on which H^2 is bounded away from zero can be continued past its end by a span that depends on the box only.", "quantifier": "every differentiable potential, curvature, tracking option, admissible state, box of states and evolution in it", "why_tests_cant": "existence of solutions for every initial state; tests run an integrator from a few", "anchors": ["primpy/time/inflation.py: InflationEquationsT.__call__", "primpy/efolds/inflation.py: InflationEquationsN.__call__", "primpy/initialconditions.py: SlowRollIC, InflationStartIC"]}
{"id": "C120", "title": "Inflation started by SlowRollIC in a flat or open universe happens and ends", "statement": "For every featureless potential (double wells with p >= 1) and every start SlowRollIC writes above phi_end in a flat universe there is an evolution of the coded equations which inflates from the start on, reaches a moment at which the quantity monitored by InflationEvent is zero, and inflates at every moment before; the number of e-folds in between is at least sr_phi2N(phi_i) and at most phi_i V/V' (times sqrt(1+eps_1/3) in cosmic time). Every other evolution from the same start stops inflating at the same e-fold. The same holds in every open universe (K < 0), without the explicit upper bound. So a run with an InflationEvent(direction=-1) has a finite, guaranteed stopping point.", "quantifier": "every featureless potential, amplitude, start above phi_end, tracking options, choice of t or N as independent variable", "why_tests_cant": "termination for every start; tests see single runs terminate", "anchors": ["primpy/initialconditions.py: SlowRollIC", "primpy/events.py: InflationEvent", "primpy/time/inflation.py: InflationEquationsT", "primpy/efolds/inflation.py: InflationEquationsN", "primpy/potentials.py: sr_phi2N, get_epsilon_1V"]}
{"id": "C121", "title": "Every perturbation mode solve_oscode asks for exists and is unique", "statement": "On every background satisfying the coded equations, for scalar and tensor perturbations in cosmic time and in e-folds, whatever the wavenumber, any initial value and derivative of the mode (in particular every vacuum) imposed at any moment belongs to exactly one mode on the whole background, wherever the coded damping and frequency are regular. So an integrator as exact as solve_oscode relies on exists, and on every slow-roll run in a flat or open universe (K = 0 or -1), from the start written by SlowRollIC to the end of inflation, every mode k > 0 exists.", "quantifier": "every background, curvature, wavenumber, initial data, starting moment, and list of sampled times", "why_tests_cant": "Existence for all backgrounds and all initial data is a statement about a differential equation; a numerical run only produces approximate values for one wavenumber.", "anchors": ["primpy/oscode_solver.py:solve_oscode", "primpy/time/perturbations.py", "primpy/efolds/perturbations.py", "primpy/initialconditions.py:SlowRollIC"]}
{"id": "C122", "title": "Reported powers are positive numbers", "statement": "Every entry of the scalar and tensor power spectra returned by solve_oscode, for every requested vacuum, is a finite, strictly positive number (so its logarithm and its interpolation in log-log space are defined), on every exactly sampled background with a moving inflaton and an exact integrator, flat, open or closed, also where the closed large-scale override applies: a mode prepared in any of the three vacua never vanishes, because all of them have a non-zero Wronskian.", "quantifier": "every background, curvature, list of positive wavenumbers, vacuum, integration window, pair of independent starting solutions", "why_tests_cant": "A zero of a mode function at the final sample would only show for particular wavenumbers; positivity for all wavenumbers follows from a conserved quantity, not from samples.", "anchors": ["primpy/oscode_solver.py:solve_oscode", "primpy/perturbations.py:Perturbation._combine_solutions", "primpy/time/perturbations.py", "primpy/efolds/perturbations.py"]}
{"id": "C123", "title": "Power of a mode is bounded by its vacuum at the start of the integration", "statement": "With the default (RST) vacuum and an exact integrator, the tensor power returned by solve_oscode never exceeds (1+k^2/kappa_T^2) times 2k^2/(pi^2 a_i^2), a_i being the scale factor at the start of the integration window, in every universe where kappa_T^2=k^2+kK(K+1)+2K is positive; the scalar power in a flat universe never exceeds 2*k^2/(4 pi^2 z_i^2) while z=a*phi'/H does not shrink. So the largest scales are suppressed at least like k^2 and no choice of k, background or end of integration can make the reported power blow up. On the backgrounds that SlowRollIC starts (single-field potentials, flat, above phi_end) z grows from the start up to and beyond the end of inflation, so the bound holds for every mode and every stretch of the inflating phase without further hypotheses.", "quantifier": "every background (time or e-folds), wavenumber, window, starting pair and exact integrator; every potential, scale and starting field for the slow-roll form", "why_tests_cant": "A test evaluates the power at a few k on one numerical background; the bound is a statement about all wavenumbers, all backgrounds and all integration windows.", "anchors": ["primpy/oscode_solver.py:solve_oscode", "primpy/perturbations.py:Perturbation", "primpy/time/perturbations.py:CurvaturePerturbationT", "primpy/efolds/perturbations.py:CurvaturePerturbationN", "primpy/initialconditions.py:SlowRollIC"]}
{"id": "C124", "title": "The error for a rejected start names the right cause and gives usable advice", "statement": "Constructing SlowRollIC or InflationStartIC produces an error text exactly when InflationStartError is raised. With N_i only closed universes can be rejected (for a non-negative potential), the text names closed universes and prints a negative number, and its advice to increase N_i works: from a definite N_i on every start is accepted. Its advice to increase phi_i works for the monomial potentials. With Omega_Ki the text names open universes and quotes the value given, which is at least 1.", "quantifier": "every equations object, potential, field value, N_i or Omega_Ki, and every formatting of floats", "why_tests_cant": "The test suite matches one fragment of one message; whether the named geometry and the advice are right has to hold for every rejected input.", "anchors": ["primpy/exceptionhandling.py:InflationStartError", "primpy/initialconditions.py:SlowRollIC.__init__", "primpy/initialconditions.py:InflationStartIC.__init__"]}
{"id": "C125", "title": "Inflation started by InflationStartIC begins there, happens and ends", "statement": "In a flat universe, InflationStartIC at a field value above phi_end (featureless potentials) writes a state from which there is an evolution that does not inflate just before the start, crosses into inflation exactly at the start, inflates without a break and stops inflating after a finite number of e-folds; every evolution from that state agrees. That number lies between the slow-roll count sr_phi2N(phi_i) less (sqrt(2) V/V' - 1)/2 and phi_i V/V', so two starting fields can be certified to bracket a wanted N_tot. In any geometry and for any potential, the start written by InflationStartIC is a beginning of inflation when V' < 2 H sqrt(V) there and the end of inflation when V' > 2 H sqrt(V); both the flat universe below phi_end and barely admissible closed universes far above phi_end are accepted by the class although inflation ends at the start.", "quantifier": "all featureless potentials with valid parameters, all starting fields on the inflating branch above phi_end, all N_i, both time variables and all optional tracked variables, every evolution of the coded equations through the written state; the onset criterion for every K, potential, N_i or Omega_Ki", "why_tests_cant": "The claim is about exact solutions for a continuum of starts and all times up to the end of inflation; a test integrates one start numerically to one tolerance and cannot show that no start inflates forever, stutters or never begins.", "anchors": ["primpy/initialconditions.py: InflationStartIC", "primpy/time/inflation.py: InflationEquationsT", "primpy/efolds/inflation.py: InflationEquationsN", "primpy/potentials.py: sr_phi2N, get_epsilon_1V, sr_phi_end", "primpy/initialconditions.py: ISIC_Nt (phi_i_bracket)"]}
{"id": "C126", "title": "A starting field exists for every wanted length of inflation in a bracket, it is the only one, and the length depends continuously and increasingly on the field", "statement": "In a flat universe with a featureless potential, the number of e-folds for which inflation lasts after the state written by InflationStartIC(phi_i) is a continuous function of phi_i above phi_end; so for lo<hi above phi_end with lo V/V'(lo) < N_tot < sr_phi2N(hi) - (sqrt(2) V/V'(hi) - 1)/2 there is a starting field strictly between lo and hi from which inflation starts at N_i, goes on without a break for exactly N_tot e-folds and stops: the search of ISIC_Nt has a solution in such a bracket. The number of e-folds does not depend on N_i or on the tracked variables and strictly increases with phi_i, so that solution is unique: from any smaller field inflation is shorter, from any larger field longer than wanted.", "quantifier": "all featureless potentials with valid parameters, all brackets above phi_end meeting the inequality, all N_tot and N_i, all combinations of tracked variables, every evolution of the coded equations through the written state", "why_tests_cant": "Continuity and existence of the exact solution of a shooting problem are statements about a continuum of exact ODE solutions; a test sees finitely many approximate integrations.", "anchors": ["primpy/initialconditions.py: ISIC_Nt, InflationStartIC", "primpy/efolds/inflation.py: InflationEquationsN", "primpy/potentials.py: sr_phi2N, sr_phi_end"]}
{"id": "C127", "title": "The search for N_tot succeeds and is as accurate as its root finder", "statement": "In a flat universe integrated in e-folds, with an integrator that makes no error, the objective of ISIC_Nt at phi_i is exactly the number of e-folds inflation lasts from that start minus N_tot (positive without further meaning from 10 e-folds too many on); it changes sign exactly once in a bracket above phi_end with lo V/V'(lo) < N_tot < sr_phi2N(hi) - (sqrt(2) V/V'(hi) - 1)/2, so ISIC_Nt neither raises nor fails there, and the start it writes leads to an inflation whose length tends to N_tot as the tolerance of the root finder tends to zero, and equals it for an exact root finder. The same holds in cosmic time when x_end - t_i exceeds hi V/V'(hi) sqrt(3/V(lo)) exp(1/2 + hi V/V'(hi)); with that x_end the run never reaches x_end before inflation ends.", "quantifier": "all featureless potentials with valid parameters, all brackets meeting the inequality, all N_tot > 0, N_i, tracked variables, every integrator whose runs are exact (samples of an exact solution, zeros of the event functions recorded, stopped by the first terminal event) and every bracketing root finder", "why_tests_cant": "A test runs the search for a few brackets; that the objective is defined and changes sign exactly once in every such bracket, and that the returned start has the wanted length, is a statement about all of them and about exact solutions.", "anchors": ["primpy/initialconditions.py: ISIC_Nt", "primpy/initialconditions.py: InflationStartIC", "primpy/solver.py: solve", "primpy/inflation.py: InflationEquations.sol", "primpy/events.py: InflationEvent, UntilNEvent, CollapseEvent", "primpy/time/inflation.py: InflationEquationsT"]}
{"id": "C128", "title": "How much cosmic time an inflation takes", "statement": "In a flat universe, from the start InflationStartIC writes at a field above phi_end, every evolution in cosmic time inflates without a break until one definite time t_end, where inflation ends; it lasts M e-folds there with the bounds of C125, and M / sqrt(V_i/2) <= t_end - t_i <= N_max sqrt(3/V_i) exp(1/2 + N_max) with N_max = phi_i V_i/V'_i. So an x_end beyond the upper bound always lets a run see the end of inflation. For SlowRollIC the same holds with N_sr itself as the lower bound of the e-folds and phi V/V' sqrt(1 + epsilon_1V/3) in place of phi V/V'.", "quantifier": "all featureless potentials with valid parameters (double wells with p >= 1), all Lambda, all starting fields above phi_end, t_i, N_i, with or without conformal time, and all solutions of the equations from that start", "why_tests_cant": "A test integrates a few starts up to a chosen x_end; that every start has a finite time of inflation within explicit bounds is a statement about all potentials, fields and exact solutions.", "anchors": ["primpy/initialconditions.py: InflationStartIC", "primpy/time/inflation.py: InflationEquationsT", "primpy/events.py: InflationEvent"]}
{"id": "C129", "title": "What solve() reports is the true start, end and duration of inflation when the integrator is exact", "statement": "Let solve(ic=..., events=[InflationEvent(eq, +1, terminal=False), InflationEvent(eq, -1, terminal=True), ...]) be called with SlowRollIC or InflationStartIC in e-folds, in a flat universe, above the end of slow roll, with x_end beyond phi V/V' e-folds, and let solve_ivp return samples and event records of an exact solution. Then solve returns without a warning; sol._N_beg is the given N_i, sol._N_end and sol.N_tot are the true end and duration of inflation (finite, between the slow-roll count, less (sqrt 2 V/V' - 1)/2 for InflationStartIC, and phi V/V'), sol.phi_end is the true field there and lies strictly below the potential's slow-roll phi_end, V_end = V(phi_end) and H_end = sqrt(V_end/2); the samples end there and inflation_mask marks exactly those strictly between start and end. In any universe and for any potential an evolution that inflates from N_i until the indicator changes sign is reported in this way. In cosmic time the same holds when x_end - t_i exceeds N sqrt(3/V) exp(1/2 + N), with N = phi V/V' (times sqrt(1 + epsilon_1V/3) for SlowRollIC): the samples end at the true end time, and the reported N_tot is the growth of the evolved _N.", "quantifier": "all featureless built-in potentials with double-well power at least 1, all amplitudes, starting fields on the branch above phi_end, initial e-folds, tracked clocks, both independent variables, other keyword arguments, any further recording events or CollapseEvent, and every exact integrator output", "why_tests_cant": "Tests integrate a handful of potentials and starting fields with a finite-precision integrator; that inflation always ends by a sign change the event can see, below phi_end, and that the post-processing picks the right records is a statement about every trajectory and every order of records.", "anchors": ["primpy/solver.py: solve", "primpy/inflation.py: InflationEquations.sol, postprocessing_inflation_start, postprocessing_inflation_end", "primpy/events.py: InflationEvent, CollapseEvent", "primpy/initialconditions.py: SlowRollIC, InflationStartIC"]}
{"id": "C130", "title": "The pivot scale leaves the true horizon between the same two samples as N_star e-folds before the end", "statement": "In any universe the derivative of ln(aH) along an exact e-fold evolution is inflating/(3 H^2), so modes leave the horizon, in order of wavenumber, exactly while inflating > 0. Let solve be called in e-folds in a flat universe with events InflationEvent(+1, terminal=False), InflationEvent(-1, terminal=True) and any recording events or CollapseEvent, and let solve_ivp return increasing samples of an exact solution that inflates from N_i to N_end. If calibrate_scale_factor succeeds on the result (N_star given, or the reheating method), then, with the reported N_star, there are two neighbouring samples n_l <= N_end - N_star <= n_r strictly inside inflation and an e-fold n_exit in [n_l, n_r] at which the true comoving Hubble rate, with the scale factor shifted by delta_N_calib, is the pivot scale K_STAR; before it the rate is smaller, after it until the end larger. The reported N, N_end and N_cross are the run's values shifted by delta_N_calib. k_iMpc lists the true comoving Hubble rate, in inverse Mpc, at the samples strictly inside inflation, none dropped, and is strictly increasing. In cosmic time the same holds, with the derivative of ln(aH) being inflating/(3 H) and the exit a cosmic time between two neighbouring samples.", "quantifier": "e-folds and cosmic time; all potentials with derivatives, tracked clocks, initial e-folds, further recording events or CollapseEvent, reheating keywords, constants, options, and every exact integrator output with increasing samples", "why_tests_cant": "Tests compare the calibrated N_star with the requested number on sampled solutions; they cannot show that the horizon exit of the pivot scale in the underlying continuous background is where the interpolated calibration says, for every background and every sampling.", "anchors": ["primpy/inflation.py: InflationEquations.sol, calibrate_scale_factor", "primpy/solver.py: solve", "primpy/efolds/inflation.py: InflationEquationsN"]}
