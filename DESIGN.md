# Formal model of primpy in Rocq (Coq 8.16.1)

## What is modelled and how

The development lives in `rocq/theories` (logical name `Verif`).

* `Model/*` – the model, function by function; each definition cites the lines of `/repo` it models and says where it simplifies.
* `Spec/*` – small independent specifications (what "derivative along a solution", "outside the horizon by a factor",
  "calibrated pivot", "which exception is due" ... mean), readable without the proofs.
* `Proofs/*` – lemmas.
* `Properties/*` – the property theorems `Cnn_...`, each next to an example showing its hypotheses can be met
  (`..._nonvacuous`, or a concrete refutation).

A property that the code does not satisfy has two kinds of theorem: `..._refuted` (a concrete or universally
quantified violation by the modelled code) and `..._partial` (the part that does hold). Its manifest status is `partial`.

**Numbers.** Python floats are modelled by the reals of Coq's standard library: rounding, overflow and signed zero are
**not** modelled. Where NaN and infinities steer control flow (initial conditions, event post-processing, calibration)
an extended type `fl := Fin r | PInf | NInf | NaN` with IEEE comparison and numpy division is used. Derivatives,
limits and integrals are those of Coquelicot.

**Objects.** Potentials are values of one inductive type; `match` mirrors Python's method resolution order (including the
FeaturePotential mixin). The mutable solution object is a finite attribute map threaded through a
state-and-exception monad: mutations made before an exception persist, as in Python. Keyword dictionaries are
association lists.

**Trajectories.** "Along a solution" means: for every list-valued function on an open interval whose components are
differentiable with derivative equal to the modelled right-hand side `__call__` (and, for the cosmic-time equations,
H > 0). No integrator is involved; the exact solutions are quantified over.

### Code map

| file of /repo/primpy | model | not modelled |
|---|---|---|
| potentials.py (all classes, constructors, slow-roll methods, feature mixin) | Model/Potentials.v, Model/SlowRoll.v, Model/HubbleFlow.v | tag/name/tex strings (`perturbation_ic` is in Model/PertIC.v); the warning text for Lambda+A_s; numpy broadcasting (scalars only) |
| equations.py | Model/Equations.v, Model/Solution.v | attribute `tex` dictionaries |
| inflation.py: accessors, post-processing | Model/Background.v, Model/Solution.v | printing |
| inflation.py: calibrate_scale_factor, approximate spectra, set_ns | Model/Calibrate.v, Model/ApproxPower.v, Model/State.v | spline evaluation between knots (oracle `splines`) |
| time/inflation.py, efolds/inflation.py | Model/Background.v; Model/Rounding.v (get_H2, w, inflating in binary64) | overflow; rounding of the other accessors |
| events.py | Model/Solution.v, Model/Events.v | scipy's root polishing of event times (contract hypotheses) |
| exceptionhandling.py | exceptions as constructors; the warnings in Model/Solution.v, their texts in Model/Messages.v; texts of InflationStartError in Model/ErrorText.v | texts of the other errors; %g, %s and dictionary formatting (oracles) |
| initialconditions.py | Model/InitCond.v, Model/Shooting.v | x_ini bookkeeping for t_eval |
| solver.py | Model/Solver.v, Model/InitCond.v (`run_solve`), Model/Session.v (histories of calls) | – |
| perturbations.py, time/ and efolds/perturbations.py, oscode_solver.py | Model/Perturbations.v, Model/Oscode.v, Model/Dense.v | pyoscode's adaptive algorithm (oracle) |
| bigbang.py, units.py, parameters.py | Model/BigBang.v | numerical values of CODATA constants (arbitrary positive reals) |
| reheating.py | Model/Reheating.v | – |
| ../cobaya_wrapper/{powerlaw,feature,slowroll}_pps.py | Model/Cobaya.v, Model/SlowRollWrapper.v, Model/SlowRollSetup.v | cobaya's theory/likelihood machinery |
| ../bin/utils.py, ../bin/bump_version.py, ../tests/test_version.py | Model/Version.v, Model/Release.v (file contents, sed, the check) | git and subprocess calls, macOS branch |

### Oracles and their contracts

Library code enters as universally quantified functions; what a theorem needs from one is an explicit hypothesis:

* `scipy.integrate.solve_ivp`: an arbitrary function from initial condition and events to a raw result (`integrator`);
  where needed (C34, C86, pipeline theorems) the contract that terminal events end the run and recorded events are
  sign changes (`shoot_contract`).
* `scipy.optimize.root_scalar`: returns a root in the bracket (`root_spec`), and returns whenever the function is
  continuous with opposite signs (`root_total`); satisfiable by `C87_root_finder_exists`.
* `scipy.special.lambertw(.., -1)`: `W x * exp (W x) = x`, `W x <= -1` on `[-1/e, 0)`.
* `scipy.integrate.quad`: exact on continuous integrands (C65, C82).
* `pyoscode.solve`: linear propagation of the given oscillator over the window (C78, C89); anything for C57, C58.
* splines (`InterpolatedUnivariateSpline`), `np.nanmedian`, `%e` formatting: arbitrary. `scipy.interpolate.interp1d`
  (linear) is modelled concretely (Model/Interp.v).

## Trusted base

* Coq 8.16.1's kernel.
* Axioms, all from the Coq standard library: `ClassicalDedekindReals.sig_not_dec`, `ClassicalDedekindReals.sig_forall_dec`,
  `FunctionalExtensionality.functional_extensionality_dep`, `Classical_Prop.classic`. ASSUMPTIONS.md lists the output of
  `Print Assumptions` theorem by theorem.
* The reading of the Python source that produced the model (no code was run).
* The replacement of binary64 by exact reals (except C107-C109, which round every operation with Flocq; overflow is excluded separately by C107_no_overflow), and the oracle hypotheses above (for C93: splines interpolate; for C94: splines reproduce parabolas).

## Testing against wrong programs

`seeded/LOG.jsonl` records realistic edits of the model (swapped arguments, wrong boundary, dropped term or update,
wrong exception, ...) made in a scratch copy and rebuilt; for each: which theorems failed, and what was tightened if
none did. Survivors that remain are noted there with the reason (semantically equivalent edits, or values no claim
depends on).

## Findings (behaviour of the code at the pinned commit that contradicts its documentation or a natural expectation)

1. `InflationEquationsT.get_d3phi` lacks `-3 K exp(-2N) dphi`: wrong for curved universes (C15); it feeds the HD vacuum (C55, C56).
2. FeaturePotential inherits `d4V`, `inv_V` and the slow-roll parameters from the featureless class (C03, C74).
3. Curved reheating from (w_reh, rho_reh) obtains (1+w)^2 DeltaN_reh instead of DeltaN_reh (C41).
4. InflationStartWarning looks up a key that no event produces (C26); only `Inflation_dir1_term0` is consulted for the start (C28).
5. Two events with the same name share one dictionary slot (C24); `add_variable` with a repeated name makes an index out of range (C22).
6. LLMS/STE closures cached before a re-calibration are returned stale (C46).
7. Initial conditions: (aH)^2 = 0, wrong-sign Omega_Ki (NaN) and Omega_Ki in a flat universe (N_i = -inf) are silently accepted (C33).
8. `calibrate_scale_factor` with NaN N_tot ends in AttributeError instead of InsufficientInflationError; flat 'reheating' ignores N_star; curved ignores DeltaN_minus1 (C43).
9. `NaturalPotential.sr_ns2Nstar` boundary (C09). 10. ARBDS pivot amplitudes differ from the other methods at second order because the series is evaluated at k = aH instead of -k eta = 1 (C50), and all third orders differ (C76).
11. `drop_closed_large_scales` acts on P_s_RST only (C58); the ten-e-fold rule can stop inside the horizon (C79); `num_eval > 0` can raise IndexError (C57).
12. Feature spectra: n_t without n_t_run, or w/p missing with amplitude 0, raise TypeError (C70); `.get('r', A_t/A_s)` is evaluated eagerly (C69).
13. `unit_incremented` compares base versions as strings (C73).
14. `get_a0` returns 1 for flat universes in any unit (C63); scalar `conformal_time` returns scipy's pair (C65); `conformal_time_ratio` mixes the uncalibrated N_end with a0 = 1 in flat universes (C82).
15. Copied calibration does not update N_tot and needs an end of inflation of its own (C75).
16. `set_ns` that raises leaves the object calibrated with N_star_max (C48).
17. BigBangError/BigBangWarning use dividing lines that neglect radiation (C80, C81).
18. `get_epsilon_3/4` set epsilon_5V = 0 and are one order less accurate than printed (C85).
19. ISIC_NsOk's objective does not catch InflationStartError (ISIC_Nt does) and returns `_N[-1]`, positive only if a0 > 1 (C86).
20. `solve` pops `method` and does not pass it to the initial conditions: the trial runs of ISIC_Nt/ISIC_NsOk always use RK45; any positional argument after `ic` is a TypeError although the docstring allows `*args` (C91).
21. Dense output in cosmic time uses `np.logspace(np.log10(t[idx_beg]), ...)`: a background that starts at `t_i = 0` with `fac_beg = 0` gets NaN output points (all but the last); and for closed universes with `k < 1` the reported `P_s_RST` is 1e-30 while `P_s_RST_eval` is not suppressed (C95).
22. The calibration writes its thinned `inflation_mask` back: if a sample during inflation repeats an earlier value of aH, calibrating twice with the same arguments gives different results (C104).
23. In closed universes the cosmic-time formula for H^2 cancels: there are states with H^2 > 0 whose computed H^2 is 0 (C107); the e-folds formula keeps the sign.
24. `bump_version.py` replaces every occurrence of the current version string in README.rst, also inside other numbers (`12.18.31` becomes `12.18.41` when 2.18.3 is bumped); nothing in the present README is affected (C111).
25. Building an `ISIC_Nt` or `ISIC_NsOk` replaces `vwarn` of the equations object it is given (initialconditions.py:185, 265): with the default `verbose=False` it silences the warnings of every later run on equations that were built with `verbose=True`, also of other initial-condition objects (C114).
26. With `Omega_Ki >= 1` `SlowRollIC` and `InflationStartIC` raise `InflationStartError` with `geometry='open'` whatever `equations.K` is (initialconditions.py:57-60, 131-134), so closed and flat universes are told that the condition for open universes is violated; and the advice to increase phi_i of the other error cannot work for bounded potentials when N_i is too early (C124).
27. `InflationStartIC` checks only that (aH)^2 >= 0, not that inflation starts: below phi_end in a flat universe, and in barely admissible closed universes even far above phi_end, the state it writes is the END of an inflating phase (indicator V - dphi^2 crosses zero downwards); the sign is decided by V' against 2 H sqrt(V) (C125_onset, C125_not_a_start).

## Plan per property

- **C01 Potential derivatives are the derivatives of V** – `pot` inductive of all concrete classes, `V..d4V` transcribed term by term over R; theorem `is_derive` of each order for every featureless class, every Lambda and every phi in the class's domain. Proof: auto_derive + field with x^p handled through y'=p*y/x.
- **C02 Feature potentials: derivatives up to third order** – feature classes built like the mixin (V0, F and their derivatives); `is_derive` for the three orders.
- **C03 Feature potentials: fourth derivative** – refuted: explicit phi where the inherited d4V is not the derivative of d3V.
- **C04 Potential slow-roll hierarchy** – eps_n model functions per class; statement via V,dV of the same object and Coquelicot `is_derive` of eps_n.
- **C05 inv_V inverts V** – round trip over R on the branch of each class.
- **C06 phi_end marks the end of slow-roll inflation** – eps1(phi_end)=1 and phi_end>0 for each class (Cardano/Ferrari forms included).
- **C07 sr_phi2N counts slow-roll e-folds** – value 0 at phi_end and is_derive = V/dV; corollary with RInt.
- **C08 sr_N2phi inverts sr_phi2N** – round trips, using an abstract Lambert-W_{-1} oracle specified by W e^W = x, W<=-1.
- **C09 n_s and r conversions are inverse pairs** – round trips over R.
- **C10 Amplitude calibration is exact in slow roll** – algebra over R; sr_As2Lambda modelled with its intermediate Lambda=1 object.
- **C11 Constructor keyword handling of potentials** – constructor as option-dictionary decision function with exceptions; iff characterisation.
- **C12 Deprecated phi2efolds agrees with sr_phi2N** – equality of the two closed forms on the domain.
- **C13 Friedmann constraint in cosmic time** – rhs of the ODE as a function R^n->R^n; solution = functions with is_derive = rhs on an open interval.
- **C14 Closed-form time derivatives along cosmic-time solutions** – derivatives along arbitrary solutions.
- **C15 Third field derivative in curved universes (cosmic time)** – exact error term theorem + refutation by an explicit curved power-law solution; flat case proved (_partial).
- **C16 Closed-form derivatives along e-fold solutions** – as C14 with N as independent variable.
- **C17 The two time variables describe the same universe** – pointwise algebra + change of variable theorem on solutions (both directions of observables).
- **C18 Hubble-flow parameters** – is_derive statements along solutions for both classes.
- **C19 Field slow-roll parameters delta_n** – definition by true derivatives along solutions.
- **C20 Inflating diagnostic means accelerated expansion** – a=exp N: second derivative of exp(N(t)).
- **C21 Equation of state bounds** – inequalities on w.
- **C22 Variable registry is a bijection** – list/assoc-map model of idx; induction over add_variable calls; duplicates refuted.
- **C23 Solution post-processing relabels without loss** – model of Equations.sol as relabelling into an attribute map; read-back theorem.
- **C24 Event names collide only by name** – distinct names suffices; refuted for same-name events.
- **C25 Event functions vanish exactly at the tracked condition** – iff theorems per event.
- **C26 Inflation start warning identifies missing tracking** – refuted, for every verbosity/event list; name model with string formatting.
- **C27 Start of inflation extraction** – decision function with extended floats; full characterisation.
- **C28 Start event with terminal=True** – refuted with terminal=True.
- **C29 End of inflation extraction and N_tot** – decision function; finite iff.
- **C30 SlowRollIC: N_i and Omega_Ki are interchangeable** – real-arithmetic round trip on constructor model.
- **C31 InflationStartIC starts exactly at the onset of inflation** – state algebra.
- **C32 Initial conditions fill the whole state vector** – y0 filled: every index assigned; assertion iff.
- **C33 Initial curvature guards** – extended floats; guard characterisation; refuted finiteness at the boundary.
- **C34 Shooting objective has the right sign** – decision function over outcomes of the inner run.
- **C35 Shooting keeps the requested curvature input** – object-state model with oracle root finder.
- **C36 Flat N_star calibration puts the pivot scale at horizon crossing** – calibrate model; exact.
- **C37 E-fold bookkeeping** – calibrate model; all successful branches.
- **C38 Wavenumbers are inverse comoving Hubble horizons** – pointwise algebra.
- **C39 Flat reheating parametrisations agree** – calibrate model with concrete piecewise-linear interp1d.
- **C40 Curved reheating round trip** – algebra on calibrate model.
- **C41 Curved reheating from w_reh and rho_reh** – refuted + exact discrepancy theorem; w=0 case.
- **C42 Omega_K0 calibration fixes the curvature radius** – algebra.
- **C43 Calibration argument validation** – decision tree: exception iff.
- **C44 Wavenumber grid is duplicate free and recalibration keeps it** – np.unique(first index) as list function; NoDup, completeness, idempotence under shift.
- **C45 Instant reheating decision** – decision function; iff.
- **C46 Approximate spectra refer to the current calibration** – cache as state machine; refuted for LLMS/STE, proved for the methods that are invalidated.
- **C47 Querying a spectrum does not change derived parameters** – invariant by induction over any sequence of queries.
- **C48 set_ns shooting** – set_ns with root-finder oracle; guard properties.
- **C49 Consistency relation at leading order** – algebra over the transcribed expansions.
- **C50 Slow-roll expansions agree to second order** – polynomial difference: all terms of total degree <=2 cancel (is o of third order).
- **C51 Mode solution matches the vacuum initial conditions** – complex 2x2 solve modelled over C; existence and uniqueness.
- **C52 Mukhanov-Sasaki coefficients agree between time variables** – Mukhanov-Sasaki coefficients both classes; function-level equivalence along solutions.
- **C53 Flat Mukhanov-Sasaki equation** – K=0 reduction to z'/z.
- **C54 Vacuum states are canonically normalised** – complex Wronskian computed.
- **C55 Vacuum states agree between time variables** – ratio H; refuted for K<>0 HD (C15), proved flat.
- **C56 HD vacuum uses the instantaneous conformal frequency** – second conformal derivative along solutions.
- **C57 Integration window of solve_oscode** – list search functions; bounds; IndexError branch.
- **C58 Spectrum arrays are filled pointwise** – array fill as map; refutation for the k<1 suppression of other vacua.
- **C59 Present-day Hubble rate is recovered** – evaluation at N0.
- **C60 No-Big-Bang line separates bouncing universes** – cubic with double root; iff over all past a.
- **C61 Recollapse line separates recollapsing universes** – cubic with double root; iff over all future a.
- **C62 Hubble parameter is real in the past** – radiation term non-negative in the past.
- **C63 Scale factor today and curvature density** – unit algebra with arbitrary positive constants.
- **C64 Comoving Hubble horizon units** – unit algebra.
- **C65 Conformal time is additive and increasing** – RInt model of quad.
- **C66 Reheating equation of state from horizons** – algebra.
- **C67 Reduced Planck units are coherent** – algebra with arbitrary positive constants.
- **C68 Power-law spectrum parameters are the log-derivatives at the pivot** – is_derive_n of ln P in ln k.
- **C69 Power-law wrapper parameter resolution** – decision function with option parameters and exceptions.
- **C70 Feature wrappers reduce to the power law when the feature is off** – refuted for crashing parameter sets; proved for complete ones.
- **C71 Amplitude shooting loop terminates with a verified amplitude** – loop with fuel-free structure; oracle background amplitude.
- **C72 Version bump passes the version check** – versions as Z triples with pre-release; iff.
- **C73 Pre-release after release check is a version order** – refuted by string order on base_version.
- **C74 Feature potentials: inverse and slow-roll parameters refer to the feature** – round trip and eps_1V evaluated with the transcribed mixin; refuted, exact discrepancy V(inv_V v)=v(1+F) proved.
- **C75 Copied calibration: bookkeeping** – calibrate model, branch "background copied from another solution"; bookkeeping as equalities between stored attributes; refuted for N_tot.
- **C76 Third-order slow-roll expansions agree** – polynomial difference of the transcribed third-order expansions after the change of expansion point; explicit gap polynomials.
- **C77 Coded scalar equation is the linearised Einstein equation** – linearised Einstein/Klein-Gordon system with curvature written down independently (Spec/PerturbationSpec.v); elimination of the metric variables gives exactly the coded damping and frequency, for all solutions.
- **C78 Power spectrum independent of the two starting solutions** – two arbitrary independent solutions, superposition with the coded coefficients; the power is the same for every choice.
- **C79 solve_oscode stops well outside the horizon** – monotone logaH implies the end index is outside by fac_end (C79_..._partial, C79_inflating_* along exact solutions); concrete non-monotone counterexample.
- **C80 BigBangError exactly for universes without a Big Bang** – E^2 with radiation; error raised by Hubble_parameter iff below the line; bounce implies error, converse refuted.
- **C81 BigBangWarning exactly for recollapsing universes** – as C80 for the recollapse line.
- **C82 Conformal time ratio** – RInt model of both pieces; exact for backgrounds in Planck units; refuted for flat.
- **C83 Feature wrappers modulate scalars and tensors alike** – quotient by the power law computed for both spectra.
- **C84 Wavenumber grid is log-regular between kmin and kmax** – grid as a list function; endpoints, constant log ratio.
- **C85 Hubble-flow approximations from potential slow-roll parameters have the claimed order** – exact flow hierarchy derived from the background equations; residual bounds by explicit constants.
- **C86 ISIC_NsOk objective: sign, root and scale factor** – decision function over outcomes of the inner run with scipy contract; root iff requested N_star; constructor characterised.
- **C87 The searches for the end of inflation succeed** – bracket sign changes proved for every parameter in range; root_scalar oracle then returns.
- **C88 phi_end separates slow-roll inflation from its end** – eps_1V < 1 before and > 1 after phi_end in the direction of rolling; monotonicity of eps_1V per class.
- **C89 The power of one mode, end to end** – composition of window, coefficients, vacuum, 2x2 solve and propagation.
- **C90 Global behaviour along background solutions** – sign of derivatives along exact solutions and the mean value theorem.
- **C91 solve() hands the user's settings to every integration** – keyword dictionary model of solver.solve with kwargs.pop; integrators quantified over settings; non-interference theorem ("agree on what was asked => same result"), refuted for `method` in trial runs.
- **C92 What the events mean along exact solutions and what ends a run** – scipy's find_active_events as specification; signs of the event functions along exact solutions (C20, C90).
- **C93 The approximate spectra pass through their tables** – state tracking of the tables through derive_approx_power (Proofs/TableRun.v), splines only assumed to pass through distinct knots (`interpolating`).
- **C94 LLMS derived parameters are the published expressions at the pivot** – ln P is a parabola in ln k; splines assumed to reproduce parabolas between their outermost knots (`exact_on_parabolas`).
- **C95 Dense output of solve_oscode** – numpy's linspace/logspace over extended reals, the full loop with num_eval (Model/Dense.v), simulation against the loop without.
- **C96 Modes stay bounded and freeze out** – energy functional of a damped oscillator with A' = A g, 2 gamma >= g (Proofs/Freeze.v), instantiated with A = a (time) and A = aH (e-folds); Cauchy-Schwarz for the displacement of complex modes.
- **C97 Vacua prepare the positive-frequency state** – derivative of z (PertT.zvar_derive) times the initial data; product rule; explicit real and imaginary parts.
- **C98 The slow-roll wrapper's outputs always exist** – Model/SlowRollWrapper.v (calibration and output stages over the attribute dictionary); syntactic preservation (`keeps`) and establishment (`ensures`) of numeric attributes proved by walking every path of the calibration.
- **C99 The flow parameters behind the approximate spectra are derivatives of the solution** – flow_of (Model/ApproxPower.v) composed with a background solution; reduction to C13-C19 and product rule; algebra for equality of both time variables.
- **C100 The energy scale Lambda is only a unit** – vocabulary of the change of units in Spec/ScalingSpec.v; algebra on Model/Potentials.v, SlowRoll.v, Background.v and ApproxPower.v; solve_oscode (Model/Oscode.v) commutes with the change of units for every oracle (e-fold equations; translation invariance of the solver is assumed only when the e-fold origin moves).
- **C101 What the slow-roll Cobaya wrapper makes of its parameters** – the wrapper's own set-up (Model/SlowRollSetup.v) on top of the class constructors (Model/Potentials.v) and the amplitude loop (Model/Cobaya.v); background and calibration are oracles. Case analysis over the dictionary and the classes; C10_amplitude and C08_right give the first amplitude and the 90 e-folds.
- **C102 The origin of the e-fold count is a convention in flat universes** – on Model/Calibrate.v: the pure part of the calibration commutes with moving the interpolation tables, the flow parameters contain N only with K, hence the spectra see the same knots (Proofs/CalibCompare.v).
- **C103 Cosmic time or e-folds: the same calibrated solution** – the comparison lemma of C102 with the equality of the flow parameters of C99.
- **C104 A calibration does not depend on what was done to the object before** – induction over histories of calls: the run's own attributes survive every call, also failed ones. Refuted when a sample in use repeats an earlier value of aH (C104_refuted), proved otherwise (C104_history).
- **C105 The order of the events and other tracked events are irrelevant** – a simulation relation between the two solution objects (same plain attributes, agreeing event dictionaries on the names looked up) is carried through Equations.sol and the post-processing.
- **C106 The sign and the origin of the field are conventions** – the right-hand sides commute with the change of coordinate (state by state), so solutions transfer; the Hubble-flow numbers are invariant getter by getter; the scalar vacuum is multiplied by the sign g (tensor unchanged), which drops out of |u_k|^2, so solve_oscode is unchanged for an arbitrary mode solver. Symmetric potentials are shown to be their own image.
- **C107 The Friedmann equation survives rounding in flat and open universes** – Model/Rounding.v spells out get_H2, w and inflating with one IEEE binary64 rounding (Flocq, FLT format, nearest even) per operator; x**2 is any faithful rounding (Spec/RoundingSpec.v), np.exp arbitrary (open universes: accurate to four units of roundoff). Error bounds operator by operator; explicit counterexample for the closed case in cosmic time.
- **C108 The computed equation of state stays between -1 and 1** – same model; monotonicity of rounding only.
- **C109 Rounding does not flip the criterion for inflation** – same model; a rounded difference of doubles has the sign of the exact difference (gradual underflow), plus the C107 error bound in e-folds.
- **C110 The state at one moment determines the whole evolution** – compactness (extreme values of continuous functions, intermediate values), Lipschitz constants from the derivatives of V along the trajectories, Gronwall's lemma for the three (time) or two (e-folds) coupled differences, then constancy of the tracked clocks; the two time variables are related through C17.
- **C111 Bumping the version keeps its two declarations consistent** – files as lists of lines of characters; sed's substitution with a compiled escaped pattern commutes with splitting at ':' and leaves digit-free text alone; induction over the history of bumps.
- **C112 The vacuum determines the mode, and both time variables give the same power** – the coefficients of the mode equations are continuous on a background; a Gronwall estimate for the energy f^2 + f'^2 gives uniqueness of the oscillator; superposition by linearity; equality across time variables from C110 (same background), C52 (same equation) and C55 (same vacuum).
- **C113 Equations and initial-condition objects can be kept and used again** – Model/Session.v: a heap of equations and initial-condition objects with the attributes each call overwrites (also when it raises); invariant by induction over the history: every object agrees with a fresh one on everything a later call reads.
- **C114 Verbosity decides which warnings are shown and nothing else, and the requested verbosity is honoured** – same session; post-processing commutes with dropping warnings; refuted for the flag of shared equations (finding 25).
- **C115 solve_oscode reports the same power in cosmic time and in e-folds** – background objects holding exact samples (Spec/SpectrumSpec.v), an exact integrator; the windows agree because log(aH) and N agree (C110), the modes because of C112, the powers because of C89.
- **C116 The text of the end-of-inflation warning states the true reason** – Model/Messages.v: the message constructors as string functions over the solution attributes; combined with the post-processing run (C26, C29) and C20.
- **C117 Nearby initial conditions give nearby evolutions** – the right-hand sides of C16/C17 (Model/Background.v); Spec/StabilitySpec.v defines the distance of two runs; Lipschitz bound of the coded right-hand side in a tube around the given run, Gronwall, and a continuation argument that the tube is never left.
- **C118 Slow-roll e-folds are a lower bound** – SlowRollIC (Model/InitCond.v) feeding the right-hand sides of C16/C17; in Proofs/SlowRollBound.v the invariant 0 <= q + H V'/V (the field lags behind slow roll, from log-concavity of every featureless potential) gives dN >= d(sr_phi2N) along the evolution; Proofs/Roll.v does the potential-specific part. Open universes (Proofs/OpenFlow.v, Properties/OpenRollProps.v): the same with h = sqrt((q^2/2+V)/3) <= H in place of H.
- **C119 Existence and continuation** – Picard iteration (Proofs/Picard.v) for a right-hand side Lipschitz in a box, a small calculus of Lipschitz bounds (Proofs/LipBox.v) applied to the coded right-hand sides (Proofs/Exist.v); continuation by glueing with the uniqueness of C110.
- **C120 Inflation happens and ends** – C119 from the state SlowRollIC writes; while it inflates the evolution stays in a fixed box (field below phi_i, |dphi/dN| <= sqrt 2, V bounded below by Proofs/RollEnd.v), so it can be continued until the bound of C118 is exceeded; first zero of the monitored quantity; carried to cosmic time by C17. Open universes (Properties/OpenEndProps.v): aH grows while inflating, so the curvature fraction stays below its initial value and |dphi/dN| stays above a fixed positive rate; the field reaches the minimum of the potential after finitely many e-folds.
- **C121 Modes exist** – Proofs/LinearODE.v: Picard iteration on the whole line with an exponentially growing weight for a linear second-order equation with bounded continuous coefficients; coefficients are clamped outside a compact subinterval and the solutions glued by uniqueness (C112). Regularity along slow-roll runs from the bounds on dphi/dN proved for C118/C120.
- **C122 Positive powers** – Properties/PositiveProps.v: if a mode vanished somewhere, a real combination of its real and imaginary part would vanish with its derivative there, hence everywhere (C112), contradicting the Wronskian of the vacuum (C54); composed with C89/C115 for one wavenumber and C58 for arrays.
- **C123 Bounded power** – Properties/CutoffProps.v: the adiabatic energy of C96 never grows, so a mode's size is at most its energy at the start of the window, which the RST vacuum makes 2k²r² (composed with C89/C115 for the reported power). For the starts of SlowRollIC the growth of z = a φ_N is derived: dφ/dN only falls (flow_rate, flow_lag of Proofs/SlowRollBound.v), and both strict inequalities persist slightly beyond the end of inflation by continuity.
- **C124 Error texts of rejected starts** – Model/ErrorText.v, Properties/ErrorTextProps.v: str(e) of InflationStartError at its four raise sites, tied to the constructors by an iff; the advice is decided through the guards of C33 (N_i: explicit threshold ln(cK/V)/2; phi_i: growth of the monomials, bound V<=Lambda^4 for the others).
- **C125 Inflation started by InflationStartIC begins there, happens and ends** – Proofs/FastRoll.v, Properties/StartEndsProps.v, StartEndsNonvacuity.v: at the start dphi/dN=-sqrt 2 is faster than slow roll; monotonicity of exp(3N)(H(v+lambda)) gives phi+lambda_0 N decreasing (upper bound on e-folds) and the lower bound by comparing with the slow-roll integral; existence by the C119 continuation theorem iterated; the onset criterion is the derivative 3 sqrt V (2 H sqrt V - V') of V - dphi^2 at the start.
- **C126 A starting field exists for every wanted length of inflation in a bracket** – Proofs/StartCont.v, Properties/StartContProps.v: in e-folds the flat equations are phi'=v, v'=-(3-v^2/2)(v+V'/V); Gronwall on a compact region that contains every solution until its end of inflation, transversality of the end (V'/V>sqrt 2 there, f_end) and a lower bound on the duration give continuity; the supremum argument gives the starting field (no choice axiom). Proofs/StartMono.v: two trajectories cannot cross in the (phi, dphi/dN) plane (the flat equations are autonomous and solutions unique), so at equal field the run started further up moves slower, hence lasts longer: C126_increasing, C126_unique_start.
- **C127 The search for N_tot succeeds** – Spec/ExactRun.v describes an integrator without errors (samples of an exact solution; recorded events are zeros of the event functions, every strict passage through zero in the event's direction is recorded, a terminal event ends the run); Proofs/ShootRun.v, Properties/ExactShootProps.v: the run from phi ends at the end of inflation or at N_i+N_tot+10, whichever comes first (the indicator changes sign properly there), so the objective of C34 is N_tot(phi) minus the wanted number; with C126 (existence, uniqueness, continuity) the search of C35 succeeds. Properties/ExactShootNonvacuity.v constructs such an integrator and an exact root finder (least upper bounds, no choice axiom). In cosmic time (Spec/ExactRunT.v, Proofs/ShootRunT.v, Properties/ExactShootTimeProps.v): the e-fold evolution with tracked time read in cosmic time; the e-fold component increases strictly, so UntilN fires once; x_end is out of reach by C128.
- **C128 How much cosmic time an inflation takes** – Proofs/ShootRunT.v (time_core, time_bounds), Properties/ExactShootTimeProps.v: mean value theorem on the tracked time, dt/dN = 1/H, with H^2 >= V/3 >= V_i exp(-(1+2 N_max))/3 (the decay of V during inflation is bounded by the e-folds it can last, Proofs/FastRoll.v) and H <= H_i; the end is the same for all evolutions by C110.
- **C129 (what solve reports after an exact run)**: the run of C120/C125 is shown to end by a proper sign change of the inflation indicator (field below e, slope above sqrt 2, so dphi/dN crosses -sqrt 2; for SlowRollIC by a Gronwall argument: while lambda <= sqrt 2 the speed cannot reach sqrt 2), so an exact run (Spec/ExactRun.v) with a terminal InflationEvent(-1) records exactly that e-fold number; then `solve_ok` gives the reported numbers. Proofs/RunReports.v (any K and potential, any further recording events), Proofs/RunFallsSR.v, Properties/ExactReportProps.v; statement through `solve_kw`. Cosmic time (Proofs/RunReportsT.v, Properties/ExactReportTimeProps.v): the run is the time-reparametrised e-fold run (`time_core_end` carries its end field over), C128 supplies the x_end that is enough. SlowRollIC in time (C128_slow_roll, C129_time_slow_roll): Proofs/TimeSR.v, Properties/SlowRollTimeProps.v, from the e-fold run that starts with dphi/dN = -(V'/V)/sqrt(1 + eps/3).
- **C130** the run record of C129 gives the background hypotheses of C36 (solved_background); ln aH is strictly increasing while inflating (its derivative is inflating/(3H^2) by the Friedmann constraint), so the interpolated value lies between neighbouring samples' values and the intermediate value theorem gives the true exit (Proofs/PivotExit.v); in cosmic time the same, with N(t) increasing (Properties/PivotTimeProps.v).
