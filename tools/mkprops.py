#!/usr/bin/env python3
"""Writes /verif/properties.jsonl (kept as a script so the list is easy to edit)."""
import json, os
P = []
def p(id, title, statement, quantifier, why, *anchors):
    P.append(dict(id=id, title=title, statement=statement, quantifier=quantifier,
                  why_tests_cant=why, anchors=list(anchors)))
CO='src/composition.rs:'; DE='src/detail.rs:'; GE='src/gerg2008.rs:'; FF='src/ffi.rs:'; LI='src/lib.rs:'

p('C01','Composition::check decides exactly by the sum',
  'check() returns Err(Empty) when |sum| < 1e-10, otherwise Err(BadSum) when |sum - 1| > 1e-2, otherwise Ok(()), where sum is the sum of the 21 fields; in particular a composition of exact non-negative fractions adding to 1 is Ok and the all-zero composition is Empty.',
  'every composition (all 21 field values)','the field values range over 21 doubles; boundary and cancelling combinations cannot be enumerated',
  CO+'Composition::check',CO+'Composition::sum')
p('C02','An accepted composition is a usable composition',
  'If check() (or set_composition) returns Ok then every fraction is a number, none is negative, and the exact sum is within 1e-2 of 1. (The code violates this: NaN and negative fractions are accepted.)',
  'every composition of IEEE doubles','NaN, infinities, signed cancellations: no finite test set covers 21 doubles',
  CO+'Composition::check',DE+'Detail::set_composition',GE+'Gerg2008::set_composition')
p('C03','Empty is reported exactly for all-zero compositions',
  'check() returns Empty iff all components are zero, as the doc comment of CompositionError::Empty says. (Violated one way: cancelling fractions are reported Empty.)',
  'every composition','needs all compositions, including cancelling ones',CO+'CompositionError::Empty',CO+'Composition::check')
p('C04','normalize scales to sum 1 and keeps ratios, or fails and changes nothing',
  'If sum() > 0, normalize() returns Ok, the new sum is 1 and each field is the old one divided by the old sum (so ratios, zero fields and signs are kept); otherwise it returns Err(Empty) and the composition is unchanged.',
  'every composition, exact arithmetic','all real vectors',CO+'Composition::normalize')
p('C05','normalize is idempotent and scale invariant',
  'Normalizing twice equals normalizing once, and normalizing c and k*c (k>0) gives the same composition.',
  'every composition with positive sum, every k>0, exact arithmetic','unbounded inputs',CO+'Composition::normalize')
p('C06','normalize followed by check is Ok in double precision',
  'For non-negative finite fields whose exact sum lies in a stated normal range, normalize() returns Ok, the resulting fields are finite and non-negative and check() then returns Ok. Outside that range it is violated (a tiny positive sum yields infinities with Ok).',
  'every composition of 21 non-negative IEEE doubles','rounding: 21 doubles, every rounding pattern',CO+'Composition::normalize',CO+'Composition::check')
p('C07','sum() is accurate in double precision',
  'The computed sum differs from the exact real sum by at most a stated small multiple of unit roundoff times the sum of absolute values, when no overflow occurs.',
  'every composition of finite IEEE doubles without overflow','rounding behaviour over all doubles',CO+'Composition::sum')
p('C08','set_composition is all-or-nothing and touches only the composition',
  'set_composition returns what check() returns; on Err the object is unchanged in every field; on Ok only the mole fractions change and each named fraction lands in its documented slot (methane first ... argon last; slot 0 unused and zero in GERG).',
  'every object state, every composition, both equations of state','all states x all compositions',DE+'Detail::set_composition',GE+'Gerg2008::set_composition')
p('C09','molar_mass is the mole-fraction weighted sum and touches nothing else',
  'molar_mass() stores (and for DETAIL returns) sum x_i*M_i of the current fractions, changes no other field, is linear in the composition and lies between sum(x)*min M and sum(x)*max M for non-negative fractions.',
  'every state; bounds for every non-negative composition','all states',DE+'Detail::molar_mass',GE+'Gerg2008::molar_mass')
p('C10','No call panics',
  'From new() or default(), no sequence of public field writes and calls to set_composition, molar_mass, pressure, density (any iflag), properties panics; every array index stays in bounds, for any values incl. NaN, infinities and negative numbers.',
  'every finite history of API calls with every argument value, for any arithmetic','index safety depends on table data and every branch; histories are unbounded',
  DE+'Detail',GE+'Gerg2008')
p('C11','density() terminates within its iteration budget',
  'DETAIL density evaluates the pressure equation at most 20 times, GERG at most 50 times with at most 3 restarts, whatever the inputs.',
  'every state and arithmetic','all inputs incl. non-convergent',DE+'Detail::density',GE+'Gerg2008::density')
p('C12','density() outcome contract: inputs are preserved, errors leave the documented density',
  'density() never changes t, p or the fractions nor any output other than d and z (iflag<=0); on IterationFail d is the ideal-gas density p/R/t; DETAIL with |p|<1e-15 returns PressureTooLow with d=0 and touches nothing else.',
  'every state, every arithmetic','every path of the loop',DE+'Detail::density',GE+'Gerg2008::density')
p('C13','density() Ok means a converged Newton step',
  'If density() returns Ok, there is an evaluated density d0 > 0 (for DETAIL e^-100 <= d0 <= e^7; GERG restarts are not range checked) with dp/dd and p(d0) at least 1e-15, whose Newton correction is below 1e-7, and the stored d is d0*exp(correction); so d is positive, and |ln p(d0) - ln p| < 1e-7*d0*(dp/dd)/p(d0).',
  'every state (exact arithmetic)','all inputs and all iteration histories',DE+'Detail::density',GE+'Gerg2008::density')
p('C14','density() iterates Newton with the true derivative; residual is second order',
  'The correction used is exactly f/f\' for f(v)=ln p(e^-v)-ln P; hence on Ok |ln p(d)-ln P| <= M/2*1e-14 whenever M bounds the second derivative of ln p in ln v between d0 and d.',
  'every state reached through inputs that are equal or told apart by the 1e-7 comparison, t > 0 (exact arithmetic), every M','a real-analysis statement',DE+'Detail::density',DE+'Detail::pressure',GE+'Gerg2008::density')
p('C15','pressure/density round trip at an exact guess',
  'If the pressure at density d0 is P>=1e-15 with dp/dd>=1e-15 and 1e-15<=d0<=e^7, then setting p=P, d=-d0 and calling density() returns Ok with d=d0 (GERG: with iflag <= 0), changing no other public field but z.',
  'every composition, temperature and density reached through inputs that are equal or told apart by the 1e-7 comparison (exact arithmetic)','all states',DE+'Detail::density',GE+'Gerg2008::density')
p('C16','Unphysical pressures never give Ok',
  'With IEEE doubles and any libm whose ln is NaN on negative numbers/NaN and -inf at zero, density() never returns Ok when p is NaN, negative (or zero for GERG).',
  'every state, every IEEE p<=0 or NaN, any conforming libm','all doubles, all states',DE+'Detail::density',GE+'Gerg2008::density')
p('C17','density() depends on the old d only as a guess when negative',
  'If the stored d is not below -1e-15 its value is irrelevant to density(): result and final state are the same for any such d.',
  'every two states differing only in d, every arithmetic','pairs of states',DE+'Detail::density',GE+'Gerg2008::density')
p('C18','Results do not depend on call history (DETAIL)',
  'After any history, pressure/density/properties return the same value and leave the same public fields as a new object given the same public fields. (Violated in full: sub-tolerance composition or temperature changes accumulate; proved when every change is either exact-equal or larger than the 1e-7 tolerance.)',
  'every finite history of API calls','hidden caches: unbounded histories',DE+'Detail::x_terms',DE+'Detail::alphar')
p('C19','Results do not depend on call history (GERG)',
  'Same as C18 for GERG-2008 with its reducing-parameter and temperature caches.',
  'every finite history of API calls','hidden caches: unbounded histories',GE+'Gerg2008::reducingparameters',GE+'Gerg2008::tterms',GE+'Gerg2008::alphar')
p('C20','Cache staleness is bounded',
  'The composition for which cached terms were computed stays within 1e-7 per component of the current one. (Violated: arbitrarily large drift through small steps.)',
  'every history','unbounded histories',DE+'Detail::x_terms',GE+'Gerg2008::reducingparameters')
p('C21','A NaN input does not outlive its replacement',
  'After t (or a fraction) was NaN for one evaluation and is then set to a valid value, results equal those of a fresh object. (Violated: comparing against NaN suppresses the refresh.)',
  'every history with a NaN write','IEEE comparison semantics along histories',DE+'Detail::alphar',DE+'Detail::x_terms',GE+'Gerg2008::reducingparameters')
p('C22','pressure is the DETAIL equation of state',
  'For exact arithmetic pressure() of a new object returns d*R*T*Z with Z the AGA8 DETAIL formula (mixing rules for K,U,G,Q,F, second virial double sum, 58 terms) evaluated with the tabulated coefficients.',
  'every composition with some fraction above 1e-7 (negative ones count as 0), T > 1e-7, any d (exact arithmetic)','all states',DE+'Detail::pressure',DE+'Detail::x_terms',DE+'Detail::alphar',DE+'Detail::setup')
p('C23','Pressure derivatives are the true derivatives (DETAIL)',
  'dp_dd, d2p_dd2 and dp_dt reported by properties() are the partial derivatives of the pressure() function.',
  'every non-negative composition, T>0, d>0 (exact arithmetic)','a real-analysis statement over all states',DE+'Detail::properties',DE+'Detail::alphar')
p('C24','Energy outputs are mutually consistent (DETAIL)',
  'a=u-T*s satisfies p=d^2*da/dd and s=-da/dT; cv=du/dT; h=u+p/d; g=h-T*s; cp is dh/dT at constant pressure; jt is -(dh/dp)_T/cp; w^2 = (dp/drho)_s; kappa = w^2*mm/(1000*R*T*Z); z=p/(d*R*T).',
  'every non-negative composition, T, d above 1e-15 (exact arithmetic)','a real-analysis statement',DE+'Detail::properties',DE+'Detail::alpha0_detail',DE+'Detail::alphar')
p('C25','pressure is the GERG-2008 equation of state',
  'pressure() of a new object returns d*R*T*(1+delta*d(alpha_r)/d(delta)) with the GERG-2008 reducing functions and residual Helmholtz sum over the tabulated coefficients.',
  'every composition with some fraction above 1e-6 (those not above 1e-15 count as 0), T > 1e-7, any d (exact arithmetic)','all states',GE+'Gerg2008::pressure',GE+'Gerg2008::reducingparameters',GE+'Gerg2008::alphar',GE+'Gerg2008::tterms')
p('C26','Pressure derivatives are the true derivatives (GERG)',
  'dp_dd, d2p_dd2, dp_dt and d2p_dtd reported by properties() are the partial derivatives of the pressure() function.',
  'every non-negative composition, T>0, d>0 (exact arithmetic)','a real-analysis statement',GE+'Gerg2008::properties',GE+'Gerg2008::alphar')
p('C27','Energy outputs are mutually consistent (GERG)',
  'Same as C24 for GERG-2008.','every non-negative composition, T, d (exact arithmetic)','a real-analysis statement',GE+'Gerg2008::properties',GE+'Gerg2008::alpha0')
p('C28','Mixture parameters are well defined',
  'For every non-negative composition with a positive fraction the DETAIL size and energy parameters K^5,U^5 are positive (no NaN from fractional powers), and the GERG reducing volume and temperature are positive; a pure GERG fluid reduces to its own critical point.',
  'every non-negative composition (exact arithmetic)','all compositions; depends on all table entries',DE+'Detail::x_terms',GE+'Gerg2008::reducingparameters')
p('C29','Ideal-gas limit and second virial coefficient',
  'At d=0 pressure is 0, z=1 and dp/dd=RT; as d->0 (z-1)/d tends to the second virial coefficient B(T,x); properties() at d<=1e-15 gives h=u+RT (DETAIL) or u+RTz (GERG), cp=cv+R.',
  'every composition with some fraction above 1e-6 and T > 1e-7 (exact arithmetic)','a limit statement',DE+'Detail::pressure',DE+'Detail::properties',GE+'Gerg2008::properties')
p('C30','Absent components do not matter; non-positive fractions are ignored by the equation of state',
  'pressure() is the same if any non-positive fraction (<=1e-15 for GERG) is replaced by zero. But molar_mass still counts it, so mm and w are inconsistent with the equation for negative fractions.',
  'every arithmetic; every new object, composition with some unchanged fraction above 1e-7, state','all compositions',DE+'Detail::x_terms',GE+'Gerg2008::alphar',DE+'Detail::molar_mass')
p('C31','pressure() and properties() effects are confined',
  'pressure() changes no input and no public field but z; GERG properties() changes no input (t,p,d,x); DETAIL properties() changes no input but p, which it overwrites with the pressure at (t,d).',
  'every state, every arithmetic','frame over all fields and states',DE+'Detail::pressure',DE+'Detail::properties',GE+'Gerg2008::pressure',GE+'Gerg2008::properties')
p('C32','Repeated evaluation is stable',
  'Calling pressure() or properties() again without changing inputs returns the same value and leaves the whole object unchanged.',
  'every reachable state, every arithmetic with x-x not above tolerance','all histories',DE+'Detail::pressure',GE+'Gerg2008::pressure',DE+'Detail::properties',GE+'Gerg2008::properties')
p('C33','Speed of sound is never negative',
  'After properties() w is >= 0 or NaN, never negative.','every state, IEEE doubles','all doubles',DE+'Detail::properties',GE+'Gerg2008::properties')
p('C34','GERG density with a phase check can succeed',
  'density(iflag) with iflag>0 returns Ok for a converged single-phase state. (Violated: it returns IterationFail on every path.)',
  'every state, every iflag>0, any arithmetic','a negative universal',GE+'Gerg2008::density')
p('C35','FFI handles are isolated objects',
  'For any sequence of FFI calls on live handles, each handle behaves as its own Rust object: new returns a non-null handle distinct from all live ones, a call on one handle changes no other, free removes only its handle, free(NULL) does nothing, any other call on NULL aborts.',
  'every finite sequence of FFI calls, any allocator','unbounded call sequences over unboundedly many handles',FF+'aga8_new',FF+'aga8_free',FF+'gerg_new')
p('C36','FFI calls equal the Rust calls and report their errors',
  'Setters/getters round trip; calculate_* perform the corresponding method (GERG density with iflag 0); the error out-parameter is 0 iff the method returned Ok, otherwise the matching non-zero code; get_properties copies the fields and changes nothing.',
  'every handle state and argument','all states',FF+'aga8_set_composition',FF+'aga8_calculate_density',FF+'gerg_calculate_density',FF+'aga8_get_properties')
p('C37','Coefficient tables are internally consistent',
  'The precomputed GVIJ/GTIJ/BTIJ constants equal (to 1e-14 relative) what setup() derives from the binary parameters and critical constants; diagonal entries are the pure-fluid values; exponents used as indices are in range; short-form fluids share the exponents that the temperature terms take from propane.',
  'every table entry (21x21)','thousands of constants; a single typo is invisible to a few point tests',GE+'GVIJ',GE+'GTIJ',GE+'BTIJ',GE+'setup')
p('C38','Sign of a restart flag: the GERG two-phase restart after convergence is dead',
  'In GERG density a converged step never has dp/dd<0, so the "ifail" restart never fires; restarts come only from the range check and iterations 20, 30, 40.',
  'every state, IEEE doubles and reals','all paths',GE+'Gerg2008::density')
p('C39','Zero and negative temperature are rejected by density()',
  'With IEEE doubles and a conforming libm, density() never returns Ok for DETAIL when t is 0 and d>=0, and never returns Ok for t NaN.',
  'every state with such t','all doubles',DE+'Detail::density',GE+'Gerg2008::density')
p('C40','A fresh object is the same every time, with empty outputs',
  'new() always returns the same object; all public fields are 0.', 'all calls','trivial by determinism, kept for the history properties',DE+'Detail::new',GE+'Gerg2008::new')
p('C41','Reported properties are consistent with each other',
  'After properties() the public fields satisfy, with the roundings of the arithmetic in use: p = d(RT)z (DETAIL field p, GERG return value), mm = sum x_i M_i, h = u + p/d (DETAIL), cp = cv + T(dp/dT/d)^2/(dp/dd), jt = (T/d dp/dT/(dp/dd) - 1)/cp/d, w = sqrt(max(0, 1000 cp/cv dp/dd/mm)), kappa = w^2 mm/(1000 RT z); for d <= 1e-15 the ideal forms h = u+RT, cp = cv+R, jt = 1e20; and pressure() returns d R T z for the z it stores.',
  'every reachable state, every arithmetic','all states, bit-exact',DE+'Detail::properties',GE+'Gerg2008::properties',DE+'Detail::pressure',GE+'Gerg2008::pressure')
p('C42','Enthalpy and entropy are zero at the reference state',
  'For every pure component, at 298.15 K and zero density, the reported enthalpy is 0 (within 1e-4 J/mol) and the reported entropy is that of a gas whose entropy at 101.325 kPa is 0 (within 1e-7 J/(mol K)), for both methods.',
  'all 21 components','depends on the whole set of ideal-gas constants',DE+'Detail::alpha0_detail',GE+'Gerg2008::alpha0')
p('C43','DETAIL and GERG agree on the ideal gas',
  'For every composition and temperature, at zero density, the two methods report the same cv, and u and h that differ only by (8.31451 - 8.314472) times a temperature.',
  'all compositions, all t > 1e-7 K','all compositions and temperatures',DE+'Detail::alpha0_detail',GE+'Gerg2008::alpha0')
p('C44','Molar masses are those of the chemical formulas',
  'For every composition the reported molar mass is the fraction-weighted sum of the masses that follow from the chemical formulas and standard atomic weights: exactly for GERG (over the reals), within 0.004 g/mol for DETAIL fractions summing to 1.',
  'all compositions','all compositions',DE+'Detail::molar_mass',GE+'Gerg2008::molar_mass')
p('C45','GERG pure components have their critical points',
  'For every pure component, at the critical temperature and density listed in the source, dp/dd is 0 within 0.4 % of R Tc and d2p/dd2 is 0 within 3.5 % of R Tc/rhoc, and the compressibility factor lies between 0.2 and 0.35.',
  'all 21 components','depends on all coefficients of the component',GE+'Gerg2008::alphar',GE+'Gerg2008::properties')
p('C46','Heat capacity and speed of sound of the ideal gas are physical',
  'At zero density and every t > 1e-7 K: cv is at least 1.47 R per mole of gas, the reported speed of sound is positive with w^2 = kappa R T / M, and kappa = cp/cv > 1.',
  'all non-negative compositions, all t > 1e-7 K','all temperatures',DE+'Detail::properties',GE+'Gerg2008::properties')
p('C47','Zero-density values are the published ideal-gas equations',
  'At zero density cv, cp, u, h and s are those of the ideal mixture of the 21 components with the published heat-capacity equation (sinh and cosh terms), its integrals for h and s, and -R ln x for mixing; s is evaluated at the density 1e-15 mol/l.',
  'all compositions, all t > 1e-7 K','all compositions and temperatures',DE+'Detail::alpha0_detail',GE+'Gerg2008::alpha0')
p('C48','Ideal mixing',
  'At zero density the enthalpy of a mixture with fractions summing to 1 is the weighted sum of the enthalpies reported for the pure components, and its entropy exceeds the weighted sum of the entropies by -R sum x_i ln x_i.',
  'all non-negative compositions, all t > 1e-7 K','all compositions and temperatures',DE+'Detail::alpha0_detail',GE+'Gerg2008::alpha0')
p('C49','DETAIL pressure and compressibility are accurate in double precision',
  'In IEEE double precision, with exp, ln, powf and powi good to 2^-50, the first pressure() of a new Detail object is finite and differs from the DETAIL equation of state in exact arithmetic by at most 1.5e-10 of d R T times the sum of the sizes of the terms of the equation; the field z likewise.',
  'all compositions of non-negative fractions summing to 1 within one per cent, all t in 32..2048 K, all d at least 2^-20 mol/l (or 0) with reduced density at most 3','rounding errors of some ten thousand operations, for all inputs',DE+'Detail::pressure',DE+'Detail::x_terms',DE+'Detail::alphar')
p('C50','density() succeeds where the gas is nearly ideal',
  'If around the starting density d0 the pressure is nearly proportional to the density (logarithmic slope within 1/6 of 1 between d0/3 and 3 d0, pressure at d0 within a factor 3/2 of the one asked for), density() reports success; the density found reproduces the pressure to 1e-7 and is within 1e-7 of the only solution between d0/3 and 3 d0. On a new object this covers all mixtures and states for which the printed table bounds the departure from ideality by 1/7 (methane at 300 K, for instance, at 500 kPa with DETAIL and at 200 kPa with GERG).',
  'all compositions, temperatures and pressures meeting the condition, after any history of calls with distinct inputs','convergence of an iteration for all starting points, not for sampled ones',DE+'Detail::density',GE+'Gerg2008::density')
p('C51','GERG-2008 pressure and compressibility are accurate in double precision',
  'In IEEE double precision, with exp, ln, powf and powi good to 2^-50, the first pressure() of a new Gerg2008 object is finite and differs from the GERG-2008 equation of state in exact arithmetic by at most 1e-10 of d R T times the sum of the sizes of the terms of the equation; the field z likewise.',
  'all compositions of fractions that are 0 or at least 2^-49 and sum to 1 within one per cent, all t in 32..2048 K, all d at least 2^-20 mol/l (or 0) with reduced density at most 2.49','rounding errors of some ten thousand operations, for all inputs',GE+'Gerg2008::pressure',GE+'Gerg2008::reducingparameters',GE+'Gerg2008::alphar')
p('C52','Ok from density() means the pressure asked for',
  'When density() reports success, pressure() at the density found is (within a factor two, say) the pressure asked for. FALSE as stated: where the pressure of the equation of state is small and rising, the Newton correction is below 1e-7 whatever pressure was asked for, and density() reports success at a density whose pressure is orders of magnitude off. It holds with 2 K 1e-7 in the logarithm of the pressure where the logarithmic slope of the pressure near the density found is at most K.',
  'all compositions, temperatures, pressures and starting densities, after any history','the failing starting densities form an interval of relative width below 1e-7',DE+'Detail::density',GE+'Gerg2008::density')
p('C53','DETAIL pressure, compressibility and slope in properties() are accurate in double precision',
  'In IEEE double precision, with exp, ln, powf and powi good to 2^-50, properties() of a Detail object writes p, z and dp_dd that are finite and differ from the DETAIL equation of state (and its density derivative) in exact arithmetic by at most 1.5e-10 of the sum of the sizes of the terms.',
  'all compositions of non-negative fractions summing to 1 within one per cent, all t in 32..2048 K, all d at least 2^-20 mol/l with reduced density at most 3, after any history of calls with distinct inputs','rounding errors of some ten thousand operations, for all inputs and histories',DE+'Detail::properties',DE+'Detail::pressure',DE+'Detail::alphar')
p('C54','What Ok from density() of DETAIL means in double precision',
  'In IEEE double precision, when density() reports success the exact equation of state at the density left in d gives the pressure asked for within 3.1e-7 of the size of its terms, or is itself below 2.5e-7 of that size (the spurious case of C52).',
  'all compositions and temperatures as in C53, all pressures, densities found of at least 2^-19 mol/l with reduced density at most 2.99','needs both the rounding analysis and the stopping rule for all inputs',DE+'Detail::density',DE+'Detail::pressure')
p('C55','density() of DETAIL succeeds in double precision where the gas is nearly ideal',
  'In IEEE double precision, where the pressure of the exact equation of state is nearly proportional to the density around the starting density, density() reports success, and the density found is within 1e-7 of the only exact solution nearby. On a new object this covers all mixtures and states for which the printed table bounds the departure from ideality by 1/7 (methane at 300 K and 300 kPa, for instance).',
  'all compositions, temperatures and pressures meeting the condition','convergence of a rounded iteration for all starting points',DE+'Detail::density')
p('C56','Every field of GERG-2008 is accurate in double precision',
  'In IEEE double precision, after any history of calls, properties() of GERG-2008 returns the pressure and sets z, dp_dd, d2p_dd2, d2p_dtd, dp_dt, u, h, s, cv and g to the exact values of the standard within 1e-10 of the size of their terms, and mm within 1e-14, for temperatures from 32 K to 2048 K and densities from 1e-6 mol/l to 2.49 times the reducing density.',
  'all histories, all compositions with total within 1% of 1, the ranges above','rounding error over the whole state space; tests compare a few points',GE+'Gerg2008::properties')
p('C57','Derived fields agree with the fields they are derived from in double precision',
  'In IEEE double precision, after properties() the reported cp, Joule-Thomson coefficient, speed of sound and isentropic exponent (and the pressure, and for DETAIL the enthalpy) satisfy the thermodynamic relations to the other reported fields within 1e-14 of the size of the terms, whatever the history and the composition, as long as the fields involved are away from overflow and the slopes are positive.',
  'all reachable states, 32 K to 2048 K, 1e-6 mol/l to 1024 mol/l','relation between rounded results for all inputs',DE+'Detail::properties',GE+'Gerg2008::properties')
p('C58','Every field of DETAIL is accurate in double precision',
  'In IEEE double precision, after any history of calls, properties() of DETAIL sets p, z, dp_dd, d2p_dd2, dp_dt, u, h, s, cv and g to the exact values of the standard within 1.5e-10 of the size of their terms, and mm within 1e-14, for temperatures from 32 K to 2048 K, densities of at least 1e-6 mol/l and reduced densities up to 3.',
  'all histories, all compositions with total within 1% of 1, the ranges above','rounding error over the whole state space; tests compare a few points',DE+'Detail::properties',DE+'Detail::alpha0_detail',DE+'Detail::alphar')
p('C59','What Ok from density() of GERG-2008 means in double precision',
  'In IEEE double precision, after any history of calls, when density() of GERG-2008 reports success the exact equation at the density left in d gives the pressure asked for within 3.1e-7 of the size of the terms of d dp/dd, or is itself below 2.5e-7 of that size (the spurious case of C52).',
  'all histories, all compositions with total within 1% of 1, 32 K to 2048 K, all pressures of at least 1e-15, densities found of at least 2^-19 mol/l and at most 2.48 times the reducing density','needs both the rounding analysis and the stopping rule, with its restarts, for all inputs',GE+'Gerg2008::density',GE+'Gerg2008::pressure')
p('C60','density() of GERG-2008 succeeds in double precision where the gas is nearly ideal',
  'In IEEE double precision, where the pressure of the exact equation is nearly proportional to the density around the starting density, density() of GERG-2008 (iflag not positive) reports success, and the density found is within 1e-7 of the only exact solution nearby. On a new object this covers all mixtures and states for which the printed tables bound the departure from ideality by 1/7 (methane at 300 K and 150 kPa, for instance).',
  'all histories, compositions, temperatures and pressures meeting the condition','convergence of a rounded iteration for all starting points',GE+'Gerg2008::density')
p('C61','density() of DETAIL always finds natural gas at base conditions',
  'In IEEE double precision, for every natural gas (fractions within limits close to the normal range of the AGA 8 standard, total within 1% of 1) between 270 K and 350 K and at pressures from 0.1 to 110 kPa, density() of a new Detail object reports success; the exact equation of state at the density found gives the pressure asked for to 1e-7, and the density found is within 1e-7 of the only exact solution up to twice the ideal-gas density.',
  'all natural gas compositions, temperatures and pressures in the ranges','a 23-dimensional set of inputs; tests try a few compositions',DE+'Detail::density')
p('C62','density() of GERG-2008 always finds natural gas at base conditions',
  'In IEEE double precision, for every natural gas (limits as in C61) between 270 K and 350 K and at pressures from 0.1 to 110 kPa, density() of a new Gerg2008 object with iflag not positive reports success; the exact equation of state at the density found gives the pressure asked for to 1e-7, and the density found is within 1e-7 of the only exact solution up to twice the ideal-gas density.',
  'all natural gas compositions, temperatures and pressures in the ranges','a 23-dimensional set of inputs; tests try a few compositions',GE+'Gerg2008::density')
p('C63','the whole computation for natural gas at base conditions with DETAIL gives sensible numbers',
  'In IEEE double precision, for every natural gas between 270 K and 350 K and at pressures from 0.1 to 110 kPa: set composition, temperature and pressure on a new Detail object, call density() and properties(). Every field is then a finite number, the pressure reported is the one asked for to 2e-7, z is within 4% of 1 and d within 5% of the ideal-gas density, dp_dd and dp_dt are positive and near their ideal-gas values, cv and cp - cv lie in fixed positive ranges around those of a gas, the molar mass is between 14.3 and 30.1, the speed of sound between 280 and 590 m/s and kappa between 1 and 1.8.',
  'all natural gas compositions, temperatures and pressures in the ranges','a 23-dimensional set of inputs; tests try a few compositions',DE+'Detail::density',DE+'Detail::properties')
p('C64','the whole computation for natural gas at base conditions with GERG-2008 gives sensible numbers',
  'The same as C63 for a new Gerg2008 object and density() with iflag not positive; the pressure compared with the one asked for is the value that properties() returns.',
  'all natural gas compositions, temperatures and pressures in the ranges','a 23-dimensional set of inputs; tests try a few compositions',GE+'Gerg2008::density',GE+'Gerg2008::properties')
p('C65','end to end: from the composition a user types to the numbers a Rust or C program reads back',
  'A natural gas given by amounts in any unit (percent, mol/h) is turned by normalize() into mole fractions that set_composition() accepts. For a natural gas near base conditions (C61) a Rust program that calls new(), set_composition(), sets t and p, and calls density() and properties() gets Ok twice and sensible numbers (C63, C64); a C program that makes the corresponding calls, from any state of memory, does not abort, gets error code 0 twice, reads sensible numbers from the structure of properties, and no other object is touched. Both equations of state.',
  'all natural gas compositions, temperatures, pressures, addresses and heaps','a 23-dimensional set of inputs through three layers (normalisation, check, solver); the C layer has no tests at all',CO+'Composition::normalize',CO+'Composition::check',DE+'Detail::set_composition',GE+'Gerg2008::set_composition',FF+'aga8_calculate_properties',FF+'gerg_calculate_properties')
p('C66','one object may be used for one reading after another',
  'Setting composition, temperature and pressure on an object that has been used before, then calling density() and properties(), gives the same answers and the same values in every field, bit for bit, as on a new object, provided the composition is accepted, the density left by the earlier use is not negative and no two inputs differ by so little that the 1e-7 comparison of the caches confuses them (C20). In particular a program that keeps one object and evaluates any number of readings of natural gas near base conditions on it gets Ok and sensible numbers (C63, C64) for every reading. Both equations of state.',
  'all arithmetics, earlier histories, inputs; all lists of readings of any length','unbounded sequences of calls on an object with hidden caches; tests use each object once',DE+'Detail::density',DE+'Detail::properties',GE+'Gerg2008::density',GE+'Gerg2008::properties')
p('C67','the density found follows pressure and temperature',
  'For one natural gas near base conditions (C61) and any two states, density() on a new object succeeds for both, and the two densities are in the ratio of the ideal gas, ln(d2/d1) = ln(P2/P1) - ln(T2/T1), up to 3.7 % of |ln(P2/P1)| plus 18.7 % of |ln(T2/T1)| plus 2.5e-7 (GERG-2008: 4.2 % and 10.1 %). So the answer has no jumps, and a higher pressure or a lower temperature, by one part in a million, always gives a higher density.',
  'all natural gas compositions and pairs of states in the ranges','compares two runs of an iterative search at all pairs of inputs; a test sees a few points and cannot exclude a jump or a reversal between them',DE+'Detail::density',GE+'Gerg2008::density')
p('C68','the same results on every platform, up to the tolerance',
  'Two platforms whose exp, ln, powf and powi differ, each within 2^-50 of the exact value: check(), normalize() and molar_mass() give bit for bit the same on both. density() of a natural gas near base conditions succeeds on both and the densities agree within 2.1e-7. properties() at the same composition, temperature and density, after any two histories, agrees within 3e-10 (DETAIL) or 2e-10 (GERG-2008) of the size of each field.',
  'all pairs of accurate math libraries, all compositions, temperatures 32 K to 2048 K and densities in the range','a test runs on one platform with one math library; the claim compares all pairs of them',CO+'Composition::check',CO+'Composition::normalize',DE+'Detail::properties',GE+'Gerg2008::properties',DE+'Detail::density',GE+'Gerg2008::density')
p('C69','an accepted composition counts as its normalization',
  'If check() accepts a composition, the results with it are those with its normalization: in particular molar_mass() gives the same value up to rounding. This is false: set_composition() accepts sums from 0.99 to 1.01 and does not normalize; methane at 255/256 is accepted and its molar mass is more than 0.3 % smaller than after normalize(). What holds: for every accepted composition the molar mass is that of the normalization times the sum of the fractions, to 2e-14.',
  'all compositions that check() accepts','a test with exactly normalized input never sees it; the bound is for all accepted compositions',CO+'Composition::check',CO+'Composition::normalize',DE+'Detail::set_composition',DE+'Detail::molar_mass',GE+'Gerg2008::molar_mass')
p('C70','at low pressure both equations give nearly the ideal-gas density, so they agree',
  'For every natural gas near base conditions (C61), density() of a new object gives P / (R T) up to 0.036 % per kPa of pressure (plus 2e-7), with the gas constant of the equation used; so the densities that DETAIL and GERG-2008 give for the same composition, temperature and pressure differ by at most 0.076 % per kPa (plus 1e-5).',
  'all natural gas compositions, temperatures and pressures in the ranges','a relation between two independent implementations with different coefficient tables over a 23-dimensional set of inputs',DE+'Detail::density',GE+'Gerg2008::density')
p('C71','density() of DETAIL finds natural gas up to 1.75 MPa',
  'In IEEE double precision, for every natural gas (C61) between 270 K and 350 K and at pressures from 0.1 to 1750 kPa, density() of a new Detail object reports success; the exact equation of state at the density found gives the pressure asked for to 1e-7, and the density found is within 1e-7 of the only exact solution up to 1.4 times the ideal-gas density. Two platforms whose exp, ln, powf and powi are within 2^-50 of the exact value find the same density to 2.1e-7. Of two pressures that differ by one part in a million or more the higher one gives the higher density, and the densities differ by the difference of the pressures over R T up to 11 % less and 59 % more.',
  'all natural gas compositions, temperatures and pressures in the ranges','the range is continuous in 23 dimensions; a run shows one point of it, and neither that the solution is the only one nor that the iteration always ends',DE+'Detail::density',DE+'Detail::pressure')
p('C72','density() of GERG-2008 finds natural gas up to 1.2 MPa',
  'In IEEE double precision, for every natural gas (C61) between 270 K and 350 K and at pressures from 0.1 to 1200 kPa, density() of a new Gerg2008 object with iflag not positive reports success; the exact equation of state at the density found gives the pressure asked for to 1e-7, and the density found is within 1e-7 of the only exact solution up to 1.4 times the ideal-gas density. Two platforms with different math libraries agree within 2.1e-7. Of two pressures at least one part in a million apart the higher one gives the higher density, and the difference of the densities is the difference of the pressures over R T up to -8 % and +57 %.',
  'all natural gas compositions, temperatures and pressures in the ranges','the range is continuous in 23 dimensions; a run shows one point of it, and neither that the solution is the only one nor that the iteration always ends',GE+'Gerg2008::density',GE+'Gerg2008::pressure')
p('C73','the whole computation for natural gas up to 1.2 MPa with DETAIL gives sensible numbers',
  'In IEEE double precision, for every natural gas between 270 K and 350 K and at pressures from 0.1 to 1200 kPa: set composition, temperature and pressure on a new Detail object, call density() and properties(). Every field is then a finite number, the pressure reported is the one asked for to 2e-7, z is between 0.90 and 1.03 and d between 0.97 and 1.12 times the ideal-gas density, dp_dd is positive and within 20 % of its ideal-gas value, dp_dt between 0.84 and 1.26 times its ideal-gas value, cv is between 1.2 R and 6 R, cp exceeds cv by between 0.67 R and 1.99 R, the molar mass is between 14.3 and 30.1, the speed of sound between 255 and 755 m/s and kappa between 0.86 and 3.1.',
  'all natural gas compositions, temperatures and pressures in the ranges','a 23-dimensional set of inputs; tests try a few compositions at one pressure',DE+'Detail::density',DE+'Detail::properties')
p('C74','the whole computation for natural gas up to 1.0 MPa with GERG-2008 gives sensible numbers',
  'In IEEE double precision, for every natural gas between 270 K and 350 K and at pressures from 0.1 to 1000 kPa: set composition, temperature and pressure on a new Gerg2008 object, call density(0) and properties(). Every field is then a finite number, the pressure returned by properties() is the one asked for to 2e-7, z is between 0.86 and 1.03 and d between 0.97 and 1.17 times the ideal-gas density, dp_dd is between 0.73 and 1.06 and dp_dt between 0.79 and 1.37 times its ideal-gas value, cv is positive, cp exceeds cv by between 0.58 R and 2.58 R, the molar mass is between 14.3 and 30.1, the speed of sound between 240 and 972 m/s and kappa between 0.77 and 5.37.',
  'all natural gas compositions, temperatures and pressures in the ranges','a 23-dimensional set of inputs; tests try a few compositions at one pressure',GE+'Gerg2008::density',GE+'Gerg2008::properties')
p('C75','end to end and reading after reading for natural gas at line pressure',
  'For every natural gas (C61) between 270 K and 350 K, up to 1200 kPa with DETAIL and 1000 kPa with GERG-2008: a Rust program that calls new(), set_composition(), sets t and p, and calls density() and properties() gets Ok twice and sensible numbers (C73, C74); a C program that makes the corresponding calls, from any state of memory, does not abort, gets error code 0 twice, reads sensible numbers, and touches no other object; and a program that keeps one object for any number of such readings gets, after each of them, sensible numbers that are bit for bit those of a new object.',
  'all natural gas compositions, temperatures, pressures, addresses and heaps; all lists of readings of any length','a 23-dimensional set of inputs, unbounded sequences of calls on an object with hidden caches, and a C layer without tests',DE+'Detail::set_composition',GE+'Gerg2008::set_composition',DE+'Detail::properties',GE+'Gerg2008::properties',FF+'aga8_calculate_properties',FF+'gerg_calculate_properties')
p('C76','the density found follows pressure and temperature at line pressure',
  'For one natural gas (C61) and any two states between 270 K and 350 K and between 0.1 and 1200 kPa (1000 kPa with GERG-2008), density() on a new object succeeds for both, and the two densities are in the ratio of the ideal gas, ln(d2/d1) = ln(P2/P1) - ln(T2/T1), up to 12.2 % of |ln(P2/P1)| plus 41.2 % of |ln(T2/T1)| plus 2.5e-7 (GERG-2008: 18 % and 64 %). So the answer has no jumps, and a higher pressure or a lower temperature, by one part in a million, always gives a higher density.',
  'all natural gas compositions and pairs of states in the ranges','compares two runs of an iterative search at all pairs of inputs; a test sees a few points and cannot exclude a jump or a reversal between them',DE+'Detail::density',GE+'Gerg2008::density')
p('C77','pressure() and density() are inverse to each other at line pressure',
  'In IEEE double precision, for every natural gas (C61) between 270 K and 350 K and every density from 0.0001 mol/l to 0.55 mol/l (0.40 mol/l with GERG-2008), which is up to about 1.5 MPa: pressure() on a new object with this composition, temperature and density returns a finite number, and density() on a new object with the same composition and temperature and with that number as pressure succeeds and gives back the density one started from, within one part in nine million. The same holds if the second computation is made on the first object.',
  'all natural gas compositions, temperatures and densities in the ranges','the chain is a rounded sum of many terms followed by an iterative search that starts elsewhere; a test sees single densities of single gases',DE+'Detail::pressure',DE+'Detail::density',GE+'Gerg2008::pressure',GE+'Gerg2008::density')
p('C78','pressure() keeps the order of states and does not depend on the platform at line pressure',
  'In IEEE double precision, for every natural gas (C61), temperatures between 270 K and 350 K and densities from 0.0001 mol/l to 0.55 mol/l (0.40 mol/l with GERG-2008): if one state is neither cooler nor thinner than another and is hotter by at least a millionth of a kelvin or denser by at least one part in 10^8, pressure() returns the larger number for it. Two platforms, each with its own libm that is accurate to the stated bounds, return for the same composition, temperature and density numbers that agree to one part in 10^9.',
  'all natural gas compositions, all pairs of states in the ranges, all pairs of accurate libm','states can be arbitrarily close, and rounding noise could invert them between any two tested points; a test runs on one libm',DE+'Detail::pressure',GE+'Gerg2008::pressure')
p('C79','the round trip from pressure to density works from C',
  'In IEEE double precision, for every natural gas (C61), 270 K to 350 K and densities as in C77, and for every state of memory: a C program that creates an object, sets composition, temperature and density, calls calculate_pressure, then on the same object sets composition, temperature and the pressure it got, calls calculate_density and calculate_properties and reads the density, sees no panic, no undefined behaviour and error codes 0 only, changes no other object, gets a finite pressure, and reads the density it started from, within one part in nine million.',
  'all natural gas compositions, temperatures and densities in the ranges, all memory states','the chain crosses the C interface with several calls on one object and depends on rounding and on values cached in the object; a test sees single inputs',FF+'aga8_calculate_pressure',FF+'aga8_calculate_density',FF+'gerg_calculate_pressure',FF+'gerg_calculate_density',FF+'aga8_get_density',FF+'gerg_get_density')
p('C80','pressure() follows the ideal gas at line pressure, in size and in rise',
  'In IEEE double precision, for every natural gas (C61), 270 K to 350 K and densities from 0.0001 mol/l to 0.55 mol/l (0.40 mol/l with GERG-2008): pressure() returns 0.90 to 1.03 times (GERG-2008: 0.86 to 1.03 times) the pressure of the ideal gas at this temperature and density. From a state to another one that is neither cooler nor thinner the returned number rises by 0.80 to 1.26 times (GERG-2008: 0.73 to 1.37 times) the rise for the ideal gas, give or take 6 parts in 10^10 of the ideal-gas pressure for rounding.',
  'all natural gas compositions, all pairs of states in the ranges','a test sees single states; a kink or jump between two tested states would go unnoticed, and so would a noise level that spoils numerical differentiation',DE+'Detail::pressure',GE+'Gerg2008::pressure')
p('C81','amounts in any unit to results in a C program, at line pressure',
  'In IEEE double precision: if a natural gas is given by amounts in any unit (percent, mol, mol/h), with shares that keep 0.1 % off the limits of C61, Composition::normalize() succeeds, and with the composition it leaves a C program at 270 K to 350 K, from any state of memory, sees no panic, no undefined behaviour and error codes 0 only, changes no other object, reads for every pressure from 0.1 kPa to 1.2 MPa (1.0 MPa with GERG-2008) a state as described in C73 (C74), and gets back the density in the round trip of C79.',
  'all amounts in all units, all temperatures, pressures, densities and memory states in the ranges','rounding in normalize() passes through set_composition, the iterative search and the C layer; a test sees single inputs','src/composition.rs:Composition::normalize',FF+'aga8_calculate_density',FF+'gerg_calculate_density',FF+'aga8_calculate_pressure',FF+'gerg_calculate_pressure')
out=os.path.join(os.path.dirname(os.path.abspath(__file__)),'..','properties.jsonl')
open(out,'w').write('\n'.join(json.dumps(x) for x in P)+'\n')
print(len(P))
