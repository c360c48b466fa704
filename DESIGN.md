# Formal model of the aga8 crate: design

Source: /repo (royvegard/aga8, Rust), read as text only. Prover: Coq 8.16.1, files in
`rocq/theories`. Properties: `properties.jsonl` (C01...). Status per property: `MANIFEST.json`.

## What is modelled

| Source | Model file | Notes |
|---|---|---|
| src/composition.rs (sum, normalize, check, Default) | Composition.v | complete |
| src/detail.rs, every function | DetailTables.v (constants), DetailModel.v | complete |
| src/gerg2008.rs, every function | GergTables.v, GergModel.v | complete |
| src/lib.rs DensityError | DetailModel.v | complete |
| src/ffi.rs | Ffi.v | handles as a finite heap; see below |
| use of the public API | Api.v | histories of calls and public field writes on a new object |

The model is written once over `Class Arith` (FArith.v): a carrier `F` and the f64 operations the
code uses (`+ - * / neg abs sqrt exp ln powf powi < <= literal usize-as-f64`). No law is built in.
It is used at three instances:

* any arithmetic whatever (panic freedom, frame properties, iteration bounds, cache behaviour, FFI);
  this covers IEEE doubles with any libm;
* `ArithR`: exact reals (thermodynamic identities, mixing rules, limits, convergence);
* `ArithB64 lib`: IEEE-754 binary64 from Flocq with an arbitrary libm `lib` for exp/ln/powf/powi
  (rounding, NaN and infinity behaviour). Laws of the libm that a theorem needs are hypotheses of
  that theorem: `ln_ok` (special values of ln), `special_ok` (special values of exp and ln),
  `accurate` (relative error 2^-50 on stated ranges). Each is shown to be satisfiable.

A fourth instance `ArithPrim` (hardware floats and a software libm) only runs the model:
`PrimTests.v` reproduces every numeric assertion in /repo/tests within that test's own tolerance.
No theorem depends on it, except that the Examples C18_detail_applies and C19_gerg_applies use it.

Panics: every array access is a checked access in the option monad; `None` is a panic. Loops are
counted loops over the same ranges as the source. `&mut self` methods return the new object.
Tables and the 1721 constant assignments of GERG `setup` are extracted by `tools/gen_tables.py`
from the source text and committed as Coq data.

Simplifications:

* One NaN. Flocq's `BinarySingleNaN` has no NaN payload or sign; the program never looks at them.
* `powi` is an operation of its own (its result may differ from repeated multiplication).
* Integers (`i32`, `usize` counters and exponents) are unbounded; their values stay below 100.
* In the FFI model a handle is a number drawn by an arbitrary allocator that never hands out a live one.

Not modelled: rounding mode changes, the accuracy of the platform libm, FMA contraction (rustc does
not contract), memory layout/`repr(C)`, allocation failure, threads (the API needs `&mut self`),
the `println`s and doc tests, the Python/C example code, the Cargo build.

## Specifications

Theorem statements use the model only through the API (Api.v: `dexec`/`gexec` run a history of calls;
`dpres`, `dprop`, `gpres`, `gprop` in SpecReal.v are the value of pressure() and of a field after
properties()). What the values are compared with is in separate files:

| File | Content |
|---|---|
| SpecGeneric.v | frames, search relations for density(), public fields |
| SpecHistory.v | inputs asked for in a history, told apart, copy of an object |
| SpecReal.v | API wrappers over the reals, thermodynamic relations (potentials, cp, jt, w) |
| SpecDetail.v, SpecGerg.v | the two equations of state over the program's coefficient tables |
| StdDetail.v, StdGerg.v, SpecStd.v | the two equations over tables laid out as printed; written by `tools/mkstd.py` by transposing and regrouping the text of /repo, as no copy of the reports is at hand. They pin down which number belongs to which term; they cannot reveal a misprint in /repo itself |
| SpecIdeal.v, SpecMass.v, SpecTables.v | ideal gas, chemical formulas, table consistency |
| SpecB64.v, SpecAcc.v, SpecAccG.v | binary64: usable compositions, exact sums, sizes of the terms, accuracy of a libm |
| SpecSlope.v | size of the terms of the density derivative, bounds over the printed table |
| SpecConv.v | nearly ideal pressure functions and sufficient conditions over the printed tables |
| SpecFfi.v | handles as independent objects |

## How each property is treated

Method names: *generic* = proved over every `Arith`; *R* = exact reals; *B64* = Flocq binary64.
Where a property is false of the program the theorem is called `_refuted` and gives the witness; what
remains true is a separate theorem (`_partial`).

| Id | Modelled and proved as |
|---|---|
| C01 | R decision rule for check; B64 up to 1e-14 around the limits |
| C02 | B64: refuted by NaN and by negative fractions; positive part proved as partial |
| C03 | B64: refuted by cancelling fractions; all-zero direction proved |
| C04 | R: scaling theorem; failure leaves the value unchanged |
| C05 | R |
| C06 | B64: error analysis of sum and scaling; refuted outside the range |
| C07 | B64: standard summation error bound for 21 terms |
| C08 | generic, both equations of state |
| C09 | generic frame and value; R linearity and bounds |
| C10 | generic: refinement of the checked model to a total closed form, then induction over histories |
| C11 | generic: a search relation with counters holds of every run and is bounded |
| C12 | generic |
| C13 | R for the metric statement, generic for the control-flow statement |
| C14 | R, Coquelicot: Newton step equals f/f', Taylor bound for the residual |
| C15 | R |
| C16 | B64 with `ln_ok` |
| C17 | generic |
| C18, C19 | R: refuted, a temperature changed in steps of at most 1e-7 keeps the cached terms of the first one; also B64 for every accurate libm (C18_double_*, C19_double_*); generic partial for histories whose changes are detected |
| C20 | R and B64: refuted, drift of the composition of any size (B64: methane to nitrogen in steps of 2^-24); partial (R): the cached terms after any method are those of a composition asked for, at most 1e-7 per evaluation away |
| C21 | B64 with `special_ok`: refuted, NaN is never told apart; generic partial: one detected change restores the answers of a new object |
| C22, C25 | R: independent textbook formula, over the program's tables and over the printed ones |
| C23, C26 | R, Coquelicot `is_derive` of the pressure function |
| C24, C27 | R, Coquelicot |
| C28 | R |
| C29 | R, limits with Coquelicot |
| C30 | generic / R |
| C31, C32 | generic; C32 instantiated in B64 |
| C33 | B64 |
| C34 | generic: refuted, every path with iflag > 0 returns Err |
| C35, C36 | generic over the allocator; heap model of handles |
| C37 | R: interval arithmetic and exact rational comparison of tables |
| C38 | generic with one order law; instance B64 |
| C39 | B64 with `ln_ok` |
| C40, C41 | generic |
| C42-C44, C46-C48 | R; C42, C44, C46 with numeric bounds checked for every component |
| C45 | R, interval arithmetic at the 21 critical points |
| C49 | B64 with `accurate`: forward error analysis of the whole DETAIL pressure against the printed equation |
| C50 | R: Newton in ln v contracts where the pressure is nearly proportional to the density; explicit conditions over the printed tables |
| C51 | B64 with `accurate`: forward error analysis of the whole GERG pressure against the printed equation |
| C52 | R and double (m accurate): refuted with methane at 150 K near the density where the pressure vanishes (IVT for the density, rounded to 42 binary places in double precision, one loop pass with the rounding errors of C53/C57 bounded there); partial over R under a bound on the logarithmic slope |
| C53 | B64 with `accurate`: forward error analysis of p, z and dp/dd in properties() |
| C54 | B64: stopping rule of density() combined with C53 |
| C55 | B64: the contraction of C50 with a perturbed Newton step, perturbations bounded by C53 |
| C56 | B64 with `accurate`: forward error analysis of all eight residual sums and the ideal part of GERG (`SpecAll`: sizes over the printed tables); exact side is the run over the reals |
| C57 | B64: derived fields recomputed from the reported ones, from the generic relations of `Consistency` and the error calculus |
| C58 | B64 with `accurate`: forward error analysis of the seven residual sums and the ideal part of DETAIL (`SpecAllD`: sizes over the printed tables); exact side is the run over the reals |
| C59 | B64: stopping rule of GERG density(), including restarts, combined with C56; `SpecSlopeG` counts the terms of d dp/dd by size |
| C60 | B64: the contraction of C50 with a perturbed Newton step, perturbations bounded by C56; converges before the first restart (iteration 20) |
| C61 | the size condition of C55 bounded for all natural gases (SpecGas): sums over components and pairs by fixed-point upper bounds (FixUp), linear in the fractions with methane as the rest |
| C62 | the same for C60: reducing functions bounded over all pairs, tau to the power t over a table of eighth powers |
| C63 | C61 followed by C58 and C57: the sums of SpecAllD and the ideal-gas heat capacities bounded for all natural gases, derived fields from the relations of C57 |
| C64 | C62 followed by C56 and C57, likewise; dp/dd by the sharper size of C60 |
| C65 | set_composition() stores what SetX stores (C08), check() by C01, normalize() by C06; the C calls by a trace of the Rust operations (C36); then C63 and C64 |
| C66 | as C18, with a weaker relation between the two objects (same inputs and density, other fields free): density() ignores, and properties() overwrites, whatever the earlier use left; lists of readings by induction with C65 |
| C67 | C61 and C62 give solutions within 1e-7; the mean value theorem for ln p along d at fixed T and along T at fixed d, with d p_d - p and T p_T - p bounded term by term by the sums of C63 and C64 |
| C68 | check, normalize and molar mass use only the four IEEE operations, so the two instances compute the same terms; the rest from C56, C58 (both within the tolerance of one real value) and from C61, C62 with the uniqueness that C67 gives |
| C69 | refuted; the molar mass is a sum with weights at least 1 and rounding errors up to 50 units, normalize() divides each fraction by the sum with up to 25 units (C06) |
| C70 | the sizes of C60/C61 (`spread`, `gerg_spread`) grow at least in proportion to the density, so 1/7 at 0.196 mol/l gives |Z - 1| <= 0.729 d; then C61/C62 and Z d R T = P |
| C71 | as C61 with a narrower window around the start and a wider range for the slope (Tight, SpecMed); the second virial coefficient is bounded with its sign, pair by pair, on [270, 290] K and [290, 350] K (GasVir2), the other terms by size after their linear part is taken out (GasTight) |
| C72 | as C71 for GERG-2008; the residual is expanded to first order in the reduced density with its sign (LinGerg): rows with the same density factor are summed with their signs on eight intervals of the reduced temperature (GasGerg2), everything of higher order is counted by size; the reducing temperature is bounded from below (GasRed3) |
| C73 | C71 followed by C58 and C57 as in C63: z, p and dp_dd from the signed bounds of C71 at 0.669 mol/l, dp_dt by signed bounds of the temperature slope of the second virial coefficient (GasVirT, MedSlope), cv by the sizes of SpecAllD at that density (MedSum), derived fields from the relations of C57 (MedDerived) |
| C74 | C72 followed by C58 and C57 as in C64: z and dp_dd from the signed bounds of C72 at 0.557 mol/l, dp_dt by signed bounds of the mixed derivative of the residual (GasGergT, MedSlopeG), cv by the sizes of SpecAll at that density (MedSumG), derived fields from the relations of C57 (MedDerivedG) |
| C75 | C65 and C66 with C73 and C74 in place of C63 and C64; the caches never look at the pressure, so the separation of readings is that of the same list at 101 kPa (MedSession) |
| C76 | as C67, with the signed bounds of C71 and of GasVirT in place of the sums of C63: d p_d - p and T p_T - p for densities up to 0.669 mol/l (MedSens); GERG-2008 with the terms grouped by density factor and weighted by their temperature exponents (GasGergT, MedSlopeG, MedSensG) |
| C77 | pressure() is the equation of state to 3e-10 of the ideal-gas pressure (C49, C51 with the sums of C73, C74); density() finds a zero of it to 1e-7 (C71, C72); between the two densities the equation rises with at least 0.63 R T (slope_box, slope_box_g) (RoundMed); on one object by C66_reuse (RoundSame) |
| C78 | pressure() is the equation of state to 3e-10 of the ideal-gas pressure (gauge_detail, gauge_gerg of C77); the equation rises with at least half the ideal-gas slope in density (slope_box, slope_box_g) and in temperature (zt_range, gp_slopes), and the compression factor is at least 0.86 (RisePress) |
| C79 | the one-object round trip of C77 (RoundSame) carried over call by call with the refinement of C36 (duses, guses) (RoundC) |
| C80 | gauge_detail and gauge_gerg of C77 with the ranges of Z, of dp/dd and of dp/dT (zq_range, zt_range, gp_slopes) and the mean value theorem along the two sides of the box (PropPress) |
| C81 | normalize_gas of C65 followed by C75 and C79 (Amounts) |

The runtime part of the FFI (real memory, use after free) is only expressible as an explicit error
value of the heap model; properties about it are stated for sequences of calls on live handles.

## Trusted base

* The Coq kernel (coqc and coqchk).
* The axioms `Print Assumptions` lists under each theorem; see the next section.
* The reading of the source: the definitions in Composition.v, DetailModel.v, GergModel.v, Ffi.v,
  Api.v and the generated tables, each with the cited lines.
* The transcription of the printed tables (StdDetail.v, StdGerg.v).

## Axioms per theorem

As printed by `Print Assumptions` (regenerate with `tools/mkaxioms.py`). All are axioms or primitives of the
Coq standard library; the primitive integers and floats come in through the computations of the `interval` tactic.

* **none (closed under the global context)**

  Theorems: `C08_detail`, `C08_gerg`, `C09_detail`, `C09_gerg`, `C10_detail`, `C10_gerg`, `C11_detail`, `C11_gerg`, `C12_detail`, `C12_gerg`, `C12_gerg_any_flag`, `C13_detail`, `C13_gerg`, `C17_detail`, `C17_gerg`, `C18_detail_partial`, `C19_gerg_partial`, `C21_detail_partial`, `C21_gerg_partial`, `C30_detail`, `C30_gerg`, `C31_detail`, `C31_gerg`, `C32_detail`, `C32_gerg`, `C34_refuted`, `C35_isolation`, `C35_legal`, `C35_null`, `C36_detail`, `C36_gerg`, `C36_roundtrip`, `C38_gerg`, `C40_detail`, `C40_gerg`, `C41_detail`, `C41_detail_pressure`, `C41_gerg`, `C41_gerg_pressure`, `C66_reuse_detail`, `C66_reuse_gerg`.

* **`ClassicalDedekindReals.sig_forall_dec`, `FunctionalExtensionality.functional_extensionality_dep`**

  Theorems: `C09_linear`.

* **`ClassicalDedekindReals.sig_forall_dec`, `ClassicalDedekindReals.sig_not_dec`, `Classical_Prop.classic`, `FunctionalExtensionality.functional_extensionality_dep`**

  Theorems: `C01`, `C01_default`, `C01_double`, `C01_unit_sum`, `C02_partial`, `C02_refuted`, `C03_partial`, `C03_refuted`, `C04`, `C05_idempotent`, `C05_scale`, `C06`, `C06_outside_refuted`, `C07`, `C09_detail_real`, `C09_gerg_real`, `C13_detail_real`, `C13_gerg_real`, `C14_detail`, `C14_gerg`, `C15_detail`, `C15_gerg`, `C16_detail`, `C16_gerg`, `C18_double_drift`, `C18_drift`, `C18_refuted`, `C18_refuted_witness`, `C19_drift`, `C20_detail_caches_partial`, `C20_detail_drift`, `C20_detail_partial`, `C20_gerg_double_refuted`, `C20_gerg_double_refuted_witness`, `C20_gerg_drift`, `C20_gerg_partial`, `C20_gerg_refuted`, `C20_gerg_refuted_witness`, `C21_detail_fraction_stuck`, `C21_detail_refuted`, `C21_detail_stuck`, `C21_gerg_fraction_refuted`, `C21_gerg_fraction_stuck`, `C21_gerg_refuted`, `C21_gerg_stuck`, `C22_detail`, `C22_nonneg`, `C22_standard`, `C23_detail`, `C23_detail_pressure`, `C24_detail`, `C25_gerg`, `C25_standard`, `C26_gerg`, `C26_gerg_pressure`, `C27_gerg`, `C28_detail`, `C28_gerg`, `C28_gerg_pure`, `C29_detail`, `C29_detail_ideal`, `C29_gerg`, `C29_gerg_ideal`, `C30_detail_mass`, `C30_gerg_mass`, `C32_detail_double`, `C32_gerg_double`, `C33_detail`, `C33_gerg`, `C37_exponents`, `C37_reducing`, `C38_gerg_double`, `C39_detail`, `C39_detail_negative`, `C39_gerg`, `C43_cv`, `C43_enthalpy`, `C44_detail`, `C44_detail_table`, `C44_gerg`, `C47_detail`, `C47_gerg`, `C48_detail`, `C48_gerg`, `C49_detail`, `C52_detail_partial`, `C52_detail_spurious`, `C52_gerg_partial`, `C52_gerg_spurious`, `C53_detail`, `C57_detail`, `C57_gerg`, `C58_detail`, `C65_normalize`, `C68_check`, `C68_detail`, `C68_mass_detail`, `C68_mass_gerg`, `C68_normalize`, `C69_detail_partial`, `C69_detail_refuted`, `C69_gerg_partial`, `C69_gerg_refuted`, `C78_detail`, `C78_platform_detail`, `C80_ideal_detail`, `C80_rise_detail`.

* **`ClassicalDedekindReals.sig_forall_dec`, `ClassicalDedekindReals.sig_not_dec`, `Classical_Prop.classic`, `FunctionalExtensionality.functional_extensionality_dep`; and the primitive types, operations and specification axioms of `Coq …PrimInt63`, `Coq …Uint63`**

  Primitives and their specifications in full: `PrimInt63.add`, `PrimInt63.addc`, `PrimInt63.addcarryc`, `PrimInt63.addmuldiv`, `PrimInt63.compare`, `PrimInt63.div`, `PrimInt63.diveucl`, `PrimInt63.diveucl_21`, `PrimInt63.eqb`, `PrimInt63.head0`, `PrimInt63.int`, `PrimInt63.land`, `PrimInt63.leb`, `PrimInt63.lor`, `PrimInt63.lsl`, `PrimInt63.lsr`, `PrimInt63.ltb`, `PrimInt63.lxor`, `PrimInt63.mod`, `PrimInt63.mul`, `PrimInt63.mulc`, `PrimInt63.sub`, `PrimInt63.subc`, `PrimInt63.subcarryc`, `PrimInt63.tail0`, `Uint63.add_spec`, `Uint63.addc_def_spec`, `Uint63.addcarryc_def_spec`, `Uint63.addmuldiv_def_spec`, `Uint63.compare_def_spec`, `Uint63.div_spec`, `Uint63.diveucl_21_spec`, `Uint63.diveucl_def_spec`, `Uint63.eqb_correct`, `Uint63.eqb_refl`, `Uint63.head0_spec`, `Uint63.land_spec`, `Uint63.leb_spec`, `Uint63.lor_spec`, `Uint63.lsl_spec`, `Uint63.lsr_spec`, `Uint63.ltb_spec`, `Uint63.lxor_spec`, `Uint63.mod_spec`, `Uint63.mul_spec`, `Uint63.mulc_spec`, `Uint63.of_to_Z`, `Uint63.sub_spec`, `Uint63.subc_def_spec`, `Uint63.subcarryc_def_spec`, `Uint63.tail0_spec`.

  Theorems: `C42_detail`, `C42_gerg`.

* **`ClassicalDedekindReals.sig_forall_dec`, `ClassicalDedekindReals.sig_not_dec`, `Classical_Prop.classic`, `FunctionalExtensionality.functional_extensionality_dep`; and the primitive types, operations and specification axioms of `Coq …FloatAxioms`, `Coq …PrimFloat`, `Coq …PrimInt63`, `Coq …Uint63`**

  Primitives and their specifications in full: `FloatAxioms.Prim2SF_SF2Prim`, `FloatAxioms.Prim2SF_valid`, `FloatAxioms.SF2Prim_Prim2SF`, `FloatAxioms.abs_spec`, `FloatAxioms.add_spec`, `FloatAxioms.classify_spec`, `FloatAxioms.compare_spec`, `FloatAxioms.div_spec`, `FloatAxioms.eqb_spec`, `FloatAxioms.frshiftexp_spec`, `FloatAxioms.ldshiftexp_spec`, `FloatAxioms.ltb_spec`, `FloatAxioms.mul_spec`, `FloatAxioms.next_down_spec`, `FloatAxioms.next_up_spec`, `FloatAxioms.normfr_mantissa_spec`, `FloatAxioms.of_uint63_spec`, `FloatAxioms.opp_spec`, `FloatAxioms.sqrt_spec`, `FloatAxioms.sub_spec`, `PrimFloat.abs`, `PrimFloat.add`, `PrimFloat.classify`, `PrimFloat.compare`, `PrimFloat.div`, `PrimFloat.eqb`, `PrimFloat.float`, `PrimFloat.frshiftexp`, `PrimFloat.ldshiftexp`, `PrimFloat.ltb`, `PrimFloat.mul`, `PrimFloat.next_down`, `PrimFloat.next_up`, `PrimFloat.normfr_mantissa`, `PrimFloat.of_uint63`, `PrimFloat.opp`, `PrimFloat.sqrt`, `PrimFloat.sub`, `PrimInt63.add`, `PrimInt63.eqb`, `PrimInt63.int`, `PrimInt63.land`, `PrimInt63.leb`, `PrimInt63.lor`, `PrimInt63.lsl`, `PrimInt63.lsr`, `PrimInt63.ltb`, `PrimInt63.sub`, `Uint63.add_spec`, `Uint63.eqb_correct`, `Uint63.eqb_refl`, `Uint63.land_spec`, `Uint63.leb_spec`, `Uint63.lor_spec`, `Uint63.lsl_spec`, `Uint63.lsr_spec`, `Uint63.ltb_spec`, `Uint63.of_to_Z`, `Uint63.sub_spec`.

  Theorems: `C19_double_drift`, `C19_refuted`, `C19_refuted_witness`, `C20_detail_double_refuted`, `C20_detail_double_refuted_witness`, `C20_detail_refuted`, `C20_detail_refuted_witness`, `C45_gerg`, `C45_standard`, `C46_detail_cv`, `C46_detail_sound`, `C46_gerg_cv`, `C46_gerg_sound`, `C50_detail`, `C50_detail_low`, `C50_gerg`, `C50_gerg_low`, `C51_gerg`, `C54_detail`, `C55_detail`, `C55_detail_low`, `C56_gerg`, `C59_gerg`, `C60_gerg`, `C60_gerg_low`, `C61_detail`, `C62_gerg`, `C67_detail`, `C67_gerg`, `C68_density_detail`, `C68_density_gerg`, `C68_gerg`, `C70_agree`, `C70_detail`, `C70_gerg`, `C71_detail`, `C71_monotone`, `C71_platform`, `C72_gerg`, `C72_monotone`, `C72_platform`, `C76_detail`, `C76_gerg`, `C77_detail`, `C77_gerg`, `C77_same_detail`, `C77_same_gerg`, `C78_gerg`, `C78_platform_gerg`, `C79_detail`, `C79_gerg`, `C80_ideal_gerg`, `C80_rise_gerg`.

* **`ClassicalDedekindReals.sig_forall_dec`, `ClassicalDedekindReals.sig_not_dec`, `Classical_Prop.classic`, `FunctionalExtensionality.functional_extensionality_dep`; and the primitive types, operations and specification axioms of `Coq …FloatAxioms`, `Coq …PrimFloat`, `Coq …PrimInt63`, `Coq …Uint63`**

  Primitives and their specifications in full: `FloatAxioms.Prim2SF_SF2Prim`, `FloatAxioms.Prim2SF_valid`, `FloatAxioms.SF2Prim_Prim2SF`, `FloatAxioms.abs_spec`, `FloatAxioms.add_spec`, `FloatAxioms.classify_spec`, `FloatAxioms.compare_spec`, `FloatAxioms.div_spec`, `FloatAxioms.eqb_spec`, `FloatAxioms.frshiftexp_spec`, `FloatAxioms.ldshiftexp_spec`, `FloatAxioms.ltb_spec`, `FloatAxioms.mul_spec`, `FloatAxioms.next_down_spec`, `FloatAxioms.next_up_spec`, `FloatAxioms.normfr_mantissa_spec`, `FloatAxioms.of_uint63_spec`, `FloatAxioms.opp_spec`, `FloatAxioms.sqrt_spec`, `FloatAxioms.sub_spec`, `PrimFloat.abs`, `PrimFloat.add`, `PrimFloat.classify`, `PrimFloat.compare`, `PrimFloat.div`, `PrimFloat.eqb`, `PrimFloat.float`, `PrimFloat.frshiftexp`, `PrimFloat.ldshiftexp`, `PrimFloat.ltb`, `PrimFloat.mul`, `PrimFloat.next_down`, `PrimFloat.next_up`, `PrimFloat.normfr_mantissa`, `PrimFloat.of_uint63`, `PrimFloat.opp`, `PrimFloat.sqrt`, `PrimFloat.sub`, `PrimInt63.add`, `PrimInt63.addc`, `PrimInt63.addcarryc`, `PrimInt63.addmuldiv`, `PrimInt63.compare`, `PrimInt63.div`, `PrimInt63.diveucl`, `PrimInt63.diveucl_21`, `PrimInt63.eqb`, `PrimInt63.head0`, `PrimInt63.int`, `PrimInt63.land`, `PrimInt63.leb`, `PrimInt63.lor`, `PrimInt63.lsl`, `PrimInt63.lsr`, `PrimInt63.ltb`, `PrimInt63.lxor`, `PrimInt63.mod`, `PrimInt63.mul`, `PrimInt63.mulc`, `PrimInt63.sub`, `PrimInt63.subc`, `PrimInt63.subcarryc`, `PrimInt63.tail0`, `Uint63.add_spec`, `Uint63.addc_def_spec`, `Uint63.addcarryc_def_spec`, `Uint63.addmuldiv_def_spec`, `Uint63.compare_def_spec`, `Uint63.div_spec`, `Uint63.diveucl_21_spec`, `Uint63.diveucl_def_spec`, `Uint63.eqb_correct`, `Uint63.eqb_refl`, `Uint63.head0_spec`, `Uint63.land_spec`, `Uint63.leb_spec`, `Uint63.lor_spec`, `Uint63.lsl_spec`, `Uint63.lsr_spec`, `Uint63.ltb_spec`, `Uint63.lxor_spec`, `Uint63.mod_spec`, `Uint63.mul_spec`, `Uint63.mulc_spec`, `Uint63.of_to_Z`, `Uint63.sub_spec`, `Uint63.subc_def_spec`, `Uint63.subcarryc_def_spec`, `Uint63.tail0_spec`.

  Theorems: `C18_double_refuted`, `C18_double_refuted_witness`, `C19_double_refuted`, `C19_double_refuted_witness`, `C52_detail_double_refuted`, `C52_detail_double_refuted_witness`, `C52_detail_refuted`, `C52_detail_refuted_witness`, `C52_gerg_double_refuted`, `C52_gerg_double_refuted_witness`, `C52_gerg_refuted`, `C52_gerg_refuted_witness`, `C63_detail`, `C64_gerg`, `C65_c_detail`, `C65_c_gerg`, `C65_rust_detail`, `C65_rust_gerg`, `C66_log_detail`, `C66_log_gerg`, `C73_detail`, `C74_gerg`, `C75_c_detail`, `C75_c_gerg`, `C75_log_detail`, `C75_log_gerg`, `C75_rust_detail`, `C75_rust_gerg`, `C81_detail`, `C81_gerg`.
