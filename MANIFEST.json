{
 "claims": [
  {
   "property": "C01",
   "status": "proved",
   "theorems": [
    "C01",
    "C01_unit_sum",
    "C01_default",
    "C01_double"
   ],
   "note": "exact arithmetic; in double precision (C01_double) up to 1e-14 around the limits"
  },
  {
   "property": "C02",
   "status": "proved",
   "theorems": [
    "C02_refuted",
    "C02_partial"
   ],
   "note": "REFUTED as stated (NaN and negative fractions are accepted), for every libm; C02_partial: true, up to 1e-14 in the limit, when no fraction is NaN or negative"
  },
  {
   "property": "C03",
   "status": "proved",
   "theorems": [
    "C03_refuted",
    "C03_partial"
   ],
   "note": "REFUTED as stated (cancelling or tiny fractions give Empty), for every libm; C03_partial: all zero gives Empty"
  },
  {
   "property": "C04",
   "status": "proved",
   "theorems": [
    "C04"
   ],
   "note": "exact arithmetic"
  },
  {
   "property": "C05",
   "status": "proved",
   "theorems": [
    "C05_idempotent",
    "C05_scale"
   ],
   "note": "exact arithmetic"
  },
  {
   "property": "C06",
   "status": "proved",
   "theorems": [
    "C06",
    "C06_outside_refuted"
   ],
   "note": "double precision; exact sum between 2^-1000 and 2^1000; outside the range the witness of the property's second sentence"
  },
  {
   "property": "C07",
   "status": "proved",
   "theorems": [
    "C07"
   ],
   "note": "double precision; factor 21 unit roundoffs"
  },
  {
   "property": "C08",
   "status": "proved",
   "theorems": [
    "C08_detail",
    "C08_gerg"
   ],
   "note": "any arithmetic"
  },
  {
   "property": "C09",
   "status": "proved",
   "theorems": [
    "C09_detail",
    "C09_gerg",
    "C09_detail_real",
    "C09_gerg_real",
    "C09_linear"
   ],
   "note": "value and frame for any arithmetic; bounds and linearity over the reals"
  },
  {
   "property": "C10",
   "status": "proved",
   "theorems": [
    "C10_detail",
    "C10_gerg"
   ],
   "note": "any arithmetic, any history"
  },
  {
   "property": "C11",
   "status": "proved",
   "theorems": [
    "C11_detail",
    "C11_gerg"
   ],
   "note": "any arithmetic"
  },
  {
   "property": "C12",
   "status": "proved",
   "theorems": [
    "C12_detail",
    "C12_gerg",
    "C12_gerg_any_flag"
   ],
   "note": "any arithmetic"
  },
  {
   "property": "C13",
   "status": "proved",
   "theorems": [
    "C13_detail_real",
    "C13_gerg_real",
    "C13_detail",
    "C13_gerg"
   ],
   "note": "any history; the _real theorems over the reals, the others for any arithmetic"
  },
  {
   "property": "C14",
   "status": "proved",
   "theorems": [
    "C14_detail",
    "C14_gerg"
   ],
   "note": "exact arithmetic; histories as in C18/C19; GERG: some fraction above 1e-7"
  },
  {
   "property": "C15",
   "status": "proved",
   "theorems": [
    "C15_detail",
    "C15_gerg"
   ],
   "note": "exact arithmetic; histories as in C18/C19; GERG: some fraction above 1e-7, iflag <= 0"
  },
  {
   "property": "C16",
   "status": "proved",
   "theorems": [
    "C16_detail",
    "C16_gerg"
   ],
   "note": "double precision, any libm with the standard special values of ln; also p = +inf"
  },
  {
   "property": "C17",
   "status": "proved",
   "theorems": [
    "C17_detail",
    "C17_gerg"
   ],
   "note": "any arithmetic"
  },
  {
   "property": "C18",
   "status": "proved",
   "theorems": [
    "C18_refuted",
    "C18_refuted_witness",
    "C18_drift",
    "C18_double_refuted",
    "C18_double_refuted_witness",
    "C18_double_drift",
    "C18_detail_partial"
   ],
   "note": "REFUTED: the caches are compared with the previous evaluation, so a temperature changed in steps of at most 1e-7 keeps the terms of the first temperature (in exact arithmetic, and in double precision with any elementary functions good to 2^-50, where methane warmed from 256 K to 512 K ends more than 25 % off). C18_detail_partial: holds in any arithmetic for histories whose inputs are pairwise equal or told apart by the 1e-7 comparison"
  },
  {
   "property": "C19",
   "status": "proved",
   "theorems": [
    "C19_refuted",
    "C19_refuted_witness",
    "C19_drift",
    "C19_double_refuted",
    "C19_double_refuted_witness",
    "C19_double_drift",
    "C19_gerg_partial"
   ],
   "note": "REFUTED in the same way, in exact arithmetic and in double precision; C19_gerg_partial as C18_detail_partial"
  },
  {
   "property": "C20",
   "status": "proved",
   "theorems": [
    "C20_detail_refuted",
    "C20_gerg_refuted",
    "C20_detail_refuted_witness",
    "C20_gerg_refuted_witness",
    "C20_detail_drift",
    "C20_gerg_drift",
    "C20_detail_double_refuted",
    "C20_gerg_double_refuted",
    "C20_detail_double_refuted_witness",
    "C20_gerg_double_refuted_witness",
    "C20_detail_partial",
    "C20_detail_caches_partial",
    "C20_gerg_partial"
   ],
   "note": "REFUTED: a composition changed in steps of at most 1e-7 keeps the cached mixture terms of the first composition (exact arithmetic; also in double precision, where methane replaced by nitrogen in steps of 2^-24 still returns the pressure of methane bit for bit); GERG then returns the ideal-gas pressure for a newly introduced pure component. C20_detail_partial, C20_detail_caches_partial, C20_gerg_partial: after pressure, density or properties the cached terms belong to a composition asked for, at most 1e-7 per evaluation made away (GERG: reducing density and temperature)"
  },
  {
   "property": "C21",
   "status": "proved",
   "theorems": [
    "C21_gerg_refuted",
    "C21_gerg_fraction_refuted",
    "C21_gerg_stuck",
    "C21_gerg_fraction_stuck",
    "C21_detail_stuck",
    "C21_detail_fraction_stuck",
    "C21_detail_refuted",
    "C21_detail_partial",
    "C21_gerg_partial"
   ],
   "note": "REFUTED in binary64 with any libm that has the standard special cases of exp and ln: NaN is never told apart, so GERG pure methane keeps answering NaN and DETAIL keeps answering the ideal gas. C21_detail_partial/C21_gerg_partial: in any arithmetic and after any history, an evaluation at inputs told apart from the previous ones and from zero answers like a new object"
  },
  {
   "property": "C22",
   "status": "proved",
   "theorems": [
    "C22_detail",
    "C22_nonneg",
    "C22_standard"
   ],
   "note": "exact arithmetic, new object, some fraction above 1e-7, t > 1e-7; negative fractions count as 0"
  },
  {
   "property": "C23",
   "status": "proved",
   "theorems": [
    "C23_detail",
    "C23_detail_pressure"
   ],
   "note": "exact arithmetic, new object, t > 1e-7 (d2p_dd2: d > 1e-15)"
  },
  {
   "property": "C24",
   "status": "proved",
   "theorems": [
    "C24_detail"
   ],
   "note": "exact arithmetic, new object, t > 1e-7, d > 1e-15, positive fractions adding to 1"
  },
  {
   "property": "C25",
   "status": "proved",
   "theorems": [
    "C25_gerg",
    "C25_standard"
   ],
   "note": "exact arithmetic, new object, t > 1e-7, some fraction above 1e-6; fractions not above 1e-15 count as 0"
  },
  {
   "property": "C26",
   "status": "proved",
   "theorems": [
    "C26_gerg",
    "C26_gerg_pressure"
   ],
   "note": "exact arithmetic, new object, t > 1e-7, some fraction above 1e-7"
  },
  {
   "property": "C27",
   "status": "proved",
   "theorems": [
    "C27_gerg"
   ],
   "note": "exact arithmetic, new object, t > 1e-7, d > 1e-15, fractions above 1e-15 adding to 1"
  },
  {
   "property": "C28",
   "status": "proved",
   "theorems": [
    "C28_detail",
    "C28_gerg",
    "C28_gerg_pure"
   ],
   "note": "exact arithmetic"
  },
  {
   "property": "C29",
   "status": "proved",
   "theorems": [
    "C29_detail",
    "C29_detail_ideal",
    "C29_gerg",
    "C29_gerg_ideal"
   ],
   "note": "exact arithmetic, new object, t > 1e-7, some fraction above 1e-7 (DETAIL) or 1e-6 (GERG)"
  },
  {
   "property": "C30",
   "status": "proved",
   "theorems": [
    "C30_detail",
    "C30_gerg",
    "C30_detail_mass",
    "C30_gerg_mass"
   ],
   "note": "any arithmetic, new object, some common fraction visible to the 1e-7 comparison; molar mass part over the reals"
  },
  {
   "property": "C31",
   "status": "proved",
   "theorems": [
    "C31_detail",
    "C31_gerg"
   ],
   "note": "any arithmetic"
  },
  {
   "property": "C32",
   "status": "proved",
   "theorems": [
    "C32_detail",
    "C32_gerg",
    "C32_detail_double",
    "C32_gerg_double"
   ],
   "note": "any arithmetic with |x-x| <= 1e-7 or unordered; double precision is one"
  },
  {
   "property": "C33",
   "status": "proved",
   "theorems": [
    "C33_detail",
    "C33_gerg"
   ],
   "note": "double precision, any libm"
  },
  {
   "property": "C34",
   "status": "proved",
   "theorems": [
    "C34_refuted"
   ],
   "note": "the property as stated is false: iflag > 0 always gives IterationFail"
  },
  {
   "property": "C35",
   "status": "proved",
   "theorems": [
    "C35_isolation",
    "C35_legal",
    "C35_null"
   ],
   "note": "any arithmetic, any sequence of calls; correct allocator assumed"
  },
  {
   "property": "C36",
   "status": "proved",
   "theorems": [
    "C36_detail",
    "C36_gerg",
    "C36_roundtrip"
   ],
   "note": "any arithmetic, any sequence of calls"
  },
  {
   "property": "C37",
   "status": "proved",
   "theorems": [
    "C37_reducing",
    "C37_exponents"
   ],
   "note": "all 231 upper-triangle entries and all used exponents"
  },
  {
   "property": "C38",
   "status": "proved",
   "theorems": [
    "C38_gerg",
    "C38_gerg_double"
   ],
   "note": "any arithmetic where x < 0 implies x < 1e-15; double precision is one"
  },
  {
   "property": "C39",
   "status": "proved",
   "theorems": [
    "C39_detail",
    "C39_gerg",
    "C39_detail_negative"
   ],
   "note": "double precision, any libm with the standard special values of ln; any d; also t infinite and, for DETAIL, t negative with d > -1e-15"
  },
  {
   "property": "C40",
   "status": "proved",
   "theorems": [
    "C40_detail",
    "C40_gerg"
   ],
   "note": "any arithmetic"
  },
  {
   "property": "C41",
   "status": "proved",
   "theorems": [
    "C41_detail",
    "C41_gerg",
    "C41_detail_pressure",
    "C41_gerg_pressure"
   ],
   "note": "any arithmetic"
  },
  {
   "property": "C42",
   "status": "proved",
   "theorems": [
    "C42_detail",
    "C42_gerg"
   ],
   "note": "reals; entropy stated at the density 1e-15 the code uses for the logarithm at zero density"
  },
  {
   "property": "C43",
   "status": "proved",
   "theorems": [
    "C43_cv",
    "C43_enthalpy"
   ],
   "note": "reals; fractions either not positive or above 1e-15"
  },
  {
   "property": "C44",
   "status": "proved",
   "theorems": [
    "C44_detail",
    "C44_gerg",
    "C44_detail_table"
   ],
   "note": "reals"
  },
  {
   "property": "C45",
   "status": "proved",
   "theorems": [
    "C45_gerg",
    "C45_standard"
   ],
   "note": "reals"
  },
  {
   "property": "C46",
   "status": "proved",
   "theorems": [
    "C46_detail_cv",
    "C46_gerg_cv",
    "C46_detail_sound",
    "C46_gerg_sound"
   ],
   "note": "reals"
  },
  {
   "property": "C47",
   "status": "proved",
   "theorems": [
    "C47_detail",
    "C47_gerg"
   ],
   "note": "reals; negative (DETAIL) or below 1e-15 (GERG) fractions count as 0"
  },
  {
   "property": "C48",
   "status": "proved",
   "theorems": [
    "C48_detail",
    "C48_gerg"
   ],
   "note": "reals"
  },
  {
   "property": "C49",
   "status": "proved",
   "theorems": [
    "C49_detail"
   ],
   "note": "double precision, any libm accurate to 2^-50 on the ranges in SpecAcc (C49_libm: the correctly rounded one is)"
  },
  {
   "property": "C50",
   "status": "proved",
   "theorems": [
    "C50_detail",
    "C50_gerg",
    "C50_detail_low",
    "C50_gerg_low"
   ],
   "note": "reals; GERG: iflag <= 0 and not all fractions tiny"
  },
  {
   "property": "C51",
   "status": "proved",
   "theorems": [
    "C51_gerg"
   ],
   "note": "double precision, any libm accurate to 2^-50 on the ranges in SpecAcc"
  },
  {
   "property": "C52",
   "status": "proved",
   "theorems": [
    "C52_detail_refuted",
    "C52_gerg_refuted",
    "C52_detail_refuted_witness",
    "C52_gerg_refuted_witness",
    "C52_detail_double_refuted",
    "C52_gerg_double_refuted",
    "C52_detail_double_refuted_witness",
    "C52_gerg_double_refuted_witness",
    "C52_detail_spurious",
    "C52_gerg_spurious",
    "C52_detail_partial",
    "C52_gerg_partial"
   ],
   "note": "REFUTED, over the reals and in double precision with any accurate mathematical library: methane at 150 K asked for 5000 kPa, search started near 21.8 mol/l (DETAIL) or 22.1 mol/l (GERG), is answered Ok with a density at which pressure() is below 1 kPa. The _partial theorems give the pressure to 2 K 1e-7 in the logarithm when the logarithmic slope of the pressure is at most K within 1e-7 of the density found"
  },
  {
   "property": "C53",
   "status": "proved",
   "theorems": [
    "C53_detail"
   ],
   "note": "double precision, any libm accurate to 2^-50 on the ranges in SpecAcc"
  },
  {
   "property": "C54",
   "status": "proved",
   "theorems": [
    "C54_detail"
   ],
   "note": "double precision, any accurate libm; DETAIL (GERG: C59, C60)"
  },
  {
   "property": "C55",
   "status": "proved",
   "theorems": [
    "C55_detail",
    "C55_detail_low"
   ],
   "note": "double precision, any accurate libm; DETAIL (GERG: C59, C60)"
  },
  {
   "property": "C56",
   "status": "proved",
   "theorems": [
    "C56_gerg"
   ],
   "note": "double precision, any accurate libm; exact values are those of the run over the reals"
  },
  {
   "property": "C57",
   "status": "proved",
   "theorems": [
    "C57_detail",
    "C57_gerg"
   ],
   "note": "double precision, any accurate libm, any reachable state"
  },
  {
   "property": "C58",
   "status": "proved",
   "theorems": [
    "C58_detail"
   ],
   "note": "double precision, any accurate libm; exact values are those of the run over the reals"
  },
  {
   "property": "C59",
   "status": "proved",
   "theorems": [
    "C59_gerg"
   ],
   "note": "double precision, any accurate libm; exact values are those of the run over the reals"
  },
  {
   "property": "C60",
   "status": "proved",
   "theorems": [
    "C60_gerg",
    "C60_gerg_low"
   ],
   "note": "double precision, any accurate libm; iflag <= 0 (C12: never Ok otherwise)"
  },
  {
   "property": "C61",
   "status": "proved",
   "theorems": [
    "C61_detail"
   ],
   "note": "double precision, any accurate libm; fractions 0 or at least 2^-50"
  },
  {
   "property": "C62",
   "status": "proved",
   "theorems": [
    "C62_gerg"
   ],
   "note": "double precision, any accurate libm; fractions 0 or at least 2^-49; iflag <= 0 (C12: never Ok otherwise)"
  },
  {
   "property": "C63",
   "status": "proved",
   "theorems": [
    "C63_detail"
   ],
   "note": "double precision, any accurate libm; fractions 0 or at least 2^-50; natural gas as in SpecGas; thresholds in SpecGasState"
  },
  {
   "property": "C64",
   "status": "proved",
   "theorems": [
    "C64_gerg"
   ],
   "note": "double precision, any accurate libm; fractions 0 or at least 2^-49; iflag <= 0; natural gas as in SpecGas; thresholds in SpecGasState"
  },
  {
   "property": "C65",
   "status": "proved",
   "theorems": [
    "C65_normalize",
    "C65_rust_detail",
    "C65_rust_gerg",
    "C65_c_detail",
    "C65_c_gerg"
   ],
   "note": "double precision, any accurate libm; compositions as in SpecSession; in the C program with GERG-2008 the pressure read back is the one set"
  },
  {
   "property": "C66",
   "status": "proved",
   "theorems": [
    "C66_reuse_detail",
    "C66_reuse_gerg",
    "C66_log_detail",
    "C66_log_gerg"
   ],
   "note": "reuse for any arithmetic; lists of readings in double precision with any accurate libm, fractions and temperatures equal or more than 2e-7 apart"
  },
  {
   "property": "C67",
   "status": "proved",
   "theorems": [
    "C67_detail",
    "C67_gerg"
   ],
   "note": "double precision, any accurate libm; compositions as in SpecSession; iflag <= 0 for GERG-2008; order of the densities for differences of at least 1e-6"
  },
  {
   "property": "C68",
   "status": "proved",
   "theorems": [
    "C68_check",
    "C68_normalize",
    "C68_mass_detail",
    "C68_mass_gerg",
    "C68_density_detail",
    "C68_density_gerg",
    "C68_detail",
    "C68_gerg"
   ],
   "note": "double precision; cp, w, jt and kappa are quotients of the fields compared (C57)"
  },
  {
   "property": "C69",
   "status": "proved",
   "theorems": [
    "C69_detail_refuted",
    "C69_gerg_refuted",
    "C69_detail_partial",
    "C69_gerg_partial"
   ],
   "note": "REFUTED: an accepted composition is not normalized, the molar mass is off by the factor sum (up to 1 %); the _partial theorems give the exact size of the deviation"
  },
  {
   "property": "C70",
   "status": "proved",
   "theorems": [
    "C70_detail",
    "C70_gerg",
    "C70_agree"
   ],
   "note": "double precision, any accurate libm; compositions as in SpecSession; iflag <= 0 for GERG-2008"
  },
  {
   "property": "C71",
   "status": "proved",
   "theorems": [
    "C71_detail",
    "C71_platform",
    "C71_monotone"
   ],
   "note": "double precision, any accurate libm; DETAIL, new object; fractions 0 or at least 2^-50"
  },
  {
   "property": "C72",
   "status": "proved",
   "theorems": [
    "C72_gerg",
    "C72_platform",
    "C72_monotone"
   ],
   "note": "double precision, any accurate libm; GERG-2008, new object, iflag <= 0; fractions 0 or at least 2^-49"
  },
  {
   "property": "C73",
   "status": "proved",
   "theorems": [
    "C73_detail"
   ],
   "note": "double precision, any accurate libm; fractions 0 or at least 2^-50; natural gas as in SpecGas; thresholds in SpecMedState"
  },
  {
   "property": "C74",
   "status": "proved",
   "theorems": [
    "C74_gerg"
   ],
   "note": "double precision, any accurate libm; first guess from the ideal gas; fractions 0 or at least 2^-49; natural gas as in SpecGas; thresholds in SpecMedStateG"
  },
  {
   "property": "C75",
   "status": "proved",
   "theorems": [
    "C75_rust_detail",
    "C75_rust_gerg",
    "C75_c_detail",
    "C75_c_gerg",
    "C75_log_detail",
    "C75_log_gerg"
   ],
   "note": "double precision, any accurate libm; fractions 0 or at least 2^-49; readings pairwise equal or told apart by more than 2e-7 in composition and temperature"
  },
  {
   "property": "C76",
   "status": "proved",
   "theorems": [
    "C76_detail",
    "C76_gerg"
   ],
   "note": "double precision, any accurate libm; compositions as in SpecSession; order of the densities for differences of at least 1e-6; iflag <= 0 for GERG-2008"
  },
  {
   "property": "C77",
   "status": "proved",
   "theorems": [
    "C77_detail",
    "C77_gerg",
    "C77_same_detail",
    "C77_same_gerg"
   ],
   "note": "double precision, any accurate libm; compositions as in SpecSession; two new objects, or one object with composition and temperature set again; iflag <= 0 for GERG-2008"
  },
  {
   "property": "C78",
   "status": "proved",
   "theorems": [
    "C78_detail",
    "C78_gerg",
    "C78_platform_detail",
    "C78_platform_gerg"
   ],
   "note": "double precision, any accurate libm; compositions as in SpecSession; new objects"
  },
  {
   "property": "C79",
   "status": "proved",
   "theorems": [
    "C79_detail",
    "C79_gerg"
   ],
   "note": "double precision, any accurate libm; compositions as in SpecSession; allocation succeeds"
  },
  {
   "property": "C80",
   "status": "proved",
   "theorems": [
    "C80_ideal_detail",
    "C80_ideal_gerg",
    "C80_rise_detail",
    "C80_rise_gerg"
   ],
   "note": "double precision, any accurate libm; compositions as in SpecSession; new objects"
  },
  {
   "property": "C81",
   "status": "proved",
   "theorems": [
    "C81_detail",
    "C81_gerg"
   ],
   "note": "double precision, any accurate libm; gas_amounts of SpecSession; allocation succeeds"
  }
 ]
}
