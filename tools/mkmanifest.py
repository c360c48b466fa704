#!/usr/bin/env python3
"""Regenerate MANIFEST.json from the table below."""
import json, pathlib
C = []
def claim(p, status, theorems, note=""):
    C.append({"property": p, "status": status, "theorems": theorems, "note": note})

claim("C01", "proved", ["C01", "C01_unit_sum", "C01_default", "C01_double"], "exact arithmetic; in double precision (C01_double) up to 1e-14 around the limits")
claim("C02", "proved", ["C02_refuted", "C02_partial"], "REFUTED as stated (NaN and negative fractions are accepted), for every libm; C02_partial: true, up to 1e-14 in the limit, when no fraction is NaN or negative")
claim("C03", "proved", ["C03_refuted", "C03_partial"], "REFUTED as stated (cancelling or tiny fractions give Empty), for every libm; C03_partial: all zero gives Empty")
claim("C04", "proved", ["C04"], "exact arithmetic")
claim("C05", "proved", ["C05_idempotent", "C05_scale"], "exact arithmetic")
claim("C06", "proved", ["C06", "C06_outside_refuted"], "double precision; exact sum between 2^-1000 and 2^1000; outside the range the witness of the property's second sentence")
claim("C07", "proved", ["C07"], "double precision; factor 21 unit roundoffs")
claim("C08", "proved", ["C08_detail", "C08_gerg"], "any arithmetic")
claim("C09", "proved", ["C09_detail", "C09_gerg", "C09_detail_real", "C09_gerg_real", "C09_linear"], "value and frame for any arithmetic; bounds and linearity over the reals")
claim("C10", "proved", ["C10_detail", "C10_gerg"], "any arithmetic, any history")
claim("C11", "proved", ["C11_detail", "C11_gerg"], "any arithmetic")
claim("C12", "proved", ["C12_detail", "C12_gerg", "C12_gerg_any_flag"], "any arithmetic")
claim("C13", "proved", ["C13_detail_real", "C13_gerg_real", "C13_detail", "C13_gerg"], "any history; the _real theorems over the reals, the others for any arithmetic")
claim("C14", "proved", ["C14_detail", "C14_gerg"], "exact arithmetic; histories as in C18/C19; GERG: some fraction above 1e-7")
claim("C15", "proved", ["C15_detail", "C15_gerg"], "exact arithmetic; histories as in C18/C19; GERG: some fraction above 1e-7, iflag <= 0")
claim("C16", "proved", ["C16_detail", "C16_gerg"], "double precision, any libm with the standard special values of ln; also p = +inf")
claim("C17", "proved", ["C17_detail", "C17_gerg"], "any arithmetic")
claim("C18", "proved", ["C18_refuted", "C18_refuted_witness", "C18_drift", "C18_double_refuted", "C18_double_refuted_witness", "C18_double_drift", "C18_detail_partial"], "REFUTED: the caches are compared with the previous evaluation, so a temperature changed in steps of at most 1e-7 keeps the terms of the first temperature (in exact arithmetic, and in double precision with any elementary functions good to 2^-50, where methane warmed from 256 K to 512 K ends more than 25 % off). C18_detail_partial: holds in any arithmetic for histories whose inputs are pairwise equal or told apart by the 1e-7 comparison")
claim("C19", "proved", ["C19_refuted", "C19_refuted_witness", "C19_drift", "C19_double_refuted", "C19_double_refuted_witness", "C19_double_drift", "C19_gerg_partial"], "REFUTED in the same way, in exact arithmetic and in double precision; C19_gerg_partial as C18_detail_partial")
claim("C20", "proved", ["C20_detail_refuted", "C20_gerg_refuted", "C20_detail_refuted_witness", "C20_gerg_refuted_witness", "C20_detail_drift", "C20_gerg_drift", "C20_detail_double_refuted", "C20_gerg_double_refuted", "C20_detail_double_refuted_witness", "C20_gerg_double_refuted_witness", "C20_detail_partial", "C20_detail_caches_partial", "C20_gerg_partial"], "REFUTED: a composition changed in steps of at most 1e-7 keeps the cached mixture terms of the first composition (exact arithmetic; also in double precision, where methane replaced by nitrogen in steps of 2^-24 still returns the pressure of methane bit for bit); GERG then returns the ideal-gas pressure for a newly introduced pure component. C20_detail_partial, C20_detail_caches_partial, C20_gerg_partial: after pressure, density or properties the cached terms belong to a composition asked for, at most 1e-7 per evaluation made away (GERG: reducing density and temperature)")
claim("C21", "proved", ["C21_gerg_refuted", "C21_gerg_fraction_refuted", "C21_gerg_stuck", "C21_gerg_fraction_stuck", "C21_detail_stuck", "C21_detail_fraction_stuck", "C21_detail_refuted", "C21_detail_partial", "C21_gerg_partial"], "REFUTED in binary64 with any libm that has the standard special cases of exp and ln: NaN is never told apart, so GERG pure methane keeps answering NaN and DETAIL keeps answering the ideal gas. C21_detail_partial/C21_gerg_partial: in any arithmetic and after any history, an evaluation at inputs told apart from the previous ones and from zero answers like a new object")
claim("C22", "proved", ["C22_detail", "C22_nonneg", "C22_standard"], "exact arithmetic, new object, some fraction above 1e-7, t > 1e-7; negative fractions count as 0")
claim("C23", "proved", ["C23_detail", "C23_detail_pressure"], "exact arithmetic, new object, t > 1e-7 (d2p_dd2: d > 1e-15)")
claim("C24", "proved", ["C24_detail"], "exact arithmetic, new object, t > 1e-7, d > 1e-15, positive fractions adding to 1")
claim("C25", "proved", ["C25_gerg", "C25_standard"], "exact arithmetic, new object, t > 1e-7, some fraction above 1e-6; fractions not above 1e-15 count as 0")
claim("C26", "proved", ["C26_gerg", "C26_gerg_pressure"], "exact arithmetic, new object, t > 1e-7, some fraction above 1e-7")
claim("C27", "proved", ["C27_gerg"], "exact arithmetic, new object, t > 1e-7, d > 1e-15, fractions above 1e-15 adding to 1")
claim("C28", "proved", ["C28_detail", "C28_gerg", "C28_gerg_pure"], "exact arithmetic")
claim("C29", "proved", ["C29_detail", "C29_detail_ideal", "C29_gerg", "C29_gerg_ideal"], "exact arithmetic, new object, t > 1e-7, some fraction above 1e-7 (DETAIL) or 1e-6 (GERG)")
claim("C30", "proved", ["C30_detail", "C30_gerg", "C30_detail_mass", "C30_gerg_mass"], "any arithmetic, new object, some common fraction visible to the 1e-7 comparison; molar mass part over the reals")
claim("C31", "proved", ["C31_detail", "C31_gerg"], "any arithmetic")
claim("C32", "proved", ["C32_detail", "C32_gerg", "C32_detail_double", "C32_gerg_double"], "any arithmetic with |x-x| <= 1e-7 or unordered; double precision is one")
claim("C33", "proved", ["C33_detail", "C33_gerg"], "double precision, any libm")
claim("C34", "proved", ["C34_refuted"], "the property as stated is false: iflag > 0 always gives IterationFail")
claim("C35", "proved", ["C35_isolation", "C35_legal", "C35_null"], "any arithmetic, any sequence of calls; correct allocator assumed")
claim("C36", "proved", ["C36_detail", "C36_gerg", "C36_roundtrip"], "any arithmetic, any sequence of calls")
claim("C37", "proved", ["C37_reducing", "C37_exponents"], "all 231 upper-triangle entries and all used exponents")
claim("C38", "proved", ["C38_gerg", "C38_gerg_double"], "any arithmetic where x < 0 implies x < 1e-15; double precision is one")
claim("C39", "proved", ["C39_detail", "C39_gerg", "C39_detail_negative"], "double precision, any libm with the standard special values of ln; any d; also t infinite and, for DETAIL, t negative with d > -1e-15")
claim("C40", "proved", ["C40_detail", "C40_gerg"], "any arithmetic")
claim("C41", "proved", ["C41_detail", "C41_gerg", "C41_detail_pressure", "C41_gerg_pressure"], "any arithmetic")
claim("C42", "proved", ["C42_detail", "C42_gerg"], "reals; entropy stated at the density 1e-15 the code uses for the logarithm at zero density")
claim("C43", "proved", ["C43_cv", "C43_enthalpy"], "reals; fractions either not positive or above 1e-15")
claim("C44", "proved", ["C44_detail", "C44_gerg", "C44_detail_table"], "reals")
claim("C45", "proved", ["C45_gerg", "C45_standard"], "reals")
claim("C46", "proved", ["C46_detail_cv", "C46_gerg_cv", "C46_detail_sound", "C46_gerg_sound"], "reals")
claim("C47", "proved", ["C47_detail", "C47_gerg"], "reals; negative (DETAIL) or below 1e-15 (GERG) fractions count as 0")
claim("C48", "proved", ["C48_detail", "C48_gerg"], "reals")
claim("C49", "proved", ["C49_detail"], "double precision, any libm accurate to 2^-50 on the ranges in SpecAcc (C49_libm: the correctly rounded one is)")
claim("C50", "proved", ["C50_detail", "C50_gerg", "C50_detail_low", "C50_gerg_low"], "reals; GERG: iflag <= 0 and not all fractions tiny")
claim("C51", "proved", ["C51_gerg"], "double precision, any libm accurate to 2^-50 on the ranges in SpecAcc")
claim("C52", "proved", ["C52_detail_refuted", "C52_gerg_refuted", "C52_detail_refuted_witness", "C52_gerg_refuted_witness", "C52_detail_double_refuted", "C52_gerg_double_refuted", "C52_detail_double_refuted_witness", "C52_gerg_double_refuted_witness", "C52_detail_spurious", "C52_gerg_spurious", "C52_detail_partial", "C52_gerg_partial"], "REFUTED, over the reals and in double precision with any accurate mathematical library: methane at 150 K asked for 5000 kPa, search started near 21.8 mol/l (DETAIL) or 22.1 mol/l (GERG), is answered Ok with a density at which pressure() is below 1 kPa. The _partial theorems give the pressure to 2 K 1e-7 in the logarithm when the logarithmic slope of the pressure is at most K within 1e-7 of the density found")
claim("C53", "proved", ["C53_detail"], "double precision, any libm accurate to 2^-50 on the ranges in SpecAcc")
claim("C54", "proved", ["C54_detail"], "double precision, any accurate libm; DETAIL (GERG: C59, C60)")
claim("C55", "proved", ["C55_detail", "C55_detail_low"], "double precision, any accurate libm; DETAIL (GERG: C59, C60)")
claim("C56", "proved", ["C56_gerg"], "double precision, any accurate libm; exact values are those of the run over the reals")
claim("C57", "proved", ["C57_detail", "C57_gerg"], "double precision, any accurate libm, any reachable state")
claim("C58", "proved", ["C58_detail"], "double precision, any accurate libm; exact values are those of the run over the reals")
claim("C59", "proved", ["C59_gerg"], "double precision, any accurate libm; exact values are those of the run over the reals")
claim("C60", "proved", ["C60_gerg", "C60_gerg_low"], "double precision, any accurate libm; iflag <= 0 (C12: never Ok otherwise)")
claim("C61", "proved", ["C61_detail"], "double precision, any accurate libm; fractions 0 or at least 2^-50")
claim("C62", "proved", ["C62_gerg"], "double precision, any accurate libm; fractions 0 or at least 2^-49; iflag <= 0 (C12: never Ok otherwise)")
claim("C63", "proved", ["C63_detail"], "double precision, any accurate libm; fractions 0 or at least 2^-50; natural gas as in SpecGas; thresholds in SpecGasState")
claim("C64", "proved", ["C64_gerg"], "double precision, any accurate libm; fractions 0 or at least 2^-49; iflag <= 0; natural gas as in SpecGas; thresholds in SpecGasState")
claim("C65", "proved", ["C65_normalize", "C65_rust_detail", "C65_rust_gerg", "C65_c_detail", "C65_c_gerg"], "double precision, any accurate libm; compositions as in SpecSession; in the C program with GERG-2008 the pressure read back is the one set")
claim("C66", "proved", ["C66_reuse_detail", "C66_reuse_gerg", "C66_log_detail", "C66_log_gerg"], "reuse for any arithmetic; lists of readings in double precision with any accurate libm, fractions and temperatures equal or more than 2e-7 apart")
claim("C67", "proved", ["C67_detail", "C67_gerg"], "double precision, any accurate libm; compositions as in SpecSession; iflag <= 0 for GERG-2008; order of the densities for differences of at least 1e-6")
claim("C68", "proved", ["C68_check", "C68_normalize", "C68_mass_detail", "C68_mass_gerg", "C68_density_detail", "C68_density_gerg", "C68_detail", "C68_gerg"], "double precision; cp, w, jt and kappa are quotients of the fields compared (C57)")
claim("C69", "proved", ["C69_detail_refuted", "C69_gerg_refuted", "C69_detail_partial", "C69_gerg_partial"], "REFUTED: an accepted composition is not normalized, the molar mass is off by the factor sum (up to 1 %); the _partial theorems give the exact size of the deviation")
claim("C70", "proved", ["C70_detail", "C70_gerg", "C70_agree"], "double precision, any accurate libm; compositions as in SpecSession; iflag <= 0 for GERG-2008")
claim("C71", "proved", ["C71_detail", "C71_platform", "C71_monotone"], "double precision, any accurate libm; DETAIL, new object; fractions 0 or at least 2^-50")
claim("C72", "proved", ["C72_gerg", "C72_platform", "C72_monotone"], "double precision, any accurate libm; GERG-2008, new object, iflag <= 0; fractions 0 or at least 2^-49")
claim("C73", "proved", ["C73_detail"], "double precision, any accurate libm; fractions 0 or at least 2^-50; natural gas as in SpecGas; thresholds in SpecMedState")
claim("C74", "proved", ["C74_gerg"], "double precision, any accurate libm; first guess from the ideal gas; fractions 0 or at least 2^-49; natural gas as in SpecGas; thresholds in SpecMedStateG")
claim("C75", "proved", ["C75_rust_detail", "C75_rust_gerg", "C75_c_detail", "C75_c_gerg", "C75_log_detail", "C75_log_gerg"], "double precision, any accurate libm; fractions 0 or at least 2^-49; readings pairwise equal or told apart by more than 2e-7 in composition and temperature")
claim("C76", "proved", ["C76_detail", "C76_gerg"], "double precision, any accurate libm; compositions as in SpecSession; order of the densities for differences of at least 1e-6; iflag <= 0 for GERG-2008")
claim("C77", "proved", ["C77_detail", "C77_gerg", "C77_same_detail", "C77_same_gerg"], "double precision, any accurate libm; compositions as in SpecSession; two new objects, or one object with composition and temperature set again; iflag <= 0 for GERG-2008")
claim("C78", "proved", ["C78_detail", "C78_gerg", "C78_platform_detail", "C78_platform_gerg"], "double precision, any accurate libm; compositions as in SpecSession; new objects")
claim("C79", "proved", ["C79_detail", "C79_gerg"], "double precision, any accurate libm; compositions as in SpecSession; allocation succeeds")
claim("C80", "proved", ["C80_ideal_detail", "C80_ideal_gerg", "C80_rise_detail", "C80_rise_gerg"], "double precision, any accurate libm; compositions as in SpecSession; new objects")
claim("C81", "proved", ["C81_detail", "C81_gerg"], "double precision, any accurate libm; gas_amounts of SpecSession; allocation succeeds")

pathlib.Path(__file__).resolve().parent.parent.joinpath("MANIFEST.json").write_text(
    json.dumps({"claims": C}, indent=1) + "\n")
