{
 "claims": [
  {
   "property": "C01",
   "status": "proved",
   "theorems": [
    "C01_buffer_exact_after_any_history",
    "C01_history_with_counting"
   ],
   "note": "Histories of reserve, clear, primes, nprimes with limits up to 2^32-3."
  },
  {
   "property": "C02",
   "status": "proved",
   "theorems": [
    "C02_primes_exact",
    "C02_primes_function_exact",
    "C02_primes_overflow_above_range"
   ],
   "note": "Above 2^64-3 debug builds panic."
  },
  {
   "property": "C03",
   "status": "proved",
   "theorems": [
    "C03_contains_and_bound"
   ],
   "note": ""
  },
  {
   "property": "C04",
   "status": "proved",
   "theorems": [
    "C04_reserve_all_primes",
    "C04_reserve_doc_refuted"
   ],
   "note": "The documented claim is false (witness); the true statement is proved."
  },
  {
   "property": "C05",
   "status": "proved",
   "theorems": [
    "C05_nprimes_exact",
    "C05_nprimes_table",
    "C05_nprimes_debug_any_bound"
   ],
   "note": "The floating point upper bound is an explicit hypothesis beyond the table; C54 discharges it up to n = 6542."
  },
  {
   "property": "C06",
   "status": "proved",
   "theorems": [
    "C06_nth_prime",
    "C06_nth_prime_returns",
    "C06_nth_prime_table",
    "C06_nth_prime_0_panics"
   ],
   "note": "Nothing assumed for n up to 54 (1024 with big-table). Beyond: the floating point upper bound of nprimes is one (n <= 4096), the estimate is any number in 3..M, is_prime64 accepts no composite up to M. C54 discharges all of these up to n = 79667."
  },
  {
   "property": "C07",
   "status": "proved",
   "theorems": [
    "C07_prime_pi",
    "C07_prime_pi_returns",
    "C07_prime_pi_unconditional",
    "C07_u64_max_refuted"
   ],
   "note": "All limits below 2^64-1 under the assumptions of C06 on the floating point estimates and is_prime64; unconditional below 257^2 (8167^2 with big-table). For u64::MAX the claim is refuted in debug builds. C54 discharges the assumptions for limits below 1015810^2."
  },
  {
   "property": "C08",
   "status": "proved",
   "theorems": [
    "C08_prime_phi",
    "C08_prime_phi_unconditional",
    "C08_phi_0_panics",
    "C08_u64_max_refuted",
    "C08_cache_get",
    "C08_cache_get_absent",
    "C08_cache_put",
    "C08_cache_put_new"
   ],
   "note": "Unconditional for a up to 54 (1024), otherwise under the assumptions of C06; x = u64::MAX is refuted in debug builds."
  },
  {
   "property": "C09",
   "status": "proved",
   "theorems": [
    "C09_primorial",
    "C09_primorial_0",
    "C09_primorial_debug_sound"
   ],
   "note": ""
  },
  {
   "property": "C10",
   "status": "proved",
   "theorems": [
    "C10_is_prime64_accepts_primes",
    "C10_is_prime64_total"
   ],
   "note": "Both feature sets, both profiles, every u64."
  },
  {
   "property": "C11",
   "status": "partial",
   "theorems": [
    "C11_is_prime64_sound_partial",
    "C11_is_prime64_table_exact",
    "C11_is_prime64_exact_20bit",
    "C11_is_prime64_exact_32bit_small"
   ],
   "note": "Exact for every n below 2^20 with either table, and for every n below 2^32 with the small table, by computations inside Coq. Above that an accepted number is shown to be coprime to the wheel and a strong probable prime to every base used; that no composite passes those bases is the published computation and is not re-proved."
  },
  {
   "property": "C12",
   "status": "proved",
   "theorems": [
    "C12_is_prime_definite",
    "C12_even"
   ],
   "note": ""
  },
  {
   "property": "C13",
   "status": "proved",
   "theorems": [
    "C13_is_prime_never_rejects",
    "C13_no_random_trials",
    "C13_zero_witness_refuted"
   ],
   "note": "A zero witness drawn by the random generator is the exception, shown by the refuted theorem."
  },
  {
   "property": "C14",
   "status": "proved",
   "theorems": [
    "C14_is_prime_large"
   ],
   "note": ""
  },
  {
   "property": "C15",
   "status": "proved",
   "theorems": [
    "C15_probably",
    "C15_and",
    "C15_or",
    "C15_units",
    "C15_definite",
    "C15_comm_assoc",
    "C15_payload_and",
    "C15_payload_or",
    "C15_payload_and_le",
    "C15_payload_or_ge_refuted"
   ],
   "note": "The laws hold for any payload arithmetic; the range of the payload is proved over binary32. A disjunction may report less than one of its parts because of rounding (refuted theorem)."
  },
  {
   "property": "C16",
   "status": "proved",
   "theorems": [
    "C16_is_sprp_exact",
    "C16_is_sprp_even",
    "C16_prime_passes_every_base",
    "C16_zero_rejected",
    "C16_one_panics_debug"
   ],
   "note": "For every unsigned type and profile."
  },
  {
   "property": "C17",
   "status": "proved",
   "theorems": [
    "C17_test_sprp_factor",
    "C17_test_sprp_verdict"
   ],
   "note": "For every unsigned type and profile, odd and even n."
  },
  {
   "property": "C18",
   "status": "proved",
   "theorems": [
    "C18_is_prp_exact",
    "C18_prime_passes_every_base"
   ],
   "note": "For every unsigned type and profile."
  },
  {
   "property": "C19",
   "status": "proved",
   "theorems": [
    "C19_lucasm_exact",
    "C19_unfit_P_panics"
   ],
   "note": "Generic trait implementation at every unsigned type."
  },
  {
   "property": "C20",
   "status": "proved",
   "theorems": [
    "C20_selfridge",
    "C20_bruteforce"
   ],
   "note": ""
  },
  {
   "property": "C21",
   "status": "proved",
   "theorems": [
    "C21_lprp_accepts_primes",
    "C21_slprp_accepts_primes",
    "C21_eslprp_accepts_primes",
    "C21_never_rejects_a_prime",
    "C21_lprp_explicit_primes",
    "C21_eslprp_explicit_primes",
    "C21_two_refuted"
   ],
   "note": "2 is the exception (refuted by a concrete theorem). The totality forms need n < 2^120 (2^60 for the extra strong test); the never-rejects form has no size bound."
  },
  {
   "property": "C22",
   "status": "proved",
   "theorems": [
    "C22_lprp_exact",
    "C22_slprp_exact",
    "C22_eslprp_exact",
    "C22_lprp_auto",
    "C22_slprp_auto",
    "C22_eslprp_auto",
    "C22_slprp_common_factor_refuted",
    "C22_lprp_max_value_refuted"
   ],
   "note": "Exceptions shown by the refuted theorems: gcd(D,n) > 1 for the strong test and n = 2^w - 1."
  },
  {
   "property": "C23",
   "status": "proved",
   "theorems": [
    "C23_prp_agrees",
    "C23_test_sprp_agrees",
    "C23_lucas_agrees",
    "C23_lucas_explicit_agrees",
    "C23_pollard_rho_agrees",
    "C23_is_prime_agrees",
    "C23_is_prime_agrees_default",
    "C23_eslprp_refuted"
   ],
   "note": "The extra strong Lucas test is the exception: it panics on wrapped values (refuted theorem)."
  },
  {
   "property": "C24",
   "status": "proved",
   "theorems": [
    "C24_trial_division",
    "C24_multiplicity",
    "C24_unfit_limit_panics"
   ],
   "note": ""
  },
  {
   "property": "C25",
   "status": "proved",
   "theorems": [
    "C25_pollard_rho"
   ],
   "note": ""
  },
  {
   "property": "C26",
   "status": "proved",
   "theorems": [
    "C26_one_line",
    "C26_overflow_refuted",
    "C26_not_multiple_panics"
   ],
   "note": "Debug builds panic when the multiplied target reaches (2^(w/2)-1)^2; release builds stay exact."
  },
  {
   "property": "C27",
   "status": "proved",
   "theorems": [
    "C27_squfof",
    "C27_squfof_any_fuel",
    "C27_walk",
    "C27_square",
    "C27_square_refuted"
   ],
   "note": "Every non-square multiple that fits the type; squfof returns for every budget, the backward walk takes at most 2*mul_target steps. A square mul_target is refuted."
  },
  {
   "property": "C28",
   "status": "proved",
   "theorems": [
    "C28_factorize64",
    "C28_unique",
    "C28_release_never_panics",
    "C28_returns",
    "C28_returns_even",
    "C28_debug_overflow_refuted",
    "C28_zero_refuted",
    "C28_small"
   ],
   "note": "Every u64, every list of draws. The exceptions (debug overflow in one_line, target 0) are refuted by concrete theorems."
  },
  {
   "property": "C29",
   "status": "proved",
   "theorems": [
    "C29_factorize128",
    "C29_release_never_panics",
    "C29_small",
    "C29_returns",
    "C29_never_wrong"
   ],
   "note": ""
  },
  {
   "property": "C30",
   "status": "proved",
   "theorems": [
    "C30_factors",
    "C30_keys",
    "C30_config_ignored",
    "C30_config_refuted"
   ],
   "note": "Every buffer of primes, every configuration, all draws, machine and big integers."
  },
  {
   "property": "C31",
   "status": "proved",
   "theorems": [
    "C31_factorize",
    "C31_returns"
   ],
   "note": ""
  },
  {
   "property": "C32",
   "status": "proved",
   "theorems": [
    "C32_divisor",
    "C32_trial_loop",
    "C32_trial_division_refuted"
   ],
   "note": "The documented trial division is refuted: it never finds a factor."
  },
  {
   "property": "C33",
   "status": "proved",
   "theorems": [
    "C33_moebius",
    "C33_moebius_any_size",
    "C33_moebius_table"
   ],
   "note": "Relative to the factorization being a prime factorization, as the property says; unconditional for the table and multiples of 4."
  },
  {
   "property": "C34",
   "status": "proved",
   "theorems": [
    "C34_moebius_factorized",
    "C34_is_square_free",
    "C34_false_is_right",
    "C34_is_square_free_table"
   ],
   "note": ""
  },
  {
   "property": "C35",
   "status": "proved",
   "theorems": [
    "C35_is_safe_prime64",
    "C35_is_safe_prime",
    "C35_never_rejects"
   ],
   "note": ""
  },
  {
   "property": "C36",
   "status": "proved",
   "theorems": [
    "C36_next_prime",
    "C36_next_prime64",
    "C36_least",
    "C36_returns",
    "C36_big_some",
    "C36_table_gap_refuted"
   ],
   "note": "Panics at 252..=255 without the big-table feature (refuted theorem)."
  },
  {
   "property": "C37",
   "status": "proved",
   "theorems": [
    "C37_prev_prime",
    "C37_none",
    "C37_prev_prime64",
    "C37_greatest"
   ],
   "note": ""
  },
  {
   "property": "C38",
   "status": "proved",
   "theorems": [
    "C38_gen_prime",
    "C38_one_draw",
    "C38_gen_prime_u128",
    "C38_gen_prime_big",
    "C38_too_wide",
    "C38_zero_bits_panics",
    "C38_bit_limit_refuted",
    "C38_zero_bits_refuted",
    "C38_small_table_refuted"
   ],
   "note": "The documented bit limit is refuted by concrete draws."
  },
  {
   "property": "C39",
   "status": "proved",
   "theorems": [
    "C39_gen_prime_exact",
    "C39_full_width",
    "C39_gen_prime_exact_u128",
    "C39_gen_prime_exact_big",
    "C39_exact_bits_refuted"
   ],
   "note": "The documented exact size is refuted below the full width."
  },
  {
   "property": "C40",
   "status": "proved",
   "theorems": [
    "C40_gen_safe_prime",
    "C40_gen_safe_prime_exact",
    "C40_gen_safe_prime_u128",
    "C40_gen_safe_prime_big",
    "C40_exact_size_wide",
    "C40_bit_limit_refuted",
    "C40_exact_diverges_refuted"
   ],
   "note": ""
  },
  {
   "property": "C41",
   "status": "proved",
   "theorems": [
    "C41_sqrt_exact_machine",
    "C41_sqrt_exact_negative",
    "C41_sqrt_exact_zero_refuted"
   ],
   "note": "0 is the exception: refuted by a concrete theorem."
  },
  {
   "property": "C42",
   "status": "proved",
   "theorems": [
    "C42_sqrt_exact_biguint",
    "C42_cbrt_exact_biguint",
    "C42_sqrt_exact_bigint",
    "C42_cbrt_exact_bigint"
   ],
   "note": ""
  },
  {
   "property": "C43",
   "status": "proved",
   "theorems": [
    "C43_nth_root_exact_nonneg",
    "C43_nth_root_exact_odd_degree",
    "C43_nth_root_exact_invalid",
    "C43_is_square_is_cubic"
   ],
   "note": ""
  },
  {
   "property": "C44",
   "status": "proved",
   "theorems": [
    "C44_bits",
    "C44_bit_machine",
    "C44_bit_big",
    "C44_bit_out_of_range",
    "C44_trailing_zeros",
    "C44_trailing_zeros_0"
   ],
   "note": ""
  },
  {
   "property": "C45",
   "status": "proved",
   "theorems": [
    "C45_prime_pi_bounds_table",
    "C45_nth_prime_bounds_table",
    "C45_nth_prime_bounds_0",
    "C45_prime_pi_est_table",
    "C45_none_refuted"
   ],
   "note": "Table range, every integer type. The documented None for results that do not fit is refuted in the table range (it panics)."
  },
  {
   "property": "C46",
   "status": "proved",
   "theorems": [
    "C46_nth_prime_est_in_bracket",
    "C46_nth_prime_est_table",
    "C46_none",
    "C46_estimates_from_brackets"
   ],
   "note": "Brackets lo <= hi with 2*hi in the type."
  },
  {
   "property": "C47",
   "status": "proved",
   "theorems": [
    "C47_preinv64",
    "C47_preinv128",
    "C47_table_length"
   ],
   "note": ""
  },
  {
   "property": "C48",
   "status": "proved",
   "theorems": [
    "C48_hash_in_table",
    "C48_wheel_exact",
    "C48_prime_table"
   ],
   "note": ""
  },
  {
   "property": "C49",
   "status": "proved",
   "theorems": [
    "C49_bpsw",
    "C49_bpsw_accepts_primes",
    "C49_default_and_strict"
   ],
   "note": ""
  },
  {
   "property": "C50",
   "status": "proved",
   "theorems": [
    "C50_nth_prime_bounds_bracket",
    "C50_nth_prime_bounds_any_type"
   ],
   "note": "ln_ok: relative error of ln at most 2^-50 from 1 on; met by the correctly rounded logarithm (ideal_ln_ok)."
  },
  {
   "property": "C51",
   "status": "proved",
   "theorems": [
    "C51_prime_pi_bounds_bracket"
   ],
   "note": "Same requirement on ln."
  },
  {
   "property": "C52",
   "status": "proved",
   "theorems": [
    "C52_nth_prime_bounds_rounding",
    "C52_prime_pi_bounds_rounding",
    "C52_prime_pi_bounds_total",
    "C52_nth_prime_bounds_from_formula",
    "C52_prime_pi_bounds_from_formula"
   ],
   "note": "Same requirement on ln. That the published real inequalities hold beyond the range of C50 and C51 is a hypothesis of the last two."
  },
  {
   "property": "C53",
   "status": "proved",
   "theorems": [
    "C53_prime_pi_bounds_huge_panics",
    "C53_nth_prime_bounds_huge_none"
   ],
   "note": "ln(+inf) = +inf is assumed."
  },
  {
   "property": "C54",
   "status": "proved",
   "theorems": [
    "C54_estimates_ok",
    "C54_nth_prime",
    "C54_prime_pi",
    "C54_prime_phi",
    "C54_nprimes",
    "C54_primorial",
    "C54_history_nprimes",
    "C54_table_literals"
   ],
   "note": "Requirements on ln and exp only (relative error 2^-50)."
  },
  {
   "property": "C55",
   "status": "proved",
   "theorems": [
    "C55_trials_value",
    "C55_is_prime_probability",
    "C55_preset_values",
    "C55_any_trials_refuted"
   ],
   "note": "powi is modelled by the compiler-rt routine (Rust leaves its rounding unspecified). Trial counts of 2^31 and more are refuted."
  },
  {
   "property": "C56",
   "status": "proved",
   "theorems": [
    "C56_ring_ops",
    "C56_plain_ops",
    "C56_modular_ops",
    "C56_core_ops",
    "C56_even_modulus_panics",
    "C56_eq",
    "C56_order",
    "C56_queries",
    "C56_residue_panics",
    "C56_roots_and_powers",
    "C56_other_modulus",
    "C56_unsupported"
   ],
   "note": "num_modular's Montgomery reduction enters by contract: residues are exact, the modulus must be odd."
  },
  {
   "property": "C57",
   "status": "proved",
   "theorems": [
    "C57_divisors",
    "C57_divisors_small",
    "C57_sigma",
    "C57_sigma_small",
    "C57_zero_refuted"
   ],
   "note": "Prime keys are a hypothesis above 2^20 (see C11)."
  },
  {
   "property": "C58",
   "status": "proved",
   "theorems": [
    "C58_omega",
    "C58_omega_small",
    "C58_zero_refuted"
   ],
   "note": "Prime keys are a hypothesis above 2^20 (see C11)."
  },
  {
   "property": "C59",
   "status": "proved",
   "theorems": [
    "C59_lucky_numbers",
    "C59_limit_6_7_refuted",
    "C59_lucky_primes",
    "C59_primes_6_7_refuted"
   ],
   "note": "The limits 6 and 7 are refuted."
  },
  {
   "property": "C60",
   "status": "proved",
   "theorems": [
    "C60_mersenne",
    "C60_returns",
    "C60_zero_draw_refuted"
   ],
   "note": "Primality of 2^61-1 to 2^127-1 by Pocklington certificates."
  },
  {
   "property": "C61",
   "status": "proved",
   "theorems": [
    "C61_is_prime",
    "C61_is_safe_prime",
    "C61_next_prime_u8_u16",
    "C61_next_prime",
    "C61_prev_prime",
    "C61_factorize",
    "C61_moebius",
    "C61_gen_prime_u8_u16",
    "C61_gen_safe_prime_u8_u16"
   ],
   "note": "Rests on the exactness of is_prime64 below 2^20 (C11_is_prime64_exact_20bit)."
  },
  {
   "property": "C62",
   "status": "proved",
   "theorems": [
    "C62_riemann_R_exists",
    "C62_prime_pi_est_riemann",
    "C62_prime_pi_est_below",
    "C62_top_refuted"
   ],
   "note": "Axioms: the reals of the standard library, classical logic, primitive integers. Up to 8161 the estimate is exact (C45)."
  },
  {
   "property": "C63",
   "status": "proved",
   "theorems": [
    "C63_crossing",
    "C63_nth_prime_est_returns",
    "C63_nth_prime_est_small",
    "C63_overflow_refuted",
    "C63_nth_prime_overflow_refuted"
   ],
   "note": "Between the range of C63_nth_prime_est_small and that of C63_overflow_refuted, C63_nth_prime_est_returns applies case by case."
  },
  {
   "property": "C64",
   "status": "proved",
   "theorems": [
    "C64_sprp_error",
    "C64_sprp_error_sharp",
    "C64_sprp_prime",
    "C64_prp_error_refuted",
    "C64_random_trials",
    "C64_certain_composite_refuted"
   ],
   "note": "The Rabin-Monier theorem, proved from scratch. The witnesses of is_prime are 64-bit numbers, so the bound on its random trials is empty from 2^66 on."
  },
  {
   "property": "C65",
   "status": "proved",
   "theorems": [
    "C65_prime_default",
    "C65_prime_bpsw",
    "C65_composite",
    "C65_factorize"
   ],
   "note": "The cofactor is proved prime by Pocklington's criterion. Random witnesses are 64-bit; a draw of 0 makes the default test reject a prime (C13_zero_witness_refuted)."
  },
  {
   "property": "C66",
   "status": "proved",
   "theorems": [
    "C66_is_prime64_test",
    "C66_is_safe_prime_test",
    "C66_moebius_test",
    "C66_prev_next_test",
    "C66_pollard_rho_fixed",
    "C66_squfof_test",
    "C66_one_line_test",
    "C66_factorize64_test",
    "C66_factorize64_returns",
    "C66_powers_test",
    "C66_factorize128_test",
    "C66_prime_generation_test",
    "C66_is_prime_small",
    "C66_is_prime_bpsw",
    "C66_is_prime_default",
    "C66_large_composites",
    "C66_pb_factors_test",
    "C66_exact_root_small",
    "C66_prp_test",
    "C66_sprp_test",
    "C66_prime_pi_test",
    "C66_nth_prime_test",
    "C66_prime_pi_bounds_test",
    "C66_nth_prime_bounds_test",
    "C66_large_primes_default",
    "C66_large_primes_bpsw"
   ],
   "note": "The bignum primes of is_prime_test are outside the statement: their primality is not proved here, and C13 accepts them if they are primes."
  },
  {
   "property": "C67",
   "status": "proved",
   "theorems": [
    "C67_pollard_rho_mint",
    "C67_random_composites_refuted",
    "C67_random_primes_refuted",
    "C67_random_composites",
    "C67_random_factorization_refuted",
    "C67_is_prime_random",
    "C67_root_agreement",
    "C67_root_agreement_refuted",
    "C67_perfect_powers",
    "C67_non_perfect_refuted",
    "C67_root_agreement_big",
    "C67_root_agreement_bigint",
    "C67_lucas_listed",
    "C67_lucas_listed_refuted",
    "C67_lucas_naive",
    "C67_lucas_naive_refuted",
    "C67_rand_prime",
    "C67_bit_limit_refuted",
    "C67_bit_limit",
    "C67_rand_safe_prime"
   ],
   "note": "Claims of the tests that some draw breaks are proved false with that draw; beside each stands the theorem for the remaining draws."
  },
  {
   "property": "C68",
   "status": "proved",
   "theorems": [
    "C68_lucas_pseudoprimes",
    "C68_lucas_limits",
    "C68_lucas_known"
   ],
   "note": "Every odd number is decided by evaluating the model; primality of the accepted ones by C11."
  },
  {
   "property": "C69",
   "status": "proved",
   "theorems": [
    "C69_sprp_is_prp",
    "C69_slprp_is_lprp",
    "C69_eslprp_is_slprp",
    "C69_slprp_is_lprp_auto",
    "C69_converse_refuted"
   ],
   "note": "From the exact characterizations C16, C18 and C22."
  },
  {
   "property": "C70",
   "status": "proved",
   "theorems": [
    "C70_rho",
    "C70_round",
    "C70_factorize64",
    "C70_factorize128",
    "C70_factorize",
    "C70_moebius",
    "C70_is_square_free"
   ],
   "note": "Existence of draws only; nothing is claimed about their probability. For factorize128 the fuel of the Lucas parameter search must be at least 6 + sqrt(n) and at most 2^61."
  },
  {
   "property": "C71",
   "status": "proved",
   "theorems": [
    "C71_share",
    "C71_count",
    "C71_share_small",
    "C71_two_three",
    "C71_uniform_refuted"
   ],
   "note": "For primes above 2^20 the numbers between q and p are assumed to be rejected by is_prime64 (C11); below 2^20 this is proved."
  },
  {
   "property": "C72",
   "status": "proved",
   "theorems": [
    "C72_none",
    "C72_ends",
    "C72_finds",
    "C72_bound",
    "C72_missed_refuted",
    "C72_more_iterations"
   ],
   "note": "Stated for machine and big integers; C23 carries every run over to the Montgomery form used by factorize64 and factorize128."
  },
  {
   "property": "C73",
   "status": "proved",
   "theorems": [
    "C73_first",
    "C73_finds",
    "C73_factorize64",
    "C73_factorize128",
    "C73_factorize",
    "C73_every_small",
    "C73_more_passes"
   ],
   "note": "Completeness of the one line method by Dirichlet's approximation theorem. The bounds 2^37 and 2^32 are where the products of the one line method stay inside 64 bits for debug builds; C28_debug_overflow_refuted shows that some bound is needed. That the keys are prime is C11 for is_prime64."
  },
  {
   "property": "C74",
   "status": "proved",
   "theorems": [
    "C74_bertrand",
    "C74_next_prime",
    "C74_next_prime64",
    "C74_next_prime_quiet",
    "C74_prev_prime",
    "C74_prev_prime_quiet",
    "C74_gen_prime",
    "C74_gen_prime_u128",
    "C74_gen_prime_big",
    "C74_one_draw",
    "C74_lower_half",
    "C74_exact_possible"
   ],
   "note": "Bertrand's postulate is proved from scratch in NTBertrand.v (Erdős' proof). The generic prime tests that draw witnesses may redraw for ever, so totality beyond 2^63 is stated for configurations without random witnesses and without the extra strong Lucas test."
  },
  {
   "property": "C75",
   "status": "proved",
   "theorems": [
    "C75_bases_2_7_61",
    "C75_is_prime",
    "C75_is_safe_prime",
    "C75_next_prime_u32",
    "C75_prev_prime",
    "C75_factorize_sound",
    "C75_factorize",
    "C75_moebius",
    "C75_gen_prime",
    "C75_gen_safe_prime",
    "C75_share",
    "C75_divisors"
   ],
   "note": "The exhaustive search over all composites below 2^32 (Jaeschke's result for 2, 7, 61) is carried out inside Coq on primitive integers and proved to be exhaustive (PPsp.v - PPsp4.v). With big-table a single base chosen by a hash is used below 2^32; there the bound stays 2^20 (C11, C61)."
  },
  {
   "property": "C76",
   "status": "proved",
   "theorems": [
    "C76_estimates_ok",
    "C76_nth_prime",
    "C76_prime_pi",
    "C76_prime_phi",
    "C76_history"
   ],
   "note": "Rests on C75 (is_prime64 exact below 2^32) and on the count of the primes up to 4294000000, computed inside Coq by Legendre's formula (PPiVals.v)."
  },
  {
   "property": "C77",
   "status": "proved",
   "theorems": [
    "C77_squfof",
    "C77_more_passes",
    "C77_any_type"
   ],
   "note": "The specification (SpecCF.v) is the textbook recursion of the continued fraction; the perfect squares are C27_square."
  },
  {
   "property": "C78",
   "status": "proved",
   "theorems": [
    "C78_value",
    "C78_prime_pi_bounds_refuted",
    "C78_before"
   ],
   "note": "The claim is refuted with one witness; C51 proves it up to 12000000."
  },
  {
   "property": "C79",
   "status": "proved",
   "theorems": [
    "C79_prime_pi_est_between",
    "C79_top_refuted"
   ],
   "note": "Proved for every x below 2^64; the second theorem shows that it fails from 2^127 to 2^128 with the big table."
  },
  {
   "property": "C80",
   "status": "proved",
   "theorems": [
    "C80_pass_limit",
    "C80_debug_search_ends",
    "C80_release_forever",
    "C80_debug_factorize64_ends",
    "C80_debug_factorize128_ends",
    "C80_debug_factorize"
   ],
   "note": "Whether any target and draws exhaust the 189 passes is not decided; C73 shows that cofactors below 2^37 (2^32 with the small table) do not. \"Runs forever\" is: no number of passes suffices."
  },
  {
   "property": "C81",
   "status": "proved",
   "theorems": [
    "C81_last_primes",
    "C81_next_prime_none",
    "C81_prev_prime_last",
    "C81_next_prime128",
    "C81_prev_prime128",
    "C81_next_prime128_none"
   ],
   "note": "For u128 the theorems are about every answer given; that one is given depends on enough draws, except without random bases (C81_next_prime128_none)."
  },
  {
   "property": "C82",
   "status": "proved",
   "theorems": [
    "C82_returns",
    "C82_debug_refuted",
    "C82_row",
    "C82_keep_best",
    "C82_time_one_line_refuted",
    "C82_squfof_best",
    "C82_one_line_best",
    "C82_rho_best",
    "C82_pair",
    "C82_bits_refuted",
    "C82_distinct",
    "C82_file",
    "C82_profile_n",
    "C82_profile_n_values"
   ],
   "note": "The printing itself and the column with the logarithm are not modelled. Refuted parts: the time of one_line, the printed bit size, debug builds for the largest numbers."
  }
 ]
}