{
 "claims": [
  {
   "property": "C01",
   "status": "proved",
   "theorems": [
    "C01_decode_encode",
    "C01_params_accepted",
    "C01_encode_accepts_exactly",
    "C01_decode_rounds",
    "C01_test_polynomial_range_refuted"
   ],
   "note": "decode/encode for every admissible parameter triple, cleartext and error; finding: the test-polynomial bound is off by one (C01_test_polynomial_range_refuted)"
  },
  {
   "property": "C02",
   "status": "proved",
   "theorems": [
    "C02_decrypt_encrypt",
    "C02_message_survives",
    "C02_noiseless_embedding"
   ],
   "note": ""
  },
  {
   "property": "C03",
   "status": "proved",
   "theorems": [
    "C03_linear",
    "C03_noise_growth"
   ],
   "note": ""
  },
  {
   "property": "C04",
   "status": "proved",
   "theorems": [
    "C04_switch_modulus",
    "C04_bound_is_tight"
   ],
   "note": "for binary keys, sharp"
  },
  {
   "property": "C05",
   "status": "proved",
   "theorems": [
    "C05_key_switch"
   ],
   "note": "base length divides 32; digits bounded by the base"
  },
  {
   "property": "C06",
   "status": "proved",
   "theorems": [
    "C06_decompose"
   ],
   "note": ""
  },
  {
   "property": "C07",
   "status": "partial",
   "theorems": [
    "C07_signed_decomposition_partial",
    "C07_digit_range_refuted",
    "C07_half_unit_refuted",
    "C07_indivisible_base_refuted"
   ],
   "note": "the stated digit range, half-unit truncation error and arbitrary base lengths are false of the code (three _refuted theorems); the true digit range, error bound and recomposition are proved"
  },
  {
   "property": "C08",
   "status": "proved",
   "theorems": [
    "C08_poly_mul",
    "C08_poly_dot",
    "C08_vecmat_integer_path",
    "C08_vecmat_all_paths",
    "C08_bat",
    "C08_bat_row_count_refuted",
    "C08_bfloat16_digit_refuted",
    "C08_i32_matmul"
   ],
   "note": "integer paths for all sizes; bfloat16 kernel for digits it represents exactly (C08_bfloat16_digit_refuted beyond); BAT for its 18-row grid (C08_bat_row_count_refuted otherwise)"
  },
  {
   "property": "C09",
   "status": "proved",
   "theorems": [
    "C09_mulX_order",
    "C09_monomial_mul",
    "C09_monomial_compose",
    "C09_monomial_inverse",
    "C09_scale_by_x_power_n_minus_1",
    "C09_x_power_n_minus_1"
   ],
   "note": ""
  },
  {
   "property": "C10",
   "status": "proved",
   "theorems": [
    "C10_decrypt_encrypt",
    "C10_message_survives",
    "C10_trivial_encryption"
   ],
   "note": "exact; every platform"
  },
  {
   "property": "C11",
   "status": "proved",
   "theorems": [
    "C11_cmux_rejects",
    "C11_cmux_wide_modulus_refuted",
    "C11_external_product_object",
    "C11_cmux_bat",
    "C11_external_product",
    "C11_external_product_bat",
    "C11_cmux",
    "C11_rgsw_decrypt"
   ],
   "note": "RGSW of any integer m, plain and BAT layouts, kernel inside its exact range (C08); cmux in both layouts; external_product of ciphertext objects; rgsw.decrypt; cmux refuses operands of different modulus (up to 2^32) or degree (C11_cmux_rejects); above 2^32 every modulus reads as 0 and none is refused (C11_cmux_wide_modulus_refuted)"
  },
  {
   "property": "C12",
   "status": "proved",
   "theorems": [
    "C12_blind_rotate",
    "C12_odd_dimension_rejected"
   ],
   "note": "BMMP, plain and BAT key layouts; 2N divides 2^32; kernel inside its exact range"
  },
  {
   "property": "C13",
   "status": "proved",
   "theorems": [
    "C13_sample_extract",
    "C13_cmux_extract"
   ],
   "note": "the extracted ciphertext under the flattened key; selection followed by extraction (C13_cmux_extract)"
  },
  {
   "property": "C14",
   "status": "proved",
   "theorems": [
    "C14_test_polynomial",
    "C14_wrong_length_rejected",
    "C14_identity_test_polynomial"
   ],
   "note": "N a multiple of the table length; the identity table in particular (C14_identity_test_polynomial)"
  },
  {
   "property": "C15",
   "status": "proved",
   "theorems": [
    "C15_bootstrap_block",
    "C15_bootstrap",
    "C15_two_padding_bits_refuted"
   ],
   "note": "one padding bit; with two padding bits the claim is false (C15_two_padding_bits_refuted)"
  },
  {
   "property": "C16",
   "status": "proved",
   "theorems": [
    "C16_encrypt",
    "C16_decrypt",
    "C16_gate2",
    "C16_named_gates",
    "C16_lut2",
    "C16_lut3",
    "C16_cmux",
    "C16_constant",
    "C16_not",
    "C16_lut1",
    "C16_server_keys_exist"
   ],
   "note": "all gates, all parameters satisfying key_setup, on every platform with an exact kernel; restated for each public gate function (C16_named_gates)"
  },
  {
   "property": "C17",
   "status": "proved",
   "theorems": [
    "C17_circuit",
    "C17_test_parameters"
   ],
   "note": "straight-line programs of any length and fan-out; test parameters with noises up to 10"
  },
  {
   "property": "C18",
   "status": "proved",
   "theorems": [
    "C18_cleartext_list",
    "C18_from_callable",
    "C18_from_callable_range",
    "C18_lut_by_name",
    "C18_cmux_table",
    "C18_cmux_by_name_refuted",
    "C18_padding",
    "C18_test_polynomial",
    "C18_printed_table",
    "C18_printed_callable",
    "C18_printed_no_inputs_refuted"
   ],
   "note": "finding: the table obtained by the name \"cmux\" claims two inputs (C18_cmux_by_name_refuted); the printed form lists every assignment with its value (C18_printed_table, C18_printed_callable), except that a table without inputs prints a digit for an input that does not exist (C18_printed_no_inputs_refuted)"
  },
  {
   "property": "C19",
   "status": "proved",
   "theorems": [
    "C19_cache_transparent",
    "C19_answers"
   ],
   "note": "for every history of requests on several caches, including evictions"
  },
  {
   "property": "C20",
   "status": "partial",
   "theorems": [
    "C20_uint_roundtrip",
    "C20_bits_roundtrip",
    "C20_u8",
    "C20_u8_bits",
    "C20_u8_list",
    "C20_bytes_roundtrip_partial",
    "C20_bytes_roundtrip_refuted",
    "C20_bytes_actual",
    "C20_bytes_tail_refuted",
    "C20_uint_range_refuted",
    "C20_str_roundtrip",
    "C20_str_rejects",
    "C20_bytes_length"
   ],
   "note": "uint, u8, u8-list and ASCII string round trips proved; bytes round trip proved for 7-bit data only and refuted otherwise (C20_bytes_roundtrip_refuted, exact behaviour in C20_bytes_actual); lengths not divisible by 8 and out-of-range integers are accepted (refuted)"
  },
  {
   "property": "C21",
   "status": "partial",
   "theorems": [
    "C21_batch_vmap",
    "C21_batch_vmap_rejects",
    "C21_batch_size_irrelevant",
    "C21_pmap_lut3",
    "C21_pmap_lut2",
    "C21_in_order",
    "C21_server_keys",
    "C21_more_inputs_than_devices_refuted"
   ],
   "note": "batch_vmap proved for every batch size; pmap_lut2/3 proved up to one input per device, more inputs than devices are an error (refuted)"
  },
  {
   "property": "C22",
   "status": "partial",
   "theorems": [
    "C22_all_ciphertexts_refuted",
    "C22_gate_partial"
   ],
   "note": "the full statement is false (C22_all_ciphertexts_refuted); C22_gate_partial gives the result whenever the switched phase stays in its slot"
  },
  {
   "property": "C23",
   "status": "partial",
   "theorems": [
    "C23_reduction_refuted",
    "C23_reduction_correct_moduli",
    "C23_reduction_partial"
   ],
   "note": "the full statement is false (C23_reduction_refuted: NTT prime 2^29+2^15+1, z = m^2-1); the moduli for which it holds are characterised exactly (C23_reduction_correct_moduli), which covers every m <= 2^27 (C23_reduction_partial)"
  },
  {
   "property": "C24",
   "status": "proved",
   "theorems": [
    "C24_add_barrett",
    "C24_add_subtract",
    "C24_add_simple",
    "C24_documented_contract_refuted"
   ],
   "note": "all residues; finding: the documented input range of add_modular_barrett is too wide (C24_documented_contract_refuted)"
  },
  {
   "property": "C25",
   "status": "proved",
   "theorems": [
    "C25_tables_reverse_bits",
    "C25_tables_equal",
    "C25_array_reverses",
    "C25_array_involutive",
    "C25_array_permutation",
    "C25_table_involutive"
   ],
   "note": "sizes up to 2^32 for the uint32 table (a table of more entries cannot be indexed by uint32)"
  },
  {
   "property": "C26",
   "status": "proved",
   "theorems": [
    "C26_constructor_total",
    "C26_constructor_rejects",
    "C26_forward_evaluates",
    "C26_backward_forward",
    "C26_forward_backward",
    "C26_roundtrip",
    "C26_product",
    "C26_degree_one_refuted"
   ],
   "note": "every prime q = 1 mod 2n and n = 2^L >= 2; finding: n = 1 passes the argument checks and then fails (C26_degree_one_refuted)"
  },
  {
   "property": "C27",
   "status": "proved",
   "theorems": [
    "C27_forward_evaluates",
    "C27_inverse_forward",
    "C27_forward_inverse",
    "C27_poly_roundtrip",
    "C27_product",
    "C27_same_root_refuted"
   ],
   "note": "sizes up to 2^32 and primes up to 64 bits (the dtype of the result); finding: the reference and the CPU NTT may use different roots, so outputs agree only up to the choice of root (C27_same_root_refuted)"
  },
  {
   "property": "C28",
   "status": "partial",
   "theorems": [
    "C28_agrees_partial",
    "C28_inverse_partial",
    "C28_slice",
    "C28_unsupported_rejected",
    "C28_small_moduli_refuted"
   ],
   "note": "Forward and inverse transforms equal the CPU transforms and are mutually inverse for every power-of-two layout up to 2^14 x 2^14 and every NTT prime below 2^31 on which the Barrett kernel is exact and which is at least 1020*max(R,C). Smaller moduli are refuted (97 with a 4x4 layout); moduli with a wrong Barrett constant are not covered."
  },
  {
   "property": "C29",
   "status": "proved",
   "theorems": [
    "C29_matmul",
    "C29_matmul_reduced",
    "C29_larger_inner_dimension_refuted"
   ],
   "note": "Byte-decomposed (BAT) matrix product: exact sum before the final reduction is congruent to the true inner product for every inner dimension K with 4*K*255^2 < 2^32, and the reduced result equals the true residue when 1020K <= m < 2^31. For larger inner dimensions the 32-bit accumulator overflows (refuted witness)."
  },
  {
   "property": "C30",
   "status": "proved",
   "theorems": [
    "C30_reconstruct",
    "C30_roundtrip",
    "C30_centred_lift",
    "C30_common_factor_rejected",
    "C30_q_hat_mod_p",
    "C30_q_hat_inv",
    "C30_is_power_of_two"
   ],
   "note": "any list of pairwise coprime positive moduli; centred lift for every |x| < Q/2"
  },
  {
   "property": "C31",
   "status": "proved",
   "theorems": [
    "C31_generate",
    "C31_to_ntt",
    "C31_to_coeffs",
    "C31_add",
    "C31_sub",
    "C31_neg",
    "C31_mul",
    "C31_incompatible_rejected",
    "C31_mul_needs_ntt",
    "C31_faithful",
    "C31_array_roundtrip",
    "C31_array_default_flag_refuted"
   ],
   "note": "operations on RNS polynomials, exact modulo the product of the moduli; mismatches rejected; conversion to an array and back (C31_array_roundtrip), which loses the form flag: with the default flag an NTT-form polynomial comes back as another one (C31_array_default_flag_refuted)"
  },
  {
   "property": "C32",
   "status": "proved",
   "theorems": [
    "C32_decrypt_encrypt",
    "C32_noise_bound",
    "C32_decrypt_lift",
    "C32_prefix_required"
   ],
   "note": "every key, message, level and randomness; NTT primes up to 2^32"
  },
  {
   "property": "C33",
   "status": "partial",
   "theorems": [
    "C33_add",
    "C33_plain_mul_barrett_partial",
    "C33_small_moduli_exact",
    "C33_plain_mul_barrett_refuted",
    "C33_plain_mul_simple_wide",
    "C33_plain_mul_simple_refuted",
    "C33_rejections"
   ],
   "note": "Addition is proved for every modulus below 2^31 and all kernels. Plaintext multiplication is proved for moduli on which the Barrett kernel is exact (including every modulus below 2^27) and for the 64-bit Simple kernel; refuted for prime 2^29+2^15+1 (Barrett) and for uint32 inputs (Simple)."
  },
  {
   "property": "C34",
   "status": "partial",
   "theorems": [
    "C34_basis_change_partial",
    "C34_refuted",
    "C34_rejections"
   ],
   "note": "Proved for source moduli on which the Barrett kernel is exact and targets of at least 1020 times the number of source moduli; refuted for the 30-bit primes 536903681 and 536924161."
  },
  {
   "property": "C35",
   "status": "partial",
   "theorems": [
    "C35_every_component",
    "C35_rescale_partial",
    "C35_decrypts_partial",
    "C35_rejections",
    "C35_unbalanced_refuted"
   ],
   "note": "Proved for every chain of NTT primes the accelerator kernels handle in which no later prime exceeds twice an earlier one plus one, any number of dropped primes and components, plus the effect on decryption. Refuted without the ratio condition (2053, 12289): the centred residue is cast to uint64 when negative. Moduli with a wrong Barrett constant are not covered."
  },
  {
   "property": "C36",
   "status": "partial",
   "theorems": [
    "C36_key_switch_partial",
    "C36_switch_partial",
    "C36_conjugate_partial",
    "C36_constants_exist",
    "C36_empty_digit_rejected",
    "C36_multiply_partial"
   ],
   "note": "Key generation, key switching, division by P, conjugation, and tensor product with relinearisation, for all ciphertexts, keys and randomness (key switching for digit counts without an empty digit; relinearisation for every positive digit count); primes must satisfy switch_setting / mul_setting (exact Barrett constants, NTT-friendly, at least 1020 times the digit size) and secrets have coefficients in [0, q_0) as the generators produce. Finding: a digit count that leaves an empty digit has no key switcher."
  },
  {
   "property": "C37",
   "status": "proved",
   "theorems": [
    "C37_automorphism",
    "C37_conjugation",
    "C37_reversal_is_automorphism",
    "C37_monomial",
    "C37_out_of_range_rejected",
    "C37_even_refuted"
   ],
   "note": "Automorphism X -> X^g and conjugation on evaluation-form ciphertext limbs, every odd g and every ring degree; even g is not rejected (recorded finding)."
  },
  {
   "property": "C38",
   "status": "partial",
   "theorems": [
    "C38_extend",
    "C38_extend_prefix_required",
    "C38_ternary_range",
    "C38_sparse",
    "C38_both_signs_refuted",
    "C38_extend_negative_refuted"
   ],
   "note": "Extension and sampling ranges are proved. The claims that both signs occur and that negative coefficients extend correctly are refuted."
  },
  {
   "property": "C39",
   "status": "proved",
   "theorems": [
    "C39_default_flag_refuted",
    "C39_fft_special_evaluates",
    "C39_forward_inverse",
    "C39_inverse_forward",
    "C39_real_layout",
    "C39_other_lengths_rejected",
    "C39_encode_decode",
    "C39_too_many_slots_refuted"
   ],
   "note": "Over exact complex numbers (pairs of reals): the forward transform evaluates at the points e^(2 pi i 5^j / 4n), both compositions are the identity for every power of two length, other lengths are rejected, and decoding an encoded vector is within 2^L*sqrt(1/2)/scale of the vector, for every degree, moduli and scale with room for the scaled values. Binary64 rounding is not modelled. Refuted: more than degree/2 slots are accepted and decode to other values. Also refuted: the round trip needs is_slot_form=True; with the default, False, decode returns other values."
  },
  {
   "property": "C40",
   "status": "proved",
   "theorems": [
    "C40_prime_factors",
    "C40_generator",
    "C40_root_of_unity",
    "C40_rejects",
    "C40_order_one_refuted",
    "C40_reference_root",
    "C40_generator_all",
    "C40_twiddle",
    "C40_twiddle_inv"
   ],
   "note": "m >= 2; finding: m = 1 is rejected although 1 has order 1 (C40_order_one_refuted)"
  },
  {
   "property": "C41",
   "status": "proved",
   "theorems": [
    "C41_control_indices",
    "C41_restore",
    "C41_keys_match",
    "C41_switch_plans",
    "C41_rejections"
   ],
   "note": "For every number of ciphertext moduli, auxiliary moduli and digit number: the control index lists partition the moduli (each part and its complement are a rearrangement of all the indices), the restore order puts every column back in place, and key generation, the key switcher and the basis-conversion plans use the same parts. Inputs the code rejects are shown to be rejected."
  },
  {
   "property": "C42",
   "status": "partial",
   "theorems": [
    "C42_hmuxrot_partial",
    "C42_blind_rotation_partial",
    "C42_large_p_rejected",
    "C42_cm_mismatch_rejected",
    "C42_cm_moduli_rejected",
    "C42_default_rescales_refuted",
    "C42_two_digits_refuted",
    "C42_cm_keys",
    "C42_column_method_partial",
    "C42_column_partial",
    "C42_column_selects_partial",
    "C42_lift_partial"
   ],
   "note": "One selection step and the whole composition over any list of key bits, for all ciphertexts, strides, keys and randomness, with an explicit error bound; a digit count of one, P below 2^64, one rescaling per auxiliary prime, primes as in C36, secrets in [0, q_0). The column method: for any keys and plaintexts the result is the weighted sum divided by P up to the rounding bound, and from key generation through gen_cm_keys, brot_cm and decryption it is scale/P times the selected plaintext with an explicit error. Mismatch rejections. Findings: keys for bit 1 cannot be generated when P >= 2^64; the default of one rescaling leaves auxiliary moduli on the ciphertext when there are several. with two digits the selection step, whose key has a single part, reuses that part for the second digit and is wrong (C42_two_digits_refuted). gen_cm_keys reads only the number of its indices. Lifting a ciphertext to the auxiliary moduli gives, component by component, the evaluation form over all moduli of a polynomial with the same coefficients modulo Q, plus fewer multiples of Q than there are moduli (C42_lift_partial)."
  },
  {
   "property": "C43",
   "status": "proved",
   "theorems": [
    "C43_point_batch_round_trip",
    "C43_point_round_trip",
    "C43_rns_point_batch_round_trip",
    "C43_point_batch_rejects",
    "C43_point_base_refuted",
    "C43_chunk_round_trip",
    "C43_unsized_round_trip",
    "C43_large_rejected",
    "C43_array_round_trip",
    "C43_batch_round_trip",
    "C43_negative_becomes_zero",
    "C43_negative_rejected_refuted",
    "C43_rns_reconstruct",
    "C43_rns_round_trip",
    "C43_rns_large_rejected",
    "C43_moduli",
    "C43_field_element_rns"
   ],
   "note": "All integers, bases from 1 up to the dtype width, sizes; pairwise coprime moduli of any number; the module's own 50 moduli are shown coprime with product above 2^791. Batches of points, in chunks and in residues, round-trip through the packed layout with the coordinate axis first; ragged and empty batches raise. Finding: negative integers are not rejected, they become zero. Finding: unpacking a single point always assumes base 16."
  },
  {
   "property": "C44",
   "status": "partial",
   "theorems": [
    "C44_add_2u16",
    "C44_add_3u16",
    "C44_sub_2u16_partial",
    "C44_sub_2u16_refuted",
    "C44_add_overflow_refuted",
    "C44_compare_u16",
    "C44_compare_wide_rejected",
    "C44_cond_sub_mod_u16",
    "C44_cond_sub_2u16",
    "C44_carry_loop_terminates",
    "C44_while_loop_faithful",
    "C44_carry_add_partial",
    "C44_carry_add_overflow_refuted"
   ],
   "note": "Addition of two or three numbers, subtraction, comparison, conditional subtraction and the carry loop, for every number of chunks from 2 and every batch; the loops are shown to stop. Missing: subtraction when the top chunk of the difference is 0xFFFF, which the code gets wrong (C44_sub_2u16_refuted); findings: overflow of an addition wraps round into the lowest chunk; comparison of numbers of 32 chunks or more is rejected; the carry propagation with a fixed number of rounds is right when the value fits (C44_carry_add_partial, one row) and wraps an overflow into chunk 0 otherwise (C44_carry_add_overflow_refuted)."
  },
  {
   "property": "C45",
   "status": "proved",
   "theorems": [
    "C45_mul_2u16",
    "C45_mul_2u16_bytes",
    "C45_mul_shift_2u16x2x1",
    "C45_constants",
    "C45_barrett_reduction",
    "C45_mod_mul_barrett",
    "C45_field_elements",
    "C45_large_inputs_refuted"
   ],
   "note": "Products of any chunk count up to 64 are exact; Barrett reduction gives the canonical residue for every value below 2^760, hence for every pair of canonical field elements, with every intermediate word in range. Finding: non-canonical 384-bit operands whose product reaches 2^760 are accepted and reduced wrongly."
  },
  {
   "property": "C46",
   "status": "proved",
   "theorems": [
    "C46_construct_lazy_matrix",
    "C46_mod_mul_lazy",
    "C46_mod_mul_lazy_377",
    "C46_chain"
   ],
   "note": "For every modulus up to 2^384 (matrix built by construct_lazy_matrix) and every pair of 25-chunk inputs; chains of any length."
  },
  {
   "property": "C47",
   "status": "proved",
   "theorems": [
    "C47_word_reduction",
    "C47_mod_red",
    "C47_mod_mul",
    "C47_mod_mul_377"
   ],
   "note": "Residue-vector modular multiplication for the module's 50 moduli: the result is congruent to the product modulo any q up to the product of the moduli, and for the 377-bit prime inputs below 468000 p give a result below 51000 p."
  },
  {
   "property": "C48",
   "status": "partial",
   "theorems": [
    "C48_add_sub_rns_var",
    "C48_add_rns",
    "C48_negate_partial",
    "C48_sub_partial",
    "C48_zero_check_partial",
    "C48_zero_check_zero",
    "C48_product_rows",
    "C48_sub_product",
    "C48_sub_zero_refuted",
    "C48_zero_check_word_refuted",
    "C48_zero_check_product_refuted",
    "C48_many_negated_refuted"
   ],
   "note": "Sums of operands with total weight at most 256 are exact (C48_add_sub_rns_var). Subtraction is proved when no word of the subtrahend is zero, which holds for every product not congruent to zero (C48_sub_product). Missing: it is false otherwise. The plain negation turns zero into -65536 (C48_sub_zero_refuted); the zero-check variant is wrong whenever the word of the modulus 2^16 is zero, which happens for products of non-zero values (C48_zero_check_product_refuted); 255 negated operands overflow (C48_many_negated_refuted)."
  },
  {
   "property": "C49",
   "status": "partial",
   "theorems": [
    "C49_reduced_copy",
    "C49_reduced_copy_zero_refuted",
    "C49_field",
    "C49_field_eq",
    "C49_field_pow",
    "C49_field_pow_negative",
    "C49_field_errors",
    "C49_division_by_zero",
    "C49_copy",
    "C49_copy_zero_refuted",
    "C49_barrett_partial",
    "C49_barrett_product",
    "C49_barrett_add_refuted",
    "C49_montgomery_partial",
    "C49_montgomery_add_refuted",
    "C49_montgomery_pow_refuted",
    "C49_montgomery_form",
    "C49_default_k_partial",
    "C49_default_k_exact",
    "C49_default_k_refuted"
   ],
   "note": "Proved for every prime and every expression built from canonical residues with +, -, *, / : FiniteFieldElement returns exactly the canonical residue (errors, powers with negative exponents and equality included); the Barrett and Montgomery classes return a representative in [0, p] of the right residue and leaving Montgomery form gives the canonical residue. Missing because false of the code (witnesses proved): Barrett/Montgomery addition of a and p-a stores p instead of 0 and compares unequal to 0; copy(0) returns the old value; dividing by zero silently gives 0; Montgomery ** returns neither the power nor its Montgomery form. With k omitted the classes take the binary64 logarithm of the prime: for every prime not within a factor 1 + 2^-40 above a power of two this is the exact one, rounded up, and the results above hold; false otherwise (witness proved): the prime 2^110 + 45050585342630109 gets k = 110, so R < p, and a Montgomery square stores a value above p. The floating-point logarithm is modelled by bounds on its result (Ec/Model_reflog.v), not bit by bit. copy of the Barrett and Montgomery classes: the value, its reduction or its Montgomery form (C49_reduced_copy), except copy(0)."
  },
  {
   "property": "C50",
   "status": "partial",
   "theorems": [
    "C50_law_on_curve",
    "C50_law_commutative",
    "C50_add_general",
    "C50_double_general",
    "C50_point_add_partial",
    "C50_same_x_refuted",
    "C50_double_torsion_refuted",
    "C50_law_functional",
    "C50_lshift",
    "C50_generate",
    "C50_convert_to_affine"
   ],
   "note": "Proved over every prime field and all representatives: add_general returns the chord sum whenever the x-coordinates differ, double_general the tangent double whenever y is non-zero, point_add dispatches to the right formula, shifts are repeated doublings, conversion recovers the affine point; the chord and tangent law itself stays on the curve and is commutative. Missing because false of the code (witnesses proved): add_general of two different representatives of points with equal x, and the double of a point of order two, return a point with ZZ = 0 that is not flagged as zero."
  },
  {
   "property": "C51",
   "status": "partial",
   "theorems": [
    "C51_mixed_addition",
    "C51_complete_addition",
    "C51_double",
    "C51_point_add_partial",
    "C51_convert_to_affine",
    "C51_lshift",
    "C51_mixed_same_x_refuted",
    "C51_complete_refuted",
    "C51_affine_refuted",
    "C51_affine_generate_refuted"
   ],
   "note": "Proved over every prime field: mixed addition (z2 = 1, different x), the complete addition wherever its result has z non-zero, doubling, dispatch, shifts and conversion agree with the chord and tangent law. Missing because false of the code (witnesses proved): the mixed addition of points with equal x and the complete formulas for opposite points give z = 0, and the affine class never returns a sum."
  },
  {
   "property": "C52",
   "status": "partial",
   "theorems": [
    "C52_law_on_curve",
    "C52_law_commutative",
    "C52_law_functional",
    "C52_law_identity",
    "C52_law_opposite",
    "C52_law_associative",
    "C52_law_complete",
    "C52_point_add",
    "C52_double",
    "C52_zero",
    "C52_generate",
    "C52_to_edwards_affine",
    "C52_incomplete_refuted",
    "C52_zero_convert_refuted",
    "C52_twisted_on_curve",
    "C52_twist",
    "C52_untwist",
    "C52_untwist_twist",
    "C52_twist_homomorphism",
    "C52_convert_to_affine",
    "C52_generate_twisted",
    "C52_addition_through_the_twist",
    "C52_int_coordinates",
    "C52_exceptional_points_refuted",
    "C52_identity_convert_refuted",
    "C52_twist_projective_partial",
    "C52_twist_projective_refuted"
   ],
   "note": "Proved over every prime field: the Edwards law stays on the curve, is commutative, associative where defined, has (0, 1) as identity and inverses, and is complete when -1 is a square and d is not; extended addition and doubling implement it and keep t = xy/z; twist maps the Weierstrass curve to the Edwards curve, is a homomorphism for chord and tangent, untwist inverts it on both sides, and twisting, adding and converting back gives the chord or tangent sum. Missing because false of the code (witnesses proved): when d is a square every point with non-zero coordinates has a partner whose sum is returned with z = 0; points with y = 0 or s(x - alpha) = -1 are handed out as the identity; a flagged identity cannot be converted back and an unflagged one becomes (alpha, 0); twist_projective is wrong when z is not 1."
  },
  {
   "property": "C53",
   "status": "partial",
   "theorems": [
    "C53_padd_barrett_xyzz",
    "C53_pdul_barrett_xyzz",
    "C53_padd_lazy_xyzz",
    "C53_pdul_lazy_xyzz",
    "C53_padd_lazy_twisted",
    "C53_pdul_lazy_twisted",
    "C53_pneg_lazy_twisted",
    "C53_edwards_addition",
    "C53_edwards_doubling",
    "C53_edwards_negation",
    "C53_xyzz_addition",
    "C53_xyzz_doubling",
    "C53_padd_rns_twisted_partial",
    "C53_pdul_rns_twisted_partial",
    "C53_pdul_rns_xyzz_partial",
    "C53_padd_rns_xyzz_partial",
    "C53_pdul_rns_twisted_refuted",
    "C53_padd_rns_twisted_refuted"
   ],
   "note": "Barrett and lazy (XYZZ and twisted Edwards) addition, doubling and negation: every lane of every batch equals the reference class's formula on the residues, nothing raises, and the coordinate ranges are closed, so the operations can be chained without limit; they implement the group laws (the modulus is proved prime). Residue-number-system versions (the _rns_ theorems): ranges closed and lanes equal to the reference formula, for twisted addition when the zero check applies to its three products, for doublings when the negated coordinates are non-zero integers, for XYZZ addition up to one multiple of the product of the moduli in y. Missing because false of the code: doubling the exact identity gives x = 65536*65537 (C53_pdul_rns_twisted_refuted); adding two given curve points, exact affine inputs, returns a t coordinate that is not x*y/z because the zero check zeroes one residue of a non-zero product (C53_padd_rns_twisted_refuted)."
  },
  {
   "property": "C54",
   "status": "partial",
   "theorems": [
    "C54_end_to_end",
    "C54_signed_end_to_end",
    "C54_odd_order",
    "C54_xyzz_onehot",
    "C54_xyzz_onehot_run",
    "C54_twisted",
    "C54_twisted_any",
    "C54_reuse_refuted",
    "C54_xyzz_partial",
    "C54_xyzz_zero_window_refuted",
    "C54_xyzz_repeated_point_refuted",
    "C54_signed_run",
    "C54_signed",
    "C54_signed_rejects"
   ],
   "note": "Proved for every abelian group and every point type whose operations implement it: the twisted and the signed twisted bucket method return a point standing for s_1 P_1 + ... + s_n P_n, for all scalar and point lists, slice lengths 1..32 (signed: 2..32 and scalars of the BLS12-377 scalar field) and parallel widths dividing the list. End to end on BLS12-377 (C54_end_to_end, C54_signed_end_to_end): for every group of points of y^2 = x^3 + 1 without an element of order two, twisting integer coordinates, packing, running the bucket method with the lazy 16-bit-chunk operations, unpacking and converting returns the affine coordinates of the sum ((-1, 0) for the neutral element). XYZZ method: proved whenever no invalid addition is met (guarded run); missing because false of the code (witnesses proved): a window that is zero in every scalar, or a repeated point with the same scalar, gives a point with ZZ = 0. Also refuted: a second run on the same object returns the sum of both problems. The accumulation with a one-hot selection fills the same buckets as the indexed one, for any point operations (C54_xyzz_onehot)."
  },
  {
   "property": "C55",
   "status": "partial",
   "theorems": [
    "C55_digits",
    "C55_accepted_iff",
    "C55_scalar_field",
    "C55_half_range_refuted",
    "C55_one_bit_refuted"
   ],
   "note": "Proved for all scalars and slice lengths: the digits of an accepted scalar are in range and their signed weighted sum is the scalar modulo the window range; exactly which scalars are accepted; with slices of two bits or more every scalar of the BLS12-377 scalar field is accepted. Missing because false: scalars below half the range are not all accepted (2^253 - 1 with two-bit slices is rejected; one-bit slices reject every non-zero scalar)."
  },
  {
   "property": "C56",
   "status": "partial",
   "theorems": [
    "C56_outer_product",
    "C56_conv",
    "C56_outer_product_exact",
    "C56_bat_matrix",
    "C56_bat_product",
    "C56_bat_without_x64_refuted",
    "C56_outer_product_mod_refuted",
    "C56_bat_jax_refuted"
   ],
   "note": "Outer-product and convolution forms: the product modulo 2^64 (x64 on, inner dimension up to 66051 and 16512) or modulo 2^32 (x64 off, any dimension). BAT: the compilation ends within three rounds for every word and every modulus up to 2^32, column j of the byte matrix represents x*2^(8j), and compile-multiply-reduce is the product modulo q for inner dimensions up to 8256. Missing because false of the code: with x64 off the BAT product is wrong; two full-precision products overflow the outer-product form; the jax variant of the compilation counts a projection twice."
  },
  {
   "property": "C57",
   "status": "proved",
   "theorems": [
    "C57_unsigned_stream",
    "C57_signed_stream",
    "C57_negative_dimension",
    "C57_history",
    "C57_secret_keys_binary",
    "C57_cycle_digits",
    "C57_cycle_history",
    "C57_cycle_noise",
    "C57_cycle_keys",
    "C57_uniform",
    "C57_noise",
    "C57_constant",
    "C57_constant_rejects",
    "C57_any_dtype_refuted"
   ],
   "note": "Python's generators are arbitrary state machines. Signed dtypes raise when a value does not fit (C57_any_dtype_refuted)."
  },
  {
   "property": "C58",
   "status": "proved",
   "theorems": [
    "C58_encrypt_decode",
    "C58_add",
    "C58_plain_mul",
    "C58_multiply",
    "C58_rescale",
    "C58_conjugate",
    "C58_rotate_plain",
    "C58_product"
   ],
   "note": "Real-number statements over the exact-arithmetic encoder of C39; the end-to-end theorem is C58_product. Binary64 rounding is not modelled; rotation of ciphertexts has no public entry point besides conjugation, so rotation is stated for encoded plaintexts."
  },
  {
   "property": "C59",
   "status": "proved",
   "theorems": [
    "C59_lazy_reduce",
    "C59_chain",
    "C59_rejects",
    "C59_wider_refuted"
   ],
   "note": "Congruence for moduli up to 66000 bytes, size bound and chaining up to 252 bytes. The input limit of t+2 bytes is sharp: one byte more is silently truncated (C59_wider_refuted)."
  },
  {
   "property": "C60",
   "status": "partial",
   "theorems": [
    "C60_gadget_inverse_partial",
    "C60_bad_parameters_rejected",
    "C60_fewer_levels_refuted"
   ],
   "note": "Proved when base^levels = 2^total (float32 scaling and rounding are exact there; the final float dot product is stated over exact numbers). Finding: with fewer levels the digits are read from the wrong end and the result is not approximate but wrong. Not covered: negative entries, whose conversion to uint32 the array library leaves undefined."
  },
  {
   "property": "C61",
   "status": "proved",
   "theorems": [
    "C61_word_reduction",
    "C61_find_moduli",
    "C61_reference_product",
    "C61_script",
    "C61_imported_refuted",
    "C61_wide_offset_refuted"
   ],
   "note": "The floating-point ceiling in the constants is proved exact for every basis, so the estimate is never off. Two findings: imported as a module the function always raises, because moduli_precision is assigned only under __main__ (C61_imported_refuted); for targets that need more than 58 moduli find_moduli returns offsets above 255, for which the three folds lose a carry (C61_wide_offset_refuted)."
  },
  {
   "property": "C62",
   "status": "proved",
   "theorems": [
    "C62_session",
    "C62_session_test",
    "C62_sources",
    "C62_draws",
    "C62_odd_dimension"
   ],
   "note": "Sources are arbitrary state machines over one joint state, so shared and separate objects are both covered; the hypothesis on Python's generators is that randint(0, 1) is 0 or 1 and the rounded normal stays within the bound. Parameters: as in C17, an even LWE dimension and the noise bounds fitting seven times into the window; the 128-bit parameters do not (C22). C62_draws fixes the trace of the draws: every array once, in order, shape and role, so no randomness is used twice."
  },
  {
   "property": "C63",
   "status": "proved",
   "theorems": [
    "C63_session",
    "C63_sources",
    "C63_noiseless",
    "C63_weight_error",
    "C63_draws"
   ],
   "note": "Sources are arbitrary state machines. The hypotheses on Python's generators are the documented ranges of choice, randrange and sample and a bound B on the rounded normal values. What the library calls ternary draws from {0, 1}; the bound holds for it."
  },
  {
   "property": "C64",
   "status": "partial",
   "theorems": [
    "C64_expressions_partial",
    "C64_comparisons",
    "C64_int_left_refuted",
    "C64_ceil_log2_refuted",
    "C64_constructors_partial",
    "C64_object_prime_refuted"
   ],
   "note": "Proved for expressions in which ints stand only to the right of an operator, for comparisons on either side, and for field elements built from an int prime or with k given as an int. The full claim is false: an int to the left of an object raises for every operator (C64_int_left_refuted), ceil_log2 raises for every value because its mpfr result is rejected by the constructor (C64_ceil_log2_refuted), so Barrett and Montgomery elements cannot be built from an object prime with the default k (C64_object_prime_refuted)."
  },
  {
   "property": "C65",
   "status": "partial",
   "theorems": [
    "C65_round_trip_partial",
    "C65_identity",
    "C65_placeholder_refuted",
    "C65_uninitialised_refuted",
    "C65_traced_product_refuted"
   ],
   "note": "Proved for all twenty registered classes, nested in any way, for every replacement of the leaves that maps uint32 vectors to uint32 vectors. Missing because false: AddModularSubtract cannot be rebuilt with placeholders (C65_placeholder_refuted), Mul loses injected kernels when taken apart before precompute_constants (C65_uninitialised_refuted, documented in the source), and plaintext products raise on traced operands (C65_traced_product_refuted). PublicKey, SecretKey and types.EvaluationKeys are not registered and are leaves."
  },
  {
   "property": "C66",
   "status": "partial",
   "theorems": [
    "C66_extract_noise_partial",
    "C66_extract_noise_refuted"
   ],
   "note": "Exact for every parameter triple, message and noise in the window: the noise, except for the message encoded as 2^31 (32-bit plaintexts without padding) with a negative noise, where the result is off by 2^32 (C66_extract_noise_refuted). Missing only because false of the code there."
  },
  {
   "property": "C67",
   "status": "partial",
   "theorems": [
    "C67_safe_check_refuted",
    "C67_safe_check_partial"
   ],
   "note": "The statement is false: the check compares the square root of 1 + n, the typical error, and accepts parameters for which a noiseless encryption of 0 decodes to another message (C67_safe_check_refuted). Proved instead: with (1 + n) * 2^message_bits <= mod_degree the claim holds for every ciphertext (C67_safe_check_partial). Floating point is replaced by exact comparison of squares."
  },
  {
   "property": "C68",
   "status": "proved",
   "theorems": [
    "C68_check",
    "C68_needs_asserter"
   ],
   "note": "all histories and asserters; printing is left out"
  },
  {
   "property": "C69",
   "status": "proved",
   "theorems": [
    "C69_transparent",
    "C69_stages",
    "C69_report",
    "C69_raising",
    "C69_silent"
   ],
   "note": "all callbacks, ciphertexts, keys and tables; C69_silent adds the noise windows of C15 and tables of messages; the printed noise lines are left out"
  }
 ]
}