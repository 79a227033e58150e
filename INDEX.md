# Index of refuted and partial theorems

Generated by tools/gen_index.py from the comments in rocq/theories. What each partial property lacks is in the notes of MANIFEST.json.

## Refuted: claims of the code or its documentation shown false by a witness

| Theorem | Where | Comment |
|---|---|---|
| C01_test_polynomial_range_refuted | Cggi/Prop_lwe.v:73 | Finding: with test_polynomial_encoding the bound 2^(padding+message) is inclusive, so the out-of-range value 16 of the library's own parameters (32, 3, 1) is accepted, and its encoding is that of 0. |
| C07_digit_range_refuted | Cggi/Prop_lwe.v:248 | Findings: the digit range claimed in the docstring is false (0xff gives the digit 16 in base 16 with no carry), ... |
| C07_half_unit_refuted | Cggi/Prop_lwe.v:258 | ... the truncation error can exceed half a unit of the last kept level (almost a whole unit), ... |
| C07_indivisible_base_refuted | Cggi/Prop_lwe.v:267 | ... and a base length that does not divide the word length gives digits that do not represent the word at all: base 2^3, all 10 digits of a 32-bit word, error larger than a quarter of the modulus. |
| C08_bat_row_count_refuted | Cggi/Prop_poly.v:68 | finding: on the accelerator the Pallas grid is the literal 18, so no other number of rows (RLWE dimension + 1 times levels) is served, e.g. the 16 rows of the test parameters |
| C08_bfloat16_digit_refuted | Cggi/Prop_poly.v:80 | finding: a digit outside the bfloat16 significand is rounded, so the kernel needs the digit bound |
| C11_cmux_wide_modulus_refuted | Cggi/Prop_cmux.v:40 | The modulus is compared as a 32-bit word, in which every power from 2^32 up is 0: different moduli above that are taken for the same, and a 32-bit ciphertext reports the modulus 0. |
| C15_two_padding_bits_refuted | Cggi/Prop_bootstrap.v:372 | Finding: the encoding parameters accept any number of padding bits, but the test polynomial assumes exactly one. With (32, 2, 2), a noiseless encryption of 2 and noiseless keys, bootstrapping the identity returns 1. |
| C18_cmux_by_name_refuted | Bool/Prop_lut.v:61 | ... but finding: the table object obtained by its name claims two inputs, so that half of it is cut off: the list and the test polynomial built from it have no entry for v1 = true. |
| C18_printed_no_inputs_refuted | Bool/Prop_lutstr.v:96 | a table without inputs prints an input digit that does not exist |
| C20_bytes_roundtrip_refuted | Bool/Prop_type_converters.v:77 | ... missing for the full statement (all bytes), which is false. Finding: each byte is emitted before its bit 7 is stored, so that it carries bit 7 of the previous byte (of nothing, for the first). |
| C20_bytes_tail_refuted | Bool/Prop_type_converters.v:93 | Finding: a slice whose length is not a multiple of 8 is accepted and its tail is lost |
| C20_uint_range_refuted | Bool/Prop_type_converters.v:97 | Finding: uint_to_bit_slice accepts integers outside [0, 2^num_bits) and truncates them |
| C21_more_inputs_than_devices_refuted | Bool/Prop_batch.v:123 | Finding: more inputs than devices are not regrouped, they are an error |
| C22_all_ciphertexts_refuted | Bool/Prop_circuit.v:210 | The full statement ("every two-input gate is correct for every mask and binary key") is false. Finding: with the 128-bit parameters, a noiseless encryption whose mask has 128 entries at the rounding midpoint, under a key with ones there, is moved a whole message slot by the modulus switching; NAND(true, true) then decrypts to true although every noise drawn is zero. |
| C23_reduction_refuted | Ckks/Prop_barrett.v:10 | C23, full statement: for every m < 2^31 and z < m^2 the result is z mod m. It is false: the constant is computed by a binary64 division and may come out one too large. q = 2^29 + 2^15 + 1 is prime and 1 modulo 2^15, hence an NTT prime for every degree up to 2^14. |
| C24_documented_contract_refuted | Ckks/Prop_barrett.v:81 | the documented contract of AddModularBarrett (a+b < m^2, m < 2^31) does not suffice |
| C26_degree_one_refuted | Ckks/Prop_ntt_ref.v:79 | Finding: the smallest power of two, n = 1, is accepted by the argument checks but the constructor fails with IndexError, for every modulus. |
| C27_same_root_refuted | Ckks/Prop_ntt_cpu.v:96 | Finding: the two NTTs of the library choose their roots differently, so their outputs need not be equal. |
| C28_small_moduli_refuted | Ckks/Prop_ntt_accel.v:92 | without the lower bound on the moduli the claim is false: a 4 x 4 layout modulo 97 (the byte-split sums exceed q^2) |
| C29_larger_inner_dimension_refuted | Ckks/Prop_bat.v:57 | above the bound the 32-bit accumulators overflow: an inner dimension of 16530 with m = 2^32 - 1 |
| C31_array_default_flag_refuted | Ckks/Prop_rnsarray.v:40 | FINDING: the flag is not part of the array. With the default flag, a polynomial converted in NTT form comes back as a different polynomial: over n = 4 and the modulus 17, X comes back as its transform read as coefficients. |
| C33_plain_mul_barrett_refuted | Ckks/Prop_addmul.v:174 | the full statement fails: for q = 2^29 + 2^15 + 1, an NTT prime below 2^31, there are a ciphertext and a plaintext of residues whose Barrett product does not decrypt to the product (here of degree 1: constants, secret 0) |
| C33_plain_mul_simple_refuted | Ckks/Prop_addmul.v:213 | with the 32-bit data that encryption and encoding produce, the raw product wraps around |
| C35_unbalanced_refuted | Ckks/Prop_rescale.v:228 | without the condition on the ratio of the primes the claim is false: dropping 12289 from the chain 2053, 12289 |
| C37_even_refuted | Ckks/Prop_auto.v:109 | an even g is not rejected but permutes nothing sensible: the result is not the transform of a(X^g) |
| C38_both_signs_refuted | Ckks/Prop_keys.v:101 | the claim that the ternary sampler can return both signs is false: -1 never occurs |
| C38_extend_negative_refuted | Ckks/Prop_keys.v:106 | and the extension relies on it: for a secret with a coefficient -1 the extended key is not the key of that secret |
| C39_default_flag_refuted | Ckks/Prop_decodeflag.v:14 | FINDING: at degree two, with the modulus 97 and scale 40, the slot 1 comes back within 1/40 when is_slot_form is True, and as 1 + i, at distance 1, with the default |
| C39_too_many_slots_refuted | Ckks/Prop_fft.v:117 | Finding: more than degree/2 slots are not rejected. Encoding two slots (1, -1) at degree two gives a plaintext of degree four that decodes to other values. |
| C40_order_one_refuted | Ckks/Prop_math.v:51 | Finding: m = 1 divides q - 1 for every q, yet the request is rejected ("No primitive 1-th root found"). |
| C42_default_rescales_refuted | Ckks/Prop_blindrot.v:310 | FINDING. precompute_constants defaults to one rescaling; with two auxiliary primes the rotated ciphertext then still carries one of them. |
| C42_two_digits_refuted | Ckks/Prop_blindrot.v:327 | FINDING. With two digits the key switcher reads the key of the second digit, but a selection key holds one part and the out-of-range index is clamped to it: both digits are multiplied by the key of the whole ciphertext. Rotating by 0 with the key of the bit 1, generated without noise, then returns twice the message. |
| C43_negative_rejected_refuted | Ec/Prop_util.v:52 | FINDING: negative integers are not rejected, they silently become zero |
| C43_point_base_refuted | Ec/Prop_points.v:96 | FINDING. jax_point_pack_to_int_point has no base argument: a point packed in base 8 is read back as another point. |
| C44_add_overflow_refuted | Ec/Prop_arith.v:42 | likewise a sum that does not fit is not reduced modulo 2^(16n): the carry is added to the lowest chunk |
| C44_carry_add_overflow_refuted | Ec/Prop_carryadd.v:66 | FINDING: a carry out of the top chunk comes back in chunk 0: the result is not the value modulo 2^(16 n) |
| C44_sub_2u16_refuted | Ec/Prop_arith.v:33 | FINDING: without the restriction the result can be one too large, because the carry out of the top chunk is rolled into the lowest one |
| C45_large_inputs_refuted | Ec/Prop_barrett377.v:102 | FINDING: for 24-chunk inputs whose product is 2^760 or more one conditional subtraction is not enough, and nothing rejects them |
| C48_many_negated_refuted | Ec/Prop_rnsneg.v:161 | FINDING. Up to 255 operands are accepted, but negated operands count double: the sum of 255 of them loses its carry. |
| C48_sub_zero_refuted | Ec/Prop_rnsneg.v:69 | FINDING. The plain negation maps the all-zero vector to a vector standing for 102400 p - 2^16, so x - 0 is x - 65536. |
| C48_zero_check_product_refuted | Ec/Prop_rnsneg.v:138 | such operands are among the products: the product of 53719 and 1 |
| C48_zero_check_word_refuted | Ec/Prop_rnsneg.v:98 | FINDING. The zero check also zeroes the word of the modulus 2^16, where zero is an ordinary residue: whenever that word of a non-zero operand is zero the difference is wrong modulo p. |
| C49_barrett_add_refuted | Ec/Prop_reffield.v:151 | FINDING: a + (p - a) is represented by p, which is not equal to the element 0 |
| C49_copy_zero_refuted | Ec/Prop_reffield.v:84 | FINDING: copy(0) keeps the old value |
| C49_default_k_refuted | Ec/Prop_reflog.v:46 | FINDING: 2^110 + 45050585342630109 is prime and its default k is 110, so that R < p; the element with the stored value p - 1, squared, stores a value above p, although with k = 111 every result stays in [0, p] (C49_montgomery_partial) |
| C49_montgomery_add_refuted | Ec/Prop_reffield.v:217 | FINDING: a + (p - a) is again p |
| C49_montgomery_pow_refuted | Ec/Prop_reffield.v:221 | FINDING: exponentiation ignores the Montgomery form: 2 ** 2 gives an element that is neither 4 nor its Montgomery form |
| C49_reduced_copy_zero_refuted | Ec/Prop_refcopy.v:46 | FINDING: copy(0) of an element that is not zero is not zero, in these classes too |
| C50_double_torsion_refuted | Ec/Prop_xyzz.v:169 | FINDING: so does doubling a point of order two |
| C50_same_x_refuted | Ec/Prop_xyzz.v:162 | FINDING: for points with the same x-coordinate but different coordinate lists (opposite points, or the same point with another denominator) the result is not flagged zero, has ZZ = 0, and stands for no point at all |
| C51_affine_generate_refuted | Ec/Prop_projective.v:199 | FINDING: an affine sum is never returned: both branches raise for points of two or three coordinates |
| C51_affine_refuted | Ec/Prop_projective.v:194 | FINDING: an affine sum is never returned: both branches raise for points of two or three coordinates |
| C51_complete_refuted | Ec/Prop_projective.v:185 | FINDING: the complete formulas return z = 0 for opposite points (not flagged zero) and when the difference has order two |
| C51_mixed_same_x_refuted | Ec/Prop_projective.v:174 | FINDING: adding a point with z = 1 to the same or the opposite point with another coordinate list gives z = 0, unflagged: it stands for no point |
| C52_exceptional_points_refuted | Ec/Prop_edwards.v:324 | FINDING: a point whose y is zero, or with s (x - alpha) = -1, has no image; the conversion hands out the identity for it instead |
| C52_identity_convert_refuted | Ec/Prop_edwards.v:334 | FINDING: an identity that is not flagged, such as one returned by an addition, is converted to (alpha, 0), a point of order two |
| C52_incomplete_refuted | Ec/Prop_edwards.v:165 | FINDING: when d is a square, as it is for the configured curve, the law is not complete: every point with non-zero coordinates has a partner on the curve whose sum with it the code returns with z = 0, which stands for no point |
| C52_twist_projective_refuted | Ec/Prop_edwards.v:354 | FINDING: with z <> 1 the projective variant is wrong: (4, 2) given as (8, 4, 2) over the field with 13 elements |
| C52_zero_convert_refuted | Ec/Prop_edwards.v:176 | FINDING: a point object flagged zero cannot be converted back: the conversion empties its own argument and raises |
| C53_padd_rns_twisted_refuted | Ec/Prop_rnspadd.v:273 | FINDING. Two points of the curve in exact affine form (x, y, 1, xy), every residue fully reduced: their batched sum is returned in the usual range but does not stand for their sum. |
| C53_pdul_rns_twisted_refuted | Ec/Prop_accel_rns.v:369 | FINDING. Doubling the identity as the module builds it (an exact zero in x) does not give the identity: the negation of the zero row is -65536, and x becomes 65536 * 65537. |
| C54_reuse_refuted | Ec/Prop_pippenger.v:162 | FINDING: initialize does not empty the buckets, so a second run on the same object returns the sum of both problems |
| C54_xyzz_repeated_point_refuted | Ec/Prop_pippenger_xyzz.v:276 | FINDING: the same point twice with the same scalar gives a null result, for every scalar |
| C54_xyzz_zero_window_refuted | Ec/Prop_pippenger_xyzz.v:263 | FINDING: when the slices of some window are zero in every scalar the result is null. That is every input whose scalars are all below the top window, 2^(c (W - 1)). |
| C55_half_range_refuted | Ec/Prop_signed.v:71 | FINDING: "below half the range of the windows" is not enough: 2^253 - 1 is rejected with two-bit slices |
| C55_one_bit_refuted | Ec/Prop_signed.v:76 | FINDING: slice_length = 1 rejects every scalar except multiples of the range |
| C56_bat_jax_refuted | Cggi/Prop_hpmatmul.v:71 | smul_as_dense_gemv_bat_jax projects the top half twice: it does not compute the same matrix, and column 1 does not represent x * 2^8 |
| C56_bat_without_x64_refuted | Cggi/Prop_hpmatmul.v:53 | with jax_enable_x64 off, which is the default and what the rest of jaxite_cggi runs with, the BAT product is not the product modulo q |
| C56_outer_product_mod_refuted | Cggi/Prop_hpmatmul.v:63 | two full-precision products overflow 64 bits: reducing the outer-product result modulo q, as its test does for 28-bit entries, does not give the product modulo q |
| C57_any_dtype_refuted | Cggi/Prop_random_source.v:160 | Refuted: a source with the default bounds (0, 2^32 - 1) fills an array of any integer dtype |
| C59_wider_refuted | Ec/Prop_lazyref.v:113 | the limit is exact on the inputs' side: one byte more and the excess is dropped without an error |
| C60_fewer_levels_refuted | Cggi/Prop_gadget.v:78 | FINDING. The documentation says the result is approximate when base^levels is below 2^total. It is not: the value is scaled by base^levels but its digits are read from the top of 2^total, so with two levels of eight bits out of 32 the entry 1/2 comes back as 0, although it is a multiple of base^-levels. |
| C61_imported_refuted | Ec/Prop_rnsref.v:203 | imported from another module, the function raises for every input: it reads a variable that only the script defines |
| C61_wide_offset_refuted | Ec/Prop_rnsref.v:208 | the search may return offsets of more than a byte, and for those the three folds lose a carry |
| C64_ceil_log2_refuted | Ec/Prop_bigint.v:63 | the rounded-up logarithm is never returned |
| C64_int_left_refuted | Ec/Prop_bigint.v:59 | an int on the left of an object raises, for every operator and every value |
| C64_object_prime_refuted | Ec/Prop_bigint.v:126 | with the prime given as an object and no k, or with k given to the Barrett class as an object, no element can be built |
| C65_placeholder_refuted | Ckks/Prop_pytree.v:218 | the kernel AddModularSubtract cannot be rebuilt with placeholders for its leaves, as vmap and tree_map do: its constructor iterates them |
| C65_traced_product_refuted | Ckks/Prop_pytree.v:235 | the product of a plaintext and a ciphertext reads the moduli as numbers, so it raises on traced operands |
| C65_uninitialised_refuted | Ckks/Prop_pytree.v:226 | a product kernel that is taken apart before precompute_constants loses the kernels its constructor was given |
| C66_extract_noise_refuted | Cggi/Prop_noise.v:59 | FINDING: without padding, message 4 of 3 bits with noise -1 is reported to have noise 2^32 - 1. |
| C67_safe_check_refuted | Cggi/Prop_modcheck.v:10 | The check accepts a degree of 64 with 3 message bits and 15 samples, and yet an encryption of 0 without any noise decodes to another message once its modulus is switched to 2 * 64. |

## Partial: what is proved of a property that is not proved in full

| Theorem | Where | Comment |
|---|---|---|
| C07_signed_decomposition_partial | Cggi/Prop_lwe.v:219 | What holds: digits in [-B/2, B/2) or equal to B; the weighted sum is x up to a truncation error below one unit of the last kept level; exact when all levels are kept. [nn] is the number of digits of a [t]-bit word, i.e. the base length divides [t]. |
| C20_bytes_roundtrip_partial | Bool/Prop_type_converters.v:67 | bytes: the round trip holds for 7-bit data ... |
| C22_gate_partial | Bool/Prop_circuit.v:271 | What does hold for the 128-bit parameters: whenever the switched phase stays in the slot of the two inputs, the output holds the table entry up to the gate noise. |
| C23_reduction_partial | Ckks/Prop_barrett.v:43 | part of C23: every modulus up to 2^27, every z < m^2. Missing: moduli above 2^27 whose constant is off (above). |
| C28_agrees_partial | Ckks/Prop_ntt_accel.v:28 | part of C28: for every layout R x C of powers of two up to 2^14, list of such moduli and array of 32-bit words, the constants are found and both transforms equal the CPU transforms of the same array. Missing: moduli below 1020*max(R, C) (C28_small_moduli_refuted) and moduli on which the Barrett kernel is wrong. |
| C28_inverse_partial | Ckks/Prop_ntt_accel.v:47 | part of C28: the two transforms are mutually inverse on arrays of residues |
| C33_plain_mul_barrett_partial | Ckks/Prop_addmul.v:97 | part of C33: the Barrett product with an encoded plaintext decrypts to the product of the decryption with the plaintext polynomial, for the moduli where Barrett reduction is exact. Missing: the other moduli, for which it is false (C33_plain_mul_barrett_refuted). |
| C34_basis_change_partial | Ckks/Prop_basis.v:17 | part of C34: for every chain, table of planned conversions and entry of the table, if the source moduli are pairwise coprime, below 2^31 and among the moduli on which the Barrett kernel is exact (C23_reduction_correct_moduli; all up to 2^27), and the target moduli are below 2^31 and at least 1020 times the number of source moduli (at most 4112), then the residues of any list of integers in [0, Q) are mapped to the residues of x + u*Q, with one 0 <= u < #source per coefficient, common to all target moduli. Missing: source moduli on which the Barrett kernel is wrong (C34_refuted), and smaller targets. |
| C35_decrypts_partial | Ckks/Prop_rescale.v:140 | C35 at the level of decryption: dropping the last prime q from a two-component ciphertext that decrypts to m gives a ciphertext that decrypts, on the remaining primes, to d with q*d = m - err, \|err\| at most (1 + n)/2 * q for a secret with coefficients -1, 0, 1 |
| C35_rescale_partial | Ckks/Prop_rescale.v:97 | part of C35: for every layout and chain of primes the accelerator handles (see accel_modulus) in which no prime is more than twice (plus one) an earlier one, and every ciphertext given by its components as integer polynomials, dropping the primes of [dropped] (last prime first) succeeds and gives the components whose coefficients are divided by these primes and rounded to the nearest integer, for every remaining prime. Missing: primes on which the Barrett kernel is wrong or that are too small for the layout; without the condition on the ratio of the primes the claim is false (C35_unbalanced_refuted). |
| C36_conjugate_partial | Ckks/Prop_keyswitch.v:245 | C36 for conjugation: with a conjugation key of the secret s, conjugating a ciphertext that decrypts to m = c0 + c1*s gives one that decrypts, under the same key, to m(X^-1) plus an error as above |
| C36_key_switch_partial | Ckks/Prop_keyswitch.v:141 | C36. Key switching, in terms of polynomials with integer coefficients. [evaluation_form moduli a A]: the stored array A is the transform of the residues of a. For every ciphertext (c0, c1) over the primes q, source secret s', destination secret s, randomness (uniform masks, errors of size at most B) and number of digits, the key can be generated and the switched ciphertext decrypts under the destination secret, over all primes q and p, to P*(c0 + c1*s') plus a noise of size at most switch_noise. Partial: [switch_setting] restricts the primes and the number of digits (below: with an empty digit the switcher cannot be built, C36_empty_digit_rejected) and the destination secret must have coefficients in [0, q_0), what the two key generators produce (C38). |
| C36_multiply_partial | Ckks/Prop_mul.v:210 | C36, multiplication: the product of two ciphertexts, relinearised, decrypts to the product of what they decrypt to, up to an error of at most (key-switching noise)/P + \|p\| * (1 + n*S) per coefficient. [original] is the chain the kernel is built for, of which the ciphertexts hold all but the last [cd] moduli. Missing: secret keys with coefficient -1 (as C38) and primes without exact Barrett constants (as C28, C34). |
| C36_switch_partial | Ckks/Prop_keyswitch.v:218 | C36, over the original primes: key switching followed by the division by P (rescale with one step per auxiliary prime) decrypts under the destination key itself to c0 + c1*s' plus an error of size about switch_noise/P + 1 + n*S. Partial: as above, and the later primes must not exceed 2q + 1 for an earlier prime q (C35). |
| C42_blind_rotation_partial | Ckks/Prop_blindrot.v:215 | C42, the whole blind rotation: with keys generated for any list of secret bits, brot_mux maps every ciphertext to one that decrypts to the rotation of the message by stride * (the number the bits stand for), up to an error that grows by at most two steps' errors per bit. The rotation exponent G is determined modulo 2n by [rotates]. |
| C42_column_method_partial | Ckks/Prop_cmkeys.v:106 | C42, the column method from key generation to decryption. Keys are generated on q and p, row [sel] of the key matrix is given to brot_cm together with as many plaintexts as there are rows, and the result is decrypted. It is the rounded scale over P times the sel-th plaintext, up to the stated error in every coefficient. |
| C42_column_partial | Ckks/Prop_column.v:138 | C42, the column method: brot_cm with any number of column keys, each decrypting to some polynomial m_t modulo all the primes, and as many plaintexts t_t gives a ciphertext on the remaining primes that decrypts to the sum of the products t_t * m_t divided by P, up to (P - 1)/P * (1 + n*S) in every coefficient. Missing: as C36; the number of columns is at most the smallest prime. |
| C42_column_selects_partial | Ckks/Prop_column.v:162 | C42, what the column method is for: with column keys that encrypt D times the sel-th unit vector, up to errors of at most Be, the result decrypts to a polynomial y close to D/P times the sel-th plaintext polynomial t: in every coefficient \|P*y - D*t\| <= k * n * Bt * Be + (P - 1) * (1 + n*S), for k plaintexts with coefficients at most Bt. (D is the scale the keys were encoded at; with D = P the result is the selected plaintext itself.) |
| C42_hmuxrot_partial | Ckks/Prop_blindrot.v:178 | C42, one step. hmuxrot with a key generated for the bit beta and the rotation j: every ciphertext is mapped to one that decrypts to beta * m(X^g), where m is what it decrypts to and g = 5^(-j) mod 2n, up to an error err with P * \|err\| <= 2 * (key-switching noise) + (P - 1) * (1 + n*S). Missing: as C36; and the product P of the auxiliary primes must be below 2^64 (see C42_large_p_rejected). |
| C42_lift_partial | Ckks/Prop_lift.v:34 | Every component of the lifted ciphertext is the evaluation form, over all the moduli of q ++ p, of a polynomial with the same coefficients modulo Q = the product of q. Partial: the multiples of Q are not removed (fewer than the number of moduli of q), and the moduli are those the accelerated kernels handle. |
| C44_carry_add_partial | Ec/Prop_carryadd.v:52 | As many rounds as there are chunks turn chunks of up to 32 bits into the 16-bit chunks of the same value, if the value fits the array. |
| C44_sub_2u16_partial | Ec/Prop_arith.v:22 | the difference, for a >= b whose difference leaves the top chunk below 0xFFFF |
| C48_negate_partial | Ec/Prop_rnsadd.v:112 | negation: correct when no word of the operand is zero (or the modulus is 2^16) |
| C48_sub_partial | Ec/Prop_rnsadd.v:120 | subtraction: the result stands for x - y plus 102400 p |
| C48_zero_check_partial | Ec/Prop_rnsadd.v:132 | the variant with a zero check agrees when no word is zero, and maps the all-zero vector to itself |
| C49_barrett_partial | Ec/Prop_reffield.v:112 | every expression evaluates to the right residue, in a representative between 0 and p inclusive |
| C49_default_k_partial | Ec/Prop_reflog.v:26 | for a prime clear of powers of two, the Barrett and Montgomery classes with k omitted compute modulo p. Missing because false, see below: the primes just above a power of two |
| C49_montgomery_partial | Ec/Prop_reffield.v:191 | every expression evaluates to the Montgomery form of the right residue, and leaving Montgomery form gives the canonical residue |
| C50_point_add_partial | Ec/Prop_xyzz.v:141 | addition of any two points, the zero point included; the two affine points have distinct x-coordinates, or the same coordinate lists and a non-zero y. Missing: opposite points, equal points with different coordinates, doubling a point with y = 0; the code has no test for them and the statement is false there (the two theorems below) |
| C51_point_add_partial | Ec/Prop_projective.v:128 | the same coordinate lists must have y not zero; a point with z = 1 must have another x; otherwise the difference must not have order two. Missing: opposite points, an equal point with another z added to one with z = 1, and differences of order two; the statement is false there (below) |
| C52_twist_projective_partial | Ec/Prop_edwards.v:344 | the projective variant agrees with the affine one when z = 1 |
| C53_padd_rns_twisted_partial | Ec/Prop_accel_rns.v:311 | addition on the twisted Edwards curve: batches in which the zero checks apply to the three negated products. Missing because false of the code: the other batches, see C53_padd_rns_twisted_refuted |
| C53_padd_rns_xyzz_partial | Ec/Prop_accel_rns.v:351 | addition in XYZZ coordinates: the product r * (q - x3) is taken with a negative representative of q - x3, so its quotient estimate is right only because it rounds up: the y coordinate is the right one, or too large by the product of the moduli |
| C53_pdul_rns_twisted_partial | Ec/Prop_accel_rns.v:327 | doubling on the twisted Edwards curve: lanes whose coordinates x, y, z are non-zero integers |
| C53_pdul_rns_xyzz_partial | Ec/Prop_accel_rns.v:342 | doubling in XYZZ coordinates on a curve with a = 0: lanes whose x and y are non-zero integers |
| C54_xyzz_partial | Ec/Prop_pippenger_xyzz.v:193 | missing: nothing is said when the guarded run ends with nothing, that is, when some addition of the run was not valid |
| C60_gadget_inverse_partial | Cggi/Prop_gadget.v:31 | C60 for a gadget that keeps all the bits (base^levels = 2^total): a vector of dyadic entries m/2^s in [0, 1/2] is decomposed into digits in [0, base), and row r of the gadget matrix (here scaled by base^levels) sends them back to entry r, up to half a unit of base^-levels, and exactly when the entry is a multiple of base^-levels. |
| C64_constructors_partial | Ec/Prop_bigint.v:77 | the constructors accept ints and objects alike and build the element of C49, as long as k is a given int or the prime is an int |
| C64_expressions_partial | Ec/Prop_bigint.v:29 | any expression raises exactly where it has no value, and otherwise returns an object holding that value |
| C65_round_trip_partial | Ckks/Prop_pytree.v:110 | any object can be taken apart, and putting it together with the images of its leaves gives the object with the images of its arrays; in particular (f the identity) the same object. The structure is unchanged, so that a traced loop can carry it. |
| C66_extract_noise_partial | Cggi/Prop_noise.v:25 | For every parameter triple, message and noise in the rounding window, extract_noise returns the noise that was added to the encoding of the message, as a signed integer, with one exception: a message encoded as 2^31 with a negative noise, where the difference of the two int32 views is off by 2^32. That encoding exists only for 32-bit plaintexts without padding. |
| C67_safe_check_partial | Cggi/Prop_modcheck.v:28 | What does suffice for every ciphertext: with (1 + n) * 2^bits <= degree the switch moves the phase by at most half a message unit. Missing for the check as written: it compares the square root of 1 + n only, and is satisfied by parameters for which this fails. |
