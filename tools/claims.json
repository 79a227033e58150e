{
 "C01": {
  "status": "proved",
  "note": "decode/encode for every admissible parameter triple, cleartext and error; finding: the test-polynomial bound is off by one (C01_test_polynomial_range_refuted)"
 },
 "C02": {
  "status": "proved",
  "note": ""
 },
 "C03": {
  "status": "proved",
  "note": ""
 },
 "C04": {
  "status": "proved",
  "note": "for binary keys, sharp"
 },
 "C05": {
  "status": "proved",
  "note": "base length divides 32; digits bounded by the base"
 },
 "C06": {
  "status": "proved",
  "note": ""
 },
 "C07": {
  "status": "partial",
  "note": "the stated digit range, half-unit truncation error and arbitrary base lengths are false of the code (three _refuted theorems); the true digit range, error bound and recomposition are proved"
 },
 "C08": {
  "status": "proved",
  "note": "integer paths for all sizes; bfloat16 kernel for digits it represents exactly (C08_bfloat16_digit_refuted beyond); BAT for its 18-row grid (C08_bat_row_count_refuted otherwise)"
 },
 "C09": {
  "status": "proved",
  "note": ""
 },
 "C10": {
  "status": "proved",
  "note": "exact; every platform"
 },
 "C11": {
  "status": "proved",
  "note": "RGSW of any integer m, plain and BAT layouts, kernel inside its exact range (C08); cmux in both layouts; external_product of ciphertext objects; rgsw.decrypt; cmux refuses operands of different modulus (up to 2^32) or degree (C11_cmux_rejects); above 2^32 every modulus reads as 0 and none is refused (C11_cmux_wide_modulus_refuted)"
 },
 "C12": {
  "status": "proved",
  "note": "BMMP, plain and BAT key layouts; 2N divides 2^32; kernel inside its exact range"
 },
 "C13": {
  "status": "proved",
  "note": "the extracted ciphertext under the flattened key; selection followed by extraction (C13_cmux_extract)"
 },
 "C14": {
  "status": "proved",
  "note": "N a multiple of the table length; the identity table in particular (C14_identity_test_polynomial)"
 },
 "C15": {
  "status": "proved",
  "note": "one padding bit; with two padding bits the claim is false (C15_two_padding_bits_refuted)"
 },
 "C18": {
  "status": "proved",
  "note": "finding: the table obtained by the name \"cmux\" claims two inputs (C18_cmux_by_name_refuted); the printed form lists every assignment with its value (C18_printed_table, C18_printed_callable), except that a table without inputs prints a digit for an input that does not exist (C18_printed_no_inputs_refuted)"
 },
 "C19": {
  "status": "proved",
  "note": "for every history of requests on several caches, including evictions"
 },
 "C20": {
  "status": "partial",
  "note": "uint, u8, u8-list and ASCII string round trips proved; bytes round trip proved for 7-bit data only and refuted otherwise (C20_bytes_roundtrip_refuted, exact behaviour in C20_bytes_actual); lengths not divisible by 8 and out-of-range integers are accepted (refuted)"
 },
 "C21": {
  "status": "partial",
  "note": "batch_vmap proved for every batch size; pmap_lut2/3 proved up to one input per device, more inputs than devices are an error (refuted)"
 },
 "C16": {
  "status": "proved",
  "note": "all gates, all parameters satisfying key_setup, on every platform with an exact kernel; restated for each public gate function (C16_named_gates)"
 },
 "C17": {
  "status": "proved",
  "note": "straight-line programs of any length and fan-out; test parameters with noises up to 10"
 },
 "C22": {
  "status": "partial",
  "note": "the full statement is false (C22_all_ciphertexts_refuted); C22_gate_partial gives the result whenever the switched phase stays in its slot"
 },
 "C23": {
  "status": "partial",
  "note": "the full statement is false (C23_reduction_refuted: NTT prime 2^29+2^15+1, z = m^2-1); the moduli for which it holds are characterised exactly (C23_reduction_correct_moduli), which covers every m <= 2^27 (C23_reduction_partial)"
 },
 "C24": {
  "status": "proved",
  "note": "all residues; finding: the documented input range of add_modular_barrett is too wide (C24_documented_contract_refuted)"
 },
 "C25": {
  "status": "proved",
  "note": "sizes up to 2^32 for the uint32 table (a table of more entries cannot be indexed by uint32)"
 },
 "C26": {
  "status": "proved",
  "note": "every prime q = 1 mod 2n and n = 2^L >= 2; finding: n = 1 passes the argument checks and then fails (C26_degree_one_refuted)"
 },
 "C27": {
  "status": "proved",
  "note": "sizes up to 2^32 and primes up to 64 bits (the dtype of the result); finding: the reference and the CPU NTT may use different roots, so outputs agree only up to the choice of root (C27_same_root_refuted)"
 },
 "C40": {
  "status": "proved",
  "note": "m >= 2; finding: m = 1 is rejected although 1 has order 1 (C40_order_one_refuted)"
 },
 "C30": {
  "status": "proved",
  "note": "any list of pairwise coprime positive moduli; centred lift for every |x| < Q/2"
 },
 "C31": {
  "status": "proved",
  "note": "operations on RNS polynomials, exact modulo the product of the moduli; mismatches rejected; conversion to an array and back (C31_array_roundtrip), which loses the form flag: with the default flag an NTT-form polynomial comes back as another one (C31_array_default_flag_refuted)"
 },
 "C32": {
  "status": "proved",
  "note": "every key, message, level and randomness; NTT primes up to 2^32"
 },
 "C29": {
  "status": "proved",
  "note": "Byte-decomposed (BAT) matrix product: exact sum before the final reduction is congruent to the true inner product for every inner dimension K with 4*K*255^2 < 2^32, and the reduced result equals the true residue when 1020K <= m < 2^31. For larger inner dimensions the 32-bit accumulator overflows (refuted witness)."
 },
 "C33": {
  "status": "partial",
  "note": "Addition is proved for every modulus below 2^31 and all kernels. Plaintext multiplication is proved for moduli on which the Barrett kernel is exact (including every modulus below 2^27) and for the 64-bit Simple kernel; refuted for prime 2^29+2^15+1 (Barrett) and for uint32 inputs (Simple)."
 },
 "C37": {
  "status": "proved",
  "note": "Automorphism X -> X^g and conjugation on evaluation-form ciphertext limbs, every odd g and every ring degree; even g is not rejected (recorded finding)."
 },
 "C38": {
  "status": "partial",
  "note": "Extension and sampling ranges are proved. The claims that both signs occur and that negative coefficients extend correctly are refuted."
 },
 "C28": {
  "status": "partial",
  "note": "Forward and inverse transforms equal the CPU transforms and are mutually inverse for every power-of-two layout up to 2^14 x 2^14 and every NTT prime below 2^31 on which the Barrett kernel is exact and which is at least 1020*max(R,C). Smaller moduli are refuted (97 with a 4x4 layout); moduli with a wrong Barrett constant are not covered."
 },
 "C34": {
  "status": "partial",
  "note": "Proved for source moduli on which the Barrett kernel is exact and targets of at least 1020 times the number of source moduli; refuted for the 30-bit primes 536903681 and 536924161."
 },
 "C35": {
  "status": "partial",
  "note": "Proved for every chain of NTT primes the accelerator kernels handle in which no later prime exceeds twice an earlier one plus one, any number of dropped primes and components, plus the effect on decryption. Refuted without the ratio condition (2053, 12289): the centred residue is cast to uint64 when negative. Moduli with a wrong Barrett constant are not covered."
 },
 "C41": {
  "status": "proved",
  "note": "For every number of ciphertext moduli, auxiliary moduli and digit number: the control index lists partition the moduli (each part and its complement are a rearrangement of all the indices), the restore order puts every column back in place, and key generation, the key switcher and the basis-conversion plans use the same parts. Inputs the code rejects are shown to be rejected."
 },
 "C36": {
  "status": "partial",
  "note": "Key generation, key switching, division by P, conjugation, and tensor product with relinearisation, for all ciphertexts, keys and randomness (key switching for digit counts without an empty digit; relinearisation for every positive digit count); primes must satisfy switch_setting / mul_setting (exact Barrett constants, NTT-friendly, at least 1020 times the digit size) and secrets have coefficients in [0, q_0) as the generators produce. Finding: a digit count that leaves an empty digit has no key switcher."
 },
 "C42": {
  "status": "partial",
  "note": "One selection step and the whole composition over any list of key bits, for all ciphertexts, strides, keys and randomness, with an explicit error bound; a digit count of one, P below 2^64, one rescaling per auxiliary prime, primes as in C36, secrets in [0, q_0). The column method: for any keys and plaintexts the result is the weighted sum divided by P up to the rounding bound, and from key generation through gen_cm_keys, brot_cm and decryption it is scale/P times the selected plaintext with an explicit error. Mismatch rejections. Findings: keys for bit 1 cannot be generated when P >= 2^64; the default of one rescaling leaves auxiliary moduli on the ciphertext when there are several. with two digits the selection step, whose key has a single part, reuses that part for the second digit and is wrong (C42_two_digits_refuted). gen_cm_keys reads only the number of its indices. Lifting a ciphertext to the auxiliary moduli gives, component by component, the evaluation form over all moduli of a polynomial with the same coefficients modulo Q, plus fewer multiples of Q than there are moduli (C42_lift_partial)."
 },
 "C43": {
  "status": "proved",
  "note": "All integers, bases from 1 up to the dtype width, sizes; pairwise coprime moduli of any number; the module's own 50 moduli are shown coprime with product above 2^791. Batches of points, in chunks and in residues, round-trip through the packed layout with the coordinate axis first; ragged and empty batches raise. Finding: negative integers are not rejected, they become zero. Finding: unpacking a single point always assumes base 16."
 },
 "C44": {
  "status": "partial",
  "note": "Addition of two or three numbers, subtraction, comparison, conditional subtraction and the carry loop, for every number of chunks from 2 and every batch; the loops are shown to stop. Missing: subtraction when the top chunk of the difference is 0xFFFF, which the code gets wrong (C44_sub_2u16_refuted); findings: overflow of an addition wraps round into the lowest chunk; comparison of numbers of 32 chunks or more is rejected; the carry propagation with a fixed number of rounds is right when the value fits (C44_carry_add_partial, one row) and wraps an overflow into chunk 0 otherwise (C44_carry_add_overflow_refuted)."
 },
 "C45": {
  "status": "proved",
  "note": "Products of any chunk count up to 64 are exact; Barrett reduction gives the canonical residue for every value below 2^760, hence for every pair of canonical field elements, with every intermediate word in range. Finding: non-canonical 384-bit operands whose product reaches 2^760 are accepted and reduced wrongly."
 },
 "C46": {
  "status": "proved",
  "note": "For every modulus up to 2^384 (matrix built by construct_lazy_matrix) and every pair of 25-chunk inputs; chains of any length."
 },
 "C47": {
  "status": "proved",
  "note": "Residue-vector modular multiplication for the module's 50 moduli: the result is congruent to the product modulo any q up to the product of the moduli, and for the 377-bit prime inputs below 468000 p give a result below 51000 p."
 },
 "C48": {
  "status": "partial",
  "note": "Sums of operands with total weight at most 256 are exact (C48_add_sub_rns_var). Subtraction is proved when no word of the subtrahend is zero, which holds for every product not congruent to zero (C48_sub_product). Missing: it is false otherwise. The plain negation turns zero into -65536 (C48_sub_zero_refuted); the zero-check variant is wrong whenever the word of the modulus 2^16 is zero, which happens for products of non-zero values (C48_zero_check_product_refuted); 255 negated operands overflow (C48_many_negated_refuted)."
 },
 "C49": {
  "status": "partial",
  "note": "Proved for every prime and every expression built from canonical residues with +, -, *, / : FiniteFieldElement returns exactly the canonical residue (errors, powers with negative exponents and equality included); the Barrett and Montgomery classes return a representative in [0, p] of the right residue and leaving Montgomery form gives the canonical residue. Missing because false of the code (witnesses proved): Barrett/Montgomery addition of a and p-a stores p instead of 0 and compares unequal to 0; copy(0) returns the old value; dividing by zero silently gives 0; Montgomery ** returns neither the power nor its Montgomery form. With k omitted the classes take the binary64 logarithm of the prime: for every prime not within a factor 1 + 2^-40 above a power of two this is the exact one, rounded up, and the results above hold; false otherwise (witness proved): the prime 2^110 + 45050585342630109 gets k = 110, so R < p, and a Montgomery square stores a value above p. The floating-point logarithm is modelled by bounds on its result (Ec/Model_reflog.v), not bit by bit. copy of the Barrett and Montgomery classes: the value, its reduction or its Montgomery form (C49_reduced_copy), except copy(0)."
 },
 "C50": {
  "status": "partial",
  "note": "Proved over every prime field and all representatives: add_general returns the chord sum whenever the x-coordinates differ, double_general the tangent double whenever y is non-zero, point_add dispatches to the right formula, shifts are repeated doublings, conversion recovers the affine point; the chord and tangent law itself stays on the curve and is commutative. Missing because false of the code (witnesses proved): add_general of two different representatives of points with equal x, and the double of a point of order two, return a point with ZZ = 0 that is not flagged as zero."
 },
 "C51": {
  "status": "partial",
  "note": "Proved over every prime field: mixed addition (z2 = 1, different x), the complete addition wherever its result has z non-zero, doubling, dispatch, shifts and conversion agree with the chord and tangent law. Missing because false of the code (witnesses proved): the mixed addition of points with equal x and the complete formulas for opposite points give z = 0, and the affine class never returns a sum."
 },
 "C52": {
  "status": "partial",
  "note": "Proved over every prime field: the Edwards law stays on the curve, is commutative, associative where defined, has (0, 1) as identity and inverses, and is complete when -1 is a square and d is not; extended addition and doubling implement it and keep t = xy/z; twist maps the Weierstrass curve to the Edwards curve, is a homomorphism for chord and tangent, untwist inverts it on both sides, and twisting, adding and converting back gives the chord or tangent sum. Missing because false of the code (witnesses proved): when d is a square every point with non-zero coordinates has a partner whose sum is returned with z = 0; points with y = 0 or s(x - alpha) = -1 are handed out as the identity; a flagged identity cannot be converted back and an unflagged one becomes (alpha, 0); twist_projective is wrong when z is not 1."
 },
 "C54": {
  "status": "partial",
  "note": "Proved for every abelian group and every point type whose operations implement it: the twisted and the signed twisted bucket method return a point standing for s_1 P_1 + ... + s_n P_n, for all scalar and point lists, slice lengths 1..32 (signed: 2..32 and scalars of the BLS12-377 scalar field) and parallel widths dividing the list. End to end on BLS12-377 (C54_end_to_end, C54_signed_end_to_end): for every group of points of y^2 = x^3 + 1 without an element of order two, twisting integer coordinates, packing, running the bucket method with the lazy 16-bit-chunk operations, unpacking and converting returns the affine coordinates of the sum ((-1, 0) for the neutral element). XYZZ method: proved whenever no invalid addition is met (guarded run); missing because false of the code (witnesses proved): a window that is zero in every scalar, or a repeated point with the same scalar, gives a point with ZZ = 0. Also refuted: a second run on the same object returns the sum of both problems. The accumulation with a one-hot selection fills the same buckets as the indexed one, for any point operations (C54_xyzz_onehot)."
 },
 "C55": {
  "status": "partial",
  "note": "Proved for all scalars and slice lengths: the digits of an accepted scalar are in range and their signed weighted sum is the scalar modulo the window range; exactly which scalars are accepted; with slices of two bits or more every scalar of the BLS12-377 scalar field is accepted. Missing because false: scalars below half the range are not all accepted (2^253 - 1 with two-bit slices is rejected; one-bit slices reject every non-zero scalar)."
 },
 "C53": {
  "status": "partial",
  "note": "Barrett and lazy (XYZZ and twisted Edwards) addition, doubling and negation: every lane of every batch equals the reference class's formula on the residues, nothing raises, and the coordinate ranges are closed, so the operations can be chained without limit; they implement the group laws (the modulus is proved prime). Residue-number-system versions (the _rns_ theorems): ranges closed and lanes equal to the reference formula, for twisted addition when the zero check applies to its three products, for doublings when the negated coordinates are non-zero integers, for XYZZ addition up to one multiple of the product of the moduli in y. Missing because false of the code: doubling the exact identity gives x = 65536*65537 (C53_pdul_rns_twisted_refuted); adding two given curve points, exact affine inputs, returns a t coordinate that is not x*y/z because the zero check zeroes one residue of a non-zero product (C53_padd_rns_twisted_refuted)."
 },
 "C39": {
  "status": "proved",
  "note": "Over exact complex numbers (pairs of reals): the forward transform evaluates at the points e^(2 pi i 5^j / 4n), both compositions are the identity for every power of two length, other lengths are rejected, and decoding an encoded vector is within 2^L*sqrt(1/2)/scale of the vector, for every degree, moduli and scale with room for the scaled values. Binary64 rounding is not modelled. Refuted: more than degree/2 slots are accepted and decode to other values. Also refuted: the round trip needs is_slot_form=True; with the default, False, decode returns other values."
 },
 "C56": {
  "status": "partial",
  "note": "Outer-product and convolution forms: the product modulo 2^64 (x64 on, inner dimension up to 66051 and 16512) or modulo 2^32 (x64 off, any dimension). BAT: the compilation ends within three rounds for every word and every modulus up to 2^32, column j of the byte matrix represents x*2^(8j), and compile-multiply-reduce is the product modulo q for inner dimensions up to 8256. Missing because false of the code: with x64 off the BAT product is wrong; two full-precision products overflow the outer-product form; the jax variant of the compilation counts a projection twice."
 },
 "C57": {
  "status": "proved",
  "note": "Python's generators are arbitrary state machines. Signed dtypes raise when a value does not fit (C57_any_dtype_refuted)."
 },
 "C58": {
  "status": "proved",
  "note": "Real-number statements over the exact-arithmetic encoder of C39; the end-to-end theorem is C58_product. Binary64 rounding is not modelled; rotation of ciphertexts has no public entry point besides conjugation, so rotation is stated for encoded plaintexts."
 },
 "C59": {
  "status": "proved",
  "note": "Congruence for moduli up to 66000 bytes, size bound and chaining up to 252 bytes. The input limit of t+2 bytes is sharp: one byte more is silently truncated (C59_wider_refuted)."
 },
 "C60": {
  "status": "partial",
  "note": "Proved when base^levels = 2^total (float32 scaling and rounding are exact there; the final float dot product is stated over exact numbers). Finding: with fewer levels the digits are read from the wrong end and the result is not approximate but wrong. Not covered: negative entries, whose conversion to uint32 the array library leaves undefined."
 },
 "C61": {
  "status": "proved",
  "note": "The floating-point ceiling in the constants is proved exact for every basis, so the estimate is never off. Two findings: imported as a module the function always raises, because moduli_precision is assigned only under __main__ (C61_imported_refuted); for targets that need more than 58 moduli find_moduli returns offsets above 255, for which the three folds lose a carry (C61_wide_offset_refuted)."
 },
 "C62": {
  "status": "proved",
  "note": "Sources are arbitrary state machines over one joint state, so shared and separate objects are both covered; the hypothesis on Python's generators is that randint(0, 1) is 0 or 1 and the rounded normal stays within the bound. Parameters: as in C17, an even LWE dimension and the noise bounds fitting seven times into the window; the 128-bit parameters do not (C22). C62_draws fixes the trace of the draws: every array once, in order, shape and role, so no randomness is used twice."
 },
 "C63": {
  "status": "proved",
  "note": "Sources are arbitrary state machines. The hypotheses on Python's generators are the documented ranges of choice, randrange and sample and a bound B on the rounded normal values. What the library calls ternary draws from {0, 1}; the bound holds for it."
 },
 "C64": {
  "status": "partial",
  "note": "Proved for expressions in which ints stand only to the right of an operator, for comparisons on either side, and for field elements built from an int prime or with k given as an int. The full claim is false: an int to the left of an object raises for every operator (C64_int_left_refuted), ceil_log2 raises for every value because its mpfr result is rejected by the constructor (C64_ceil_log2_refuted), so Barrett and Montgomery elements cannot be built from an object prime with the default k (C64_object_prime_refuted)."
 },
 "C65": {
  "status": "partial",
  "note": "Proved for all twenty registered classes, nested in any way, for every replacement of the leaves that maps uint32 vectors to uint32 vectors. Missing because false: AddModularSubtract cannot be rebuilt with placeholders (C65_placeholder_refuted), Mul loses injected kernels when taken apart before precompute_constants (C65_uninitialised_refuted, documented in the source), and plaintext products raise on traced operands (C65_traced_product_refuted). PublicKey, SecretKey and types.EvaluationKeys are not registered and are leaves."
 },
 "C66": {
  "status": "partial",
  "note": "Exact for every parameter triple, message and noise in the window: the noise, except for the message encoded as 2^31 (32-bit plaintexts without padding) with a negative noise, where the result is off by 2^32 (C66_extract_noise_refuted). Missing only because false of the code there."
 },
 "C67": {
  "status": "partial",
  "note": "The statement is false: the check compares the square root of 1 + n, the typical error, and accepts parameters for which a noiseless encryption of 0 decodes to another message (C67_safe_check_refuted). Proved instead: with (1 + n) * 2^message_bits <= mod_degree the claim holds for every ciphertext (C67_safe_check_partial). Floating point is replaced by exact comparison of squares."
 },
 "C68": {
  "status": "proved",
  "note": "all histories and asserters; printing is left out"
 },
 "C69": {
  "status": "proved",
  "note": "all callbacks, ciphertexts, keys and tables; C69_silent adds the noise windows of C15 and tables of messages; the printed noise lines are left out"
 }
}