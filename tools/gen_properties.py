#!/usr/bin/env python3
"""Writes properties.jsonl (kept as code so that ids stay consecutive)."""
import json, os
P = []
def p(title, statement, quantifier, why, *anchors):
    P.append(dict(id="C%02d" % (len(P) + 1), title=title, statement=statement,
                  quantifier=quantifier, why_tests_cant=why, anchors=list(anchors)))

CG = "jaxite/jaxite_cggi/"
BO = "jaxite/jaxite_bool/"
CK = "jaxite/jaxite_ckks/"
EC = "jaxite_ec/"

# ---------------------------------------------------------------- bool / cggi
p("Message encoding survives every admissible error",
  "For every valid EncodingParameters and every cleartext accepted by encode, decode(encode(m) + e) = m for every integer error e of magnitude strictly below half an error window (2^(error_bits-1)); encode rejects exactly the cleartexts outside [0, 2^message_bits) (or the documented test-polynomial range).",
  "all parameter triples (total, message, padding bits) accepted by EncodingParameters, all cleartexts, all errors in the window",
  "2^28 errors times 8 messages times all parameter choices; the boundary value of the window decides",
  CG+"encoding.py: EncodingParameters, encode, decode, remove_noise, round_to_power_of_2, extract_noise")
p("LWE encryption decrypts to the encoded message",
  "For every binary (indeed every) key, every mask vector and every noise value, decrypt_without_denoising(encrypt(m)) = encode(m)+noise modulo 2^log_modulus, and decrypt returns the encoding of m when the noise is inside the error window; a noiseless embedding decrypts to its message under every key.",
  "all keys, masks, noise values, messages, LWE dimensions and moduli 2^1..2^32",
  "keys and masks are random vectors of 800 32-bit words",
  CG+"lwe.py: encrypt, decrypt, decrypt_without_denoising, noiseless_embedding", CG+"encoding.py")
p("LWE ciphertexts are additively homomorphic",
  "For every key and any ciphertexts, the phase (decryption before rounding) of an integer linear combination of ciphertexts computed with wrapping 32-bit arithmetic is the same combination of the phases modulo 2^32; the noise of the result is bounded by the weighted sum of the noises.",
  "all keys, ciphertexts, coefficients and lengths of the combination",
  "wrap-around must be harmless for every ciphertext value, including the ones tests do not sample",
  CG+"lwe.py: LweCiphertext", BO+"jaxite_bool.py: not_, and_, lut2, lut3")
p("Modulus switching rounds the phase with bounded error",
  "switch_modulus from 2^a to 2^b (b<a) changes the scaled phase, for every binary key, by at most (n+1)/2 units of the small modulus, for every LWE dimension n and every ciphertext; every output word is below 2^b.",
  "all ciphertexts, all binary keys, all dimensions, all modulus pairs",
  "the worst case is a specific ciphertext/key alignment that random tests never hit",
  CG+"lwe.py: switch_modulus", CG+"matrix_utils.py: integer_div", CG+"test_utils.py: assert_safe_modulus_switch")
p("LWE key switching preserves the message",
  "For every input key, output key, key-switching key generated by gen_key with any randomness and any ciphertext, decrypting the switched ciphertext under the output key gives the phase under the input key plus an error no larger than (decomposition error) + (number of digits * max digit * max key-switching noise); with a full-precision decomposition the first term is zero.",
  "all ciphertexts, both keys, all randomness of the key-switching key, all decomposition parameters dividing the word size",
  "the key-switching key is a 3-dimensional array of random words; only the algebra bounds the error for all of them",
  CG+"key_switch.py: gen_key, switch_key, jit_switch_key", CG+"decomposition.py: decompose, recompose")
p("Unsigned gadget decomposition recomposes with bounded truncation error",
  "decompose returns num_levels digits in [0, base); recompose(decompose(x)) differs from x by less than one unit of the last kept level, and equals x when all bits are kept.",
  "all 32-bit words, all base/level parameters",
  "2^32 words times all parameters",
  CG+"decomposition.py: decompose, recomposition_summands, recompose")
p("Signed gadget decomposition is a correct signed representation",
  "signed_decomposition returns digits whose weighted sum is congruent to x modulo 2^total_bits when all levels are kept, each digit lies in [-base/2, base/2) and truncating to num_levels leaves an error of at most half a unit of the last kept level.",
  "all words and all base/level parameters",
  "carry chains of arbitrary length matter; the failing words are rare (a digit base-1 receiving a carry)",
  CG+"decomposition.py: signed_decomposition, decompose_rlwe_ciphertext, gadget_matrix")
p("All polynomial multiplication paths compute the negacyclic product",
  "poly_mul / toeplitz_poly_mul / the kernelised toeplitz path / poly_dot_product / the vector-matrix kernels (byte-split integer matmul, BAT layout, XLA fallback) all return, for every pair of polynomials of every degree bound N, the coefficients of the product in Z[X]/(X^N+1) reduced modulo 2^32; the accelerator's bfloat16 kernel does so for every vector of gadget digits below its exact-integer bound, and the BAT layout for every matrix of its 18-row grid.",
  "all N, all coefficient vectors, all vector and matrix sizes accepted by the kernels",
  "each path re-orders, splits into bytes and re-accumulates with wrap-around; agreement on samples does not exclude an accumulator overflow",
  CG+"matrix_utils.py: toeplitz, toeplitz_kernelized, toeplitz_poly_mul, poly_mul, poly_dot_product, i32_as_u8_matmul", CG+"polymul_kernel.py: negacyclic_vector_matrix_polymul, fallback_vector_matrix_polymul, i32_matmul")
p("Monomial multiplication is rotation with sign",
  "monomial_mul(p, d) is the product of p by X^d in Z[X]/(X^N+1) modulo 2^log_modulus for every integer d including negative and beyond 2N, and scale_by_x_power_n_minus_1(d, M) is the entrywise product by X^d - 1.",
  "all polynomials, all N, all integer exponents",
  "boundary exponents 0, N, 2N-1, negative exponents and their combination with every coefficient",
  CG+"matrix_utils.py: monomial_mul, scale_by_x_power_n_minus_1, x_power_n_minus_1")
p("RLWE encryption decrypts to the encoded polynomial",
  "For every key, mask and noise polynomial, decrypting an RLWE encryption of p gives p + noise in Z_q[X]/(X^N+1); decryption of a trivial encryption returns the polynomial under every key; flattening the RLWE key gives the LWE key under which sample extraction decrypts.",
  "all keys, masks, noise polynomials, messages, N and RLWE dimensions",
  "keys and masks are random polynomials; sizes are unbounded",
  CG+"rlwe.py: encrypt, decrypt, flatten_key, trivial_encryption", CG+"test_polynomial.py: trivial_encryption")
p("RGSW external product multiplies messages",
  "For every RGSW encryption of m in {0,1} under any randomness and every RLWE ciphertext, the external product decrypts to m times the phase of the ciphertext plus an error bounded by (k+1)*levels*N*maxdigit*noise (+ the gadget truncation term); cmux returns the branch selected by the bit up to that error.",
  "all keys, randomness, ciphertexts, bits, decomposition parameters with exact gadget",
  "the bound is a worst case over all ciphertexts and randomness",
  CG+"rgsw.py: encrypt, jit_encrypt, key_block", CG+"bootstrap.py: external_product, cmux, jit_cmux")
p("Blind rotation rotates the accumulator by the encrypted phase",
  "With a bootstrapping key generated for any binary LWE key of even dimension (BMMP unrolling by two) and any LWE ciphertext over Z_{2N}, blind_rotate of a test polynomial decrypts to X^{-phase} times the test polynomial up to a noise bound proportional to n/2 external products; an odd dimension is rejected.",
  "all LWE keys, ciphertexts, bootstrapping-key randomness, test polynomials, even dimensions n and degrees N",
  "induction over the LWE dimension; all 2^n keys",
  CG+"bootstrap.py: gen_bootstrapping_key, blind_rotate, jit_blind_rotate")
p("Sample extraction reads the constant coefficient",
  "sample_extract of an RLWE ciphertext is an LWE ciphertext whose phase under the flattened RLWE key is the constant coefficient of the RLWE phase, for every ciphertext, key, degree and RLWE dimension.",
  "all ciphertexts, keys, N and RLWE dimensions",
  "index/sign bookkeeping must be right for every coefficient",
  CG+"bootstrap.py: sample_extract", CG+"rlwe.py: flatten_key")
p("Test polynomial evaluates the look-up table at every phase",
  "gen_test_polynomial(f, N): for every message m and every phase within half a block of m's block in Z_{2N}, the constant coefficient of X^{-phase} * testpoly is the encoding of f[m]; list lengths that do not fit are rejected with ValueError.",
  "all look-up tables, messages, phases, N",
  "the negacyclic wrap at block 0 (half of it is negated) is exercised only by negative errors",
  CG+"test_polynomial.py: gen_test_polynomial, _pad_for_error, trivial_encryption")
p("Programmable bootstrapping is correct and resets noise",
  "For every key set and every randomness within stated bounds, bootstrap(ct, lut) decrypts to lut[m] whenever the phase of ct is within the error window of m, and the noise of the output is bounded by a constant independent of ct.",
  "all ciphertexts in the window, all keys, all randomness within bound, all look-up tables",
  "composition of five stages each with worst-case noise; noise reset must hold for every input noise",
  CG+"bootstrap.py: bootstrap, jit_bootstrap", CG+"lwe.py: switch_modulus", CG+"key_switch.py: switch_key")
p("Boolean gates compute their truth tables",
  "For encryptions of a, b (and c) with noise below the per-gate limit, and_, nand_, or_, nor_, xor_, xnor_, andny_, andyn_, orny_, oryn_, not_, lut1, lut2, lut3, cmux_ decrypt to the named Boolean function, and constant(b) decrypts to b under every key; lut1 rejects truth tables above 3.",
  "all keys, ciphertexts within noise limit, all truth tables, all Boolean inputs",
  "argument order and table bit order mistakes are symmetric on many inputs; noise limits are worst case",
  BO+"jaxite_bool.py: and_ ... oryn_, not_, lut1, lut2, lut3, cmux_, constant", BO+"lut.py")
p("Arbitrary circuits decrypt to their cleartext value",
  "For every Boolean circuit built from the public gates, of any depth and fan-out, evaluating it on fresh encryptions and decrypting gives the circuit's cleartext value, for every randomness within the parameter set's bounds (test parameters).",
  "all circuits (unbounded depth), all inputs, all keys, all bounded randomness",
  "circuits are unbounded; noise must not accumulate along any path",
  BO+"jaxite_bool.py", BO+"bool_params.py: get_params_for_test", "README.md: add_i8 example")
p("Look-up tables list the function in argument order",
  "LookUpTable(tt, n).as_cleartext_list()[i] is bit i of tt; from_callable(f) is the table whose entry for arguments (x_1..x_n) sits at index x_1..x_n read as a binary number with x_1 most significant; lut_by_name returns the named function's table and rejects unknown names; as_rlwe_test_polynomial pads with the unused encoding to 2^message_bits and rejects longer lists.",
  "all truth tables, arities, callables and names",
  "all 2^(2^n) tables",
  BO+"lut.py: LookUpTable, from_callable, lut_by_name, lut_poly_by_name, as_rlwe_test_polynomial")
p("The LUT cache is transparent",
  "For every sequence of cache requests the cached look-up returns exactly what a fresh computation would return, whatever was requested before.",
  "all request histories",
  "history-dependent state; tests exercise a handful of histories",
  BO+"lut.py: LutCache")
p("Type conversions round-trip",
  "uint/bit-slice, u8/bit-slice, u8-list/bit-slice, bytes/bit-slice and string/cleartext conversions are mutually inverse on their domain, and reject exactly the out-of-domain inputs.",
  "all integers, widths, byte lists, strings",
  "all lengths and values; the failing bytes are the ones >= 128",
  BO+"type_converters.py")
p("Batched gate evaluation equals pointwise evaluation",
  "pmap_lut2 / pmap_lut3 return, for every list of inputs and whatever the number of devices, the list of the single-gate results in order, and batch_vmap(f, batch) equals vmap(f) for every batch size that it accepts.",
  "all list lengths, device counts, batch sizes and functions",
  "padding and regrouping must be right for every length/devices combination",
  BO+"jaxite_bool.py: pmap_lut2, pmap_lut3", CG+"jax_helpers.py: batch_vmap")
p("The 128-bit parameters leave room for every ciphertext",
  "With the 128-bit production parameters every two-input gate on ciphertexts with noise inside the window is correct for every mask and every binary key (no failure probability).",
  "all ciphertexts and keys for the production parameters",
  "failure needs a specific key/mask alignment of tiny probability",
  BO+"bool_params.py: get_params_for_128_bit_security", CG+"lwe.py: switch_modulus")

# ---------------------------------------------------------------- ckks
p("Barrett reduction returns the canonical residue",
  "modular_reduction(z, precompute_barrett_constants(m)) = z mod m for every modulus m accepted (m < 2^31) and every z < m^2.",
  "all moduli and all 64-bit products below m^2",
  "2^62 products times 2^31 moduli; the float-rounded constant fails only for special moduli",
  CK+"barrett.py: precompute_barrett_constants, modular_reduction")
p("Modular addition is exact",
  "AddModularBarrett and AddModularSubtract return (a+b) mod m coefficientwise for residues a,b < m; AddSimple never loses information when no overflow occurs.",
  "all moduli below 2^31, all residues, all shapes",
  "boundary a+b = m and a+b >= 2^32",
  CK+"add.py: AddSimple, AddModularBarrett, AddModularSubtract")
p("Bit reversal is an involutive permutation",
  "bit_reversal_array, get_bit_reverse_perm and _get_bit_reversal_perm describe, for every power of two size, the same permutation, which is its own inverse.",
  "all powers of two, all indices",
  "unbounded sizes",
  CK+"rns_utils.py: bit_reversal, bit_reversal_array", CK+"math.py: get_bit_reverse_perm", CK+"ntt_cpu.py: _get_bit_reversal_perm")
p("The reference NTT is an invertible ring homomorphism",
  "For every prime q = 1 mod 2n, every power of two n >= 2: Ntt.inverse(Ntt.forward(a)) = a mod q, forward evaluates the polynomial at the odd powers of the 2n-th root of unity in bit-reversed order, and pointwise products of transforms are transforms of negacyclic products.",
  "all n, q, coefficient vectors",
  "in-place butterflies for every size; samples at a few sizes do not generalise",
  CK+"rns.py: Ntt")
p("The CPU NTT agrees with the reference NTT",
  "ntt_negacyclic_poly / intt_negacyclic_poly are mutually inverse and give, for every power of two and every NTT prime, the evaluation at odd powers of the root in bit-reversed order.",
  "all n, q, coefficient vectors",
  "as above, with scaling and permutation steps in a different order",
  CK+"ntt_cpu.py: ntt_negacyclic_poly, intt_negacyclic_poly, ntt_cyclic_bit_reverse, intt_cyclic_bit_reverse")
p("The accelerator NTT agrees with the CPU NTT",
  "NTTBarrett.ntt / intt on a (rows x columns) layout with byte-split matrices return, for every factorisation N = R*C in powers of two and moduli below 2^31, the same values as ntt_negacyclic_poly / intt_negacyclic_poly and are mutually inverse.",
  "all R, C, moduli and coefficient arrays",
  "three passes of byte-split matmuls with precomputed twiddles; no accumulator may overflow for any input",
  CK+"ntt.py: NTTBarrett", CK+"bat_utils.py: matmul_bat_einsum, basis_aligned_transformation", CK+"math.py: gen_twiddle_matrix")
p("BAT matrix multiplication is the modular matrix product",
  "matmul_bat_einsum(lhs, basis_aligned_transformation(A, q)) is congruent to lhs times A modulo q, with no 32-bit accumulator overflow below the documented inner dimension.",
  "all matrices, moduli < 2^32, inner dimensions below the bound",
  "byte planes and shifts for every value",
  CK+"bat_utils.py", "jaxite/jaxite_cggi/matrix_utils.py: hpmatmul_offline_compile_bat, hpmatmul_bat_adapt")
p("CRT reconstruction inverts residue representation",
  "reconstruct_crt returns the unique value in [0,Q) with the given residues for pairwise coprime moduli; the centred lift recovers every integer of magnitude below Q/2.",
  "all moduli lists, all residues",
  "unbounded number and size of moduli",
  CK+"rns_utils.py: reconstruct_crt, compute_q_hat_inv_mod_q, inverse_mod", CK+"encode.py: Decode.decode")
p("RnsPolynomial operations are the ring operations",
  "Adding, subtracting, negating and multiplying RnsPolynomials represents the corresponding operation of Z_Q[X]/(X^n+1) in either form; incompatible operands (moduli, degree, form) are rejected with ValueError; multiplication requires NTT form.",
  "all polynomials, moduli, degrees, mixtures of forms",
  "the form flag interacts with every operation sequence",
  CK+"rns.py: RnsPolynomial")
p("CKKS encryption decrypts to the plaintext plus small noise",
  "For every key generated by keygen and every randomness, decrypt(encrypt(m)) = m + v*e + e0 + e1*s in R_Q, hence within the corresponding coefficient bound of m; ciphertext and key moduli must match as a prefix, otherwise ValueError.",
  "all keys, randomness, plaintexts, degrees, moduli",
  "randomness is unbounded; the identity must be exact for all of it",
  CK+"encrypt.py: Encrypt.encrypt, Decrypt.decrypt", CK+"key_gen.py: keygen")
p("Homomorphic addition and plaintext multiplication are correct",
  "Decrypting a sum of ciphertexts gives the sum of the decryptions modulo each q, and decrypting the product by a plaintext gives the product of the decryption with the plaintext, whichever implementation (simple, Barrett, subtract) is used.",
  "all ciphertexts, keys, plaintexts, moduli below 2^31",
  "as above",
  CK+"add.py", CK+"mul.py: MulPlaintextCiphertextSimple, MulPlaintextCiphertextBarrett", CK+"encrypt.py: Decrypt")
p("Fast basis conversion is exact up to a common multiple of Q",
  "basis_change maps residues of x in [0,Q) to residues of x + u*Q modulo every target prime with one common integer 0 <= u < number of source primes.",
  "all x, source and target bases",
  "the same u must hold for every target prime, for every x",
  CK+"basis_conversion.py: BasisConversionBarrett")
p("Rescaling divides by the last prime and rounds",
  "rescale maps the residues of x to the residues of the nearest integer to x/q_last (error at most 1/2) for every remaining prime, on every coefficient; calling it before precomputation is an error.",
  "all x in the ring, all prime chains",
  "failing inputs need q_i < q_last/2 and large residues",
  CK+"rescale.py: Rescale")
p("Key switching and relinearisation preserve the plaintext",
  "Decrypting a key-switched ciphertext under the new key gives P times (old key times the switched component) plus bounded noise; ciphertext-ciphertext multiplication followed by relinearisation decrypts to the product of the decryptions plus noise.",
  "all ciphertexts, keys, key-switching randomness, digit counts dnum",
  "sum over digits of approximate base conversions; bound must hold for all",
  CK+"key_switching.py: KeySwitcher", CK+"key_gen.py: gen_key_switching_key, gen_evaluation_key", CK+"mul.py: Mul")
p("Automorphisms in NTT form permute evaluation points",
  "apply_automorphism_ntt with odd g maps the transform of a(X) to the transform of a(X^g), and the conjugation's reversal is the case g = -1, for every power-of-two degree.",
  "all degrees, odd exponents, polynomials",
  "index arithmetic on bit-reversed positions for every size",
  CK+"blind_rotate_utils.py: apply_automorphism_ntt", CK+"conjugate.py: Conjugation")
p("Secret key generation and extension are consistent",
  "extend_secret_key produces, for every extended modulus, the residues of the same integer polynomial as the original key, for every key the generator can produce; the ternary sampler returns coefficients in {-1,0,1} with both signs possible.",
  "all keys the generators can return, all moduli",
  "a sign mistake shows only for keys with negative coefficients",
  CK+"key_gen.py: extend_secret_key", CK+"random.py: gen_ternary_poly, gen_sparse_binary")
p("Canonical embedding FFT round-trips",
  "fft_special(fft_special_inv(v)) = v and conversely for every power of two length over exact complex arithmetic, and Decode(Encode(v)) is v up to coefficient rounding at the given scale.",
  "all slot vectors and lengths",
  "unbounded sizes; exactness is algebraic",
  CK+"encode.py: fft_special, fft_special_inv, Encode, Decode")
p("Primitive roots are primitive",
  "root_of_unity(m, q) returns an element of order exactly m modulo a prime q with m | q-1 (and for powers of two the smallest such), and rejects m not dividing q-1.",
  "all primes q, all m",
  "number-theoretic search over all q",
  CK+"math.py: prime_factors, find_generator, root_of_unity", CK+"rns.py: _primitive_root")
p("Plans and permutations of ciphertext multiplication are partitions",
  "compute_control_indices splits the moduli indices of every level into disjoint parts that cover all of them, in order, for every number of primes and dnum.",
  "all numbers of primes and digits",
  "unbounded parameters; short last part and empty parts",
  CK+"mul.py: Mul.compute_control_indices", CK+"key_gen.py: gen_key_switching_key")
p("CKKS blind rotation selects the rotation named by the key bit",
  "hmuxrot with a key for bit b decrypts to the ciphertext unchanged (b=0) or to its automorphic image (b=1) up to key-switching noise, and brot_mux composes the selected rotations; the column method brot_cm with a row of gen_cm_keys decrypts to scale/P times the plaintext that row selects, up to a stated noise; parameter mismatches are rejected.",
  "all bits, ciphertexts, keys and exponent sequences",
  "composition over unbounded sequences",
  CK+"blind_rotate.py: BlindRotation", CK+"key_gen.py: gen_hmuxrot_key, gen_cm_keys")

# ---------------------------------------------------------------- ec
p("Chunk and RNS representations round-trip",
  "array_to_int(int_to_array(x)) = x for every integer that fits (larger ones are rejected) and RNS reconstruction inverts to_rns below the product of the moduli.",
  "all integers, bases, array sizes",
  "unbounded integers",
  EC+"util.py: int_to_array, array_to_int, to_rns, rns_reconstruct")
p("Chunked addition, subtraction and comparison are integer operations",
  "add_2u16, add_3u16 return the sum when it fits, sub_2u16 the difference when a >= b, compare_u16 the sign of a-b, and the carry loops terminate on every input.",
  "all chunk vectors of every length",
  "carry chains of every length; termination of a while_loop",
  EC+"finite_field.py: add_2u16, add_3u16, sub_2u16, compare_u16, carry_propagation, cond_sub_2u16, cond_sub_mod_u16")
p("Barrett modular multiplication of field elements is exact",
  "mod_mul_barrett_2u16(a,b) is the canonical residue a*b mod p for all field elements a,b < p of the 377-bit curve prime, with no intermediate overflow.",
  "all pairs of field elements (2^754)",
  "the quotient estimate must be off by at most one for every product",
  EC+"finite_field.py: mul_2u16, mul_shift_2u16x2x1, mod_mul_barrett_2u16, barrett_reduction_u16x2", EC+"util.py: MU_377_INT")
p("Lazy modular multiplication is closed and congruent",
  "mod_mul_lazy_2u16 maps any two 400-bit inputs to an output below 2^400 congruent to the product modulo p, so chains of any length stay correct.",
  "all 25-chunk inputs",
  "2^800 inputs, unbounded chains",
  EC+"finite_field.py: mod_mul_lazy_2u16", EC+"util.py: construct_lazy_matrix")
p("RNS modular multiplication is congruent modulo p",
  "mod_mul_rns_2u16 applied to residue vectors of x and y gives residues of a value congruent to x*y modulo p and below the documented bound, whenever x*y is below the stated fraction of the RNS range; word-size reductions never lose a carry.",
  "all residue vectors of admissible values",
  "the approximate quotient is a rounding argument over all values",
  EC+"finite_field.py: mod_red_rns_2u16, moduli_rns_red_internal_2u16, mod_mul_rns_2u16", EC+"util.py: rns_coefficients_precompute")
p("RNS subtraction is correct for every operand",
  "add_sub_rns_var with negated operands returns residues of x - y + (multiple of p) for all admissible x, y.",
  "all residue vectors, including those with a zero residue",
  "zero residues occur with probability 2^-16 per channel",
  EC+"finite_field.py: negate_rns_for_var_add, negate_rns_for_var_add_zero_check, add_sub_rns_var")
p("Reference field classes implement the prime field",
  "FiniteFieldElement, ...Barrett and ...Montgomery agree with arithmetic modulo p: every operation returns the canonical representative, equality is equality of residues, exponentiation and division are correct, copy(v) has value v.",
  "all primes and residues",
  "boundary a+b = p and copy(0) are single points in a huge domain",
  EC+"algorithm/finite_field.py")
p("XYZZ point formulas implement the curve group law",
  "For points in XYZZ coordinates (zz^3 = zzz^2, non-zero) on the curve, add_general returns the affine chord sum whenever the x-coordinates differ, double_general the tangent double, convert_to_affine recovers affine coordinates, and results stay on the curve.",
  "all fields of characteristic not 2, all points",
  "polynomial identities over every field",
  EC+"algorithm/elliptic_curve.py: ECCSWeierstrassXYZZ", EC+"elliptic_curve.py: padd_barret_xyzz, pdul_barret_xyzz")
p("Projective and affine formulas implement the curve group law",
  "The projective mixed and complete additions and doubling agree with the affine chord-and-tangent law after conversion, for every pair of points where they are used.",
  "all fields, all points",
  "polynomial identities; exceptional cases",
  EC+"algorithm/elliptic_curve.py: ECCSWeierstrassAffine, ECCSWeierstrassProjective")
p("Twisted Edwards formulas implement the unified law",
  "Extended-coordinates addition and doubling agree with the affine twisted Edwards law (a = -1), keep t = x*y/z, have [0,1,1,0] as identity, and twist/untwist are inverse birational maps where defined.",
  "all fields, all points with non-vanishing denominators",
  "polynomial identities; exceptional points of the birational map",
  EC+"algorithm/elliptic_curve.py: ECCSTwistedEdwardsExtended", EC+"elliptic_curve.py: padd_lazy_twisted, pdul_lazy_twisted, pneg_lazy_twisted")
p("Accelerated point operations agree with the reference formulas",
  "padd/pdul with Barrett, lazy and RNS arithmetic return coordinates congruent modulo p to the reference formulas on congruent inputs, and stay within their input range so that they can be chained indefinitely.",
  "all coordinate chunk vectors in the admissible range, chains of any length",
  "range closure is an invariant over unbounded chains",
  EC+"elliptic_curve.py")
p("Pippenger MSM equals the sum of scalar multiples",
  "Running bucket accumulation, bucket reduction, (batch summation) and window merge on any list of scalars and points gives sum of scalar*point in the group, for every slice length, list length and parallelism.",
  "all scalar and point lists, slice lengths, parallel widths",
  "lists are unbounded; empty buckets, repeated points and zero windows are corner cases",
  EC+"pippenger.py: MSMPippenger, MSMPippengerTwisted", EC+"pippenger_rns.py")
p("Signed-digit bucket selection represents the scalar",
  "construct_ba_selection_with_sign yields digits in range whose signed weighted sum is the scalar whenever its final carry assertion passes, and the assertion passes for every scalar below half the top window range.",
  "all scalars, slice lengths, window counts",
  "carry chains across all windows",
  EC+"pippenger.py: MSMPippengerTwistedSigned.construct_ba_selection_with_sign")

p("High-precision matrix products compute the integer product",
  "The outer-product and convolution forms return the product of two matrices of 32-bit words modulo the width of the result type, and compiling the left matrix for a modulus q up to 2^32, multiplying and reducing modulo q gives the product modulo q; the compilation ends for every word and modulus.",
  "all matrices of 32-bit words up to the inner dimension the accumulators allow, all moduli",
  "the compilation loop ends after a data-dependent number of rounds; overflow depends on the dimension and on the entries",
  CG+"matrix_utils.py: hpmatmul_conv_adapt_outer_product, hpmatmul_conv_adapt_conv, smul_as_dense_gemv_bat, hpmatmul_offline_compile_bat, hpmatmul_bat_adapt, hpmatmul_golden")
p("Random sources deliver their stream in order",
  "Every sequence of calls on one source object returns, array after array, one stretch of the underlying stream reduced into the unsigned dtype: nothing is skipped, repeated or rejected; secret keys are binary; a negative dimension raises before anything is drawn; the cyclic test source repeats a fixed binary string.",
  "all generators, shapes, dtypes and histories of calls",
  "histories are unbounded",
  CG+"random_source.py: _shape_generator, CycleRng, SystemRandomSource, PseudorandomSource, NormalOnlyRng, ConstantUniformRng, ZeroRng")
p("Encrypted arithmetic acts slot by slot on complex vectors",
  "Encoding a complex vector, encrypting, computing and decrypting and decoding returns the slot-wise result: the vector itself, sums, products with a plaintext, products of two ciphertexts after relinearisation and rescaling, complex conjugates, and rotated slots, each within an explicit error, as long as the scaled values stay below half the modulus.",
  "all vectors, scales, ring degrees, modulus chains, keys and error samples within their bounds",
  "the error composes over all stages and depends on every sample; wrap-around depends on the magnitude of the values",
  CK+"encode.py: encode, decode", CK+"encrypt.py: Encrypt.encrypt, Decrypt.decrypt", CK+"add.py", CK+"mul.py: MulPlaintextCiphertextBarrett.mul, Mul.tensor_multiply, Mul.relinearize", CK+"rescale.py: Rescale.rescale", CK+"conjugate.py: Conjugation.conjugate", CK+"blind_rotate_utils.py: apply_automorphism_ntt")

p("The reference lazy reduction multiplies modulo p in a redundant form",
  "For every positive modulus p of t bytes and any batch of pairs of factors of at most t+2 bytes, lazy_reduction_via_matrix returns for each pair a number congruent to the product modulo p and below 65536*p, which again has at most t+2 bytes, so products can be chained without limit; batches of different sizes and a zero modulus raise.",
  "all moduli up to 252 bytes, batch sizes, factors and chains of products",
  "the reduction leaves a redundant remainder whose size depends on every byte of the product",
  EC+"algorithm/lazy_reduction.py: byte_len, chunk_decomposition, lazy_reduction_via_matrix")
p("The gadget matrix inverts the gadget decomposition",
  "Applying inverse_gadget to a vector and then the gadget matrix gives the vector back up to the precision of the last level, and exactly when base^levels is 2^total_bit_length and the entries are multiples of base^-levels; parameters whose base^levels does not divide 2^total_bit_length are rejected.",
  "all vectors of float32 entries between 0 and 1/2, all bases, level counts and total bit lengths up to 32",
  "the digits depend on all 32 bits of the scaled entry, for every base and level count",
  CG+"decomposition.py: gadget_matrix, inverse_gadget")
p("The reference residue-number product reduces correctly",
  "For any target size, find_moduli returns pairwise coprime moduli of at most 16 bits with their offsets; with them, rns_coefficients_precompute builds its constants for any modulus q, and rns_mod_reduce maps any two batches of residue vectors to integers congruent to the products modulo q and below 1020*n*q, as long as the products leave the slack of the quotient estimate; in the script's configuration this covers all pairs of 377-bit field elements. The function works only where the global moduli_precision is defined.",
  "all targets whose offsets fit a byte (at most 58 moduli), all moduli q, batch sizes and integers in the range",
  "the quotient estimate is a rounded floating-point sum over every byte of every residue, and must never be off by one",
  EC+"algorithm/rns_mod_reduce.py: find_moduli, hardware_friendly_mod_reduce, rns_coefficients_precompute, rns_mod_reduce, rns_reconstruct")

p("A whole Boolean session works from the random sources up",
  "Generating client keys and server keys from random sources, encrypting any list of bits, evaluating any circuit and decrypting every wire raises nothing and returns the cleartext values, whichever source objects are used and shared, in whatever state they are, as long as they return arrays of the requested shape with 32-bit masks, binary keys and bounded noise and the noise bounds fit the parameters; every source class of the library meets that contract; with the test parameters noise up to 10 is enough room. Each key, mask and noise array is drawn exactly once, from the source of its role, so no randomness is used twice.",
  "all sources and their states, all parameter sets, platforms, circuits and inputs within the noise bounds",
  "the result depends on every drawn value, on the shapes and order of the draws and on the sharing of generator state",
  BO+"jaxite_bool.py: ClientKeySet, ServerKeySet, encrypt, decrypt", BO+"bool_params.py: get_rng_for_test", CG+"lwe.py: gen_key, encrypt", CG+"rlwe.py: gen_key", CG+"rgsw.py: key_from_rlwe", CG+"bootstrap.py: gen_bootstrapping_key", CG+"key_switch.py: gen_key", CG+"random_source.py")

p("CKKS keys and ciphertexts from random sources decrypt",
  "Generating a key pair from a random source, with a dense or a sparse secret of any weight up to the degree, and then encoding, encrypting and decrypting any sequence of messages, each at any level, returns every message up to noise of at most (2n+1)B, whichever source objects are used and in whatever state; every source class of the library meets the contract, and with the noiseless test source messages come back exactly. Every polynomial is drawn once: three for the keys and three fresh ones per encryption; a sparse secret has exactly the requested number of ones and a larger weight than the degree raises.",
  "all sources and states, ring degrees, prime chains, weights, sequences of messages and levels",
  "the histories of draws are unbounded and every drawn coefficient enters the noise",
  CK+"random.py: SecureRandomSource, ZeroNoiseRandomSource, TestRandomSource", CK+"key_gen.py: keygen", CK+"encrypt.py: Encrypt.encrypt, Decrypt.decrypt")

p("Big integer objects compute with the integers they hold",
  "Every expression over big integer objects and ints, with + - * / (floor division) % ** << >> and &, returns an object holding the integer value, and raises exactly when the value does not exist (division by zero, negative exponent or shift); comparisons agree with the order of the integers, whichever side is an int; the rounded-up logarithm is the integer logarithm; and field elements can be built from ints and objects alike.",
  "all expressions and integers, all constructors' arguments that are ints or objects",
  "expressions and integers are unbounded, and dispatch depends on the type of each operand",
  EC+"algorithm/big_integer.py: GMPBigInteger", EC+"algorithm/finite_field.py: FiniteFieldElement, FiniteFieldElementBarrett, FiniteFieldElementMontgomery")

p("CKKS objects survive transformations of the array library",
  "Any nesting of lists, tuples, ciphertexts, keys and kernels can be taken apart into arrays and rebuilt by jit, vmap, scan and tree_map: with the same arrays the same object comes back, with other arrays the object holding those arrays, its configuration and derived attributes unchanged and its structure the same; with placeholders instead of arrays it can be rebuilt too; and an operation that works on concrete objects works on traced ones.",
  "all objects of the registered classes, all nestings and all replacements of the arrays",
  "objects nest without bound and every attribute of every class must be put back in its place",
  CK+"types.py", CK+"barrett.py: BarrettConstants", CK+"add.py", CK+"mul.py: Mul, EvaluationKeys", CK+"ntt.py", CK+"basis_conversion.py", CK+"key_switching.py: KeySwitcher", CK+"conjugate.py: Conjugation", CK+"rescale.py: Rescale", CK+"blind_rotate.py: BlindRotation")

p("The noise of a plaintext can be read back",
  "For every valid EncodingParameters, every cleartext accepted by encode and every integer e within half an error window, extract_noise(encode(m) + e) = e as a signed integer.",
  "all parameter triples up to 32 bits, all messages, all noises in the window",
  "the sign bit, the rounding and the wraparound interact only at particular messages and noises out of 2^32",
  CG+"encoding.py: extract_noise, remove_noise, encode")

p("Parameters that pass the modulus switch check do not lose messages",
  "If assert_safe_modulus_switch(mod_degree, message_bits, lwe_dimension) passes, then switching the modulus of a ciphertext of that dimension to 2 * mod_degree moves its phase by at most half a message unit, so a noiseless ciphertext still decodes to its message.",
  "all degrees, message lengths and dimensions, all ciphertexts and binary keys",
  "the rounding errors of all samples must line up, which random ciphertexts practically never do",
  CG+"test_utils.py: assert_safe_modulus_switch", CG+"lwe.py: switch_modulus")

p("The consistency checker compares all values of a name and nothing else",
  "After any sequence of store calls, check(asserter) passes exactly when the asserter accepts every two values stored under the same name, the earlier one as its first argument; without an asserter it raises.",
  "all histories of store calls, all names and values, all asserters",
  "histories are unbounded and names interleave arbitrarily",
  CG+"test_utils.py: ConsistencyChecker")

p("Observing a bootstrap does not change it",
  "bootstrap returns the same ciphertext with and without a callback that does not raise; the callback sees the input, the switched ciphertext, the rotated polynomial, the extracted ciphertext and the result, in this order; and MidBootstrapDecrypter reports no DECRYPTION_FAILURE exactly when the message survives the modulus switch and the extracted ciphertext and the result decode to the table's image of the starting message; and when the input is inside its noise window and the noise bootstrap adds is below half a message unit, it reports none.",
  "all ciphertexts, keys, parameters, tables with an entry for every message, and callbacks",
  "the report must be right on the inputs that fail, which tests with working parameters do not produce",
  CG+"bootstrap.py: bootstrap", CG+"test_utils.py: MidBootstrapDecrypter")

out = os.path.join(os.path.dirname(os.path.abspath(__file__)), "..", "properties.jsonl")
with open(out, "w") as f:
    for x in P:
        f.write(json.dumps(x) + "\n")
print(len(P))
