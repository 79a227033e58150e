{"id": "C01", "title": "Message encoding survives every admissible error", "statement": "For every valid EncodingParameters and every cleartext accepted by encode, decode(encode(m) + e) = m for every integer error e of magnitude strictly below half an error window (2^(error_bits-1)); encode rejects exactly the cleartexts outside [0, 2^message_bits) (or the documented test-polynomial range).", "quantifier": "all parameter triples (total, message, padding bits) accepted by EncodingParameters, all cleartexts, all errors in the window", "why_tests_cant": "2^28 errors times 8 messages times all parameter choices; the boundary value of the window decides", "anchors": ["jaxite/jaxite_cggi/encoding.py: EncodingParameters, encode, decode, remove_noise, round_to_power_of_2, extract_noise"]}
{"id": "C02", "title": "LWE encryption decrypts to the encoded message", "statement": "For every binary (indeed every) key, every mask vector and every noise value, decrypt_without_denoising(encrypt(m)) = encode(m)+noise modulo 2^log_modulus, and decrypt returns the encoding of m when the noise is inside the error window; a noiseless embedding decrypts to its message under every key.", "quantifier": "all keys, masks, noise values, messages, LWE dimensions and moduli 2^1..2^32", "why_tests_cant": "keys and masks are random vectors of 800 32-bit words", "anchors": ["jaxite/jaxite_cggi/lwe.py: encrypt, decrypt, decrypt_without_denoising, noiseless_embedding", "jaxite/jaxite_cggi/encoding.py"]}
{"id": "C03", "title": "LWE ciphertexts are additively homomorphic", "statement": "For every key and any ciphertexts, the phase (decryption before rounding) of an integer linear combination of ciphertexts computed with wrapping 32-bit arithmetic is the same combination of the phases modulo 2^32; the noise of the result is bounded by the weighted sum of the noises.", "quantifier": "all keys, ciphertexts, coefficients and lengths of the combination", "why_tests_cant": "wrap-around must be harmless for every ciphertext value, including the ones tests do not sample", "anchors": ["jaxite/jaxite_cggi/lwe.py: LweCiphertext", "jaxite/jaxite_bool/jaxite_bool.py: not_, and_, lut2, lut3"]}
{"id": "C04", "title": "Modulus switching rounds the phase with bounded error", "statement": "switch_modulus from 2^a to 2^b (b<a) changes the scaled phase, for every binary key, by at most (n+1)/2 units of the small modulus, for every LWE dimension n and every ciphertext; every output word is below 2^b.", "quantifier": "all ciphertexts, all binary keys, all dimensions, all modulus pairs", "why_tests_cant": "the worst case is a specific ciphertext/key alignment that random tests never hit", "anchors": ["jaxite/jaxite_cggi/lwe.py: switch_modulus", "jaxite/jaxite_cggi/matrix_utils.py: integer_div", "jaxite/jaxite_cggi/test_utils.py: assert_safe_modulus_switch"]}
{"id": "C05", "title": "LWE key switching preserves the message", "statement": "For every input key, output key, key-switching key generated by gen_key with any randomness and any ciphertext, decrypting the switched ciphertext under the output key gives the phase under the input key plus an error no larger than (decomposition error) + (number of digits * max digit * max key-switching noise); with a full-precision decomposition the first term is zero.", "quantifier": "all ciphertexts, both keys, all randomness of the key-switching key, all decomposition parameters dividing the word size", "why_tests_cant": "the key-switching key is a 3-dimensional array of random words; only the algebra bounds the error for all of them", "anchors": ["jaxite/jaxite_cggi/key_switch.py: gen_key, switch_key, jit_switch_key", "jaxite/jaxite_cggi/decomposition.py: decompose, recompose"]}
{"id": "C06", "title": "Unsigned gadget decomposition recomposes with bounded truncation error", "statement": "decompose returns num_levels digits in [0, base); recompose(decompose(x)) differs from x by less than one unit of the last kept level, and equals x when all bits are kept.", "quantifier": "all 32-bit words, all base/level parameters", "why_tests_cant": "2^32 words times all parameters", "anchors": ["jaxite/jaxite_cggi/decomposition.py: decompose, recomposition_summands, recompose"]}
{"id": "C07", "title": "Signed gadget decomposition is a correct signed representation", "statement": "signed_decomposition returns digits whose weighted sum is congruent to x modulo 2^total_bits when all levels are kept, each digit lies in [-base/2, base/2) and truncating to num_levels leaves an error of at most half a unit of the last kept level.", "quantifier": "all words and all base/level parameters", "why_tests_cant": "carry chains of arbitrary length matter; the failing words are rare (a digit base-1 receiving a carry)", "anchors": ["jaxite/jaxite_cggi/decomposition.py: signed_decomposition, decompose_rlwe_ciphertext, gadget_matrix"]}
{"id": "C08", "title": "All polynomial multiplication paths compute the negacyclic product", "statement": "poly_mul / toeplitz_poly_mul / the kernelised toeplitz path / poly_dot_product / the vector-matrix kernels (byte-split integer matmul, BAT layout, XLA fallback) all return, for every pair of polynomials of every degree bound N, the coefficients of the product in Z[X]/(X^N+1) reduced modulo 2^32; the accelerator's bfloat16 kernel does so for every vector of gadget digits below its exact-integer bound, and the BAT layout for every matrix of its 18-row grid.", "quantifier": "all N, all coefficient vectors, all vector and matrix sizes accepted by the kernels", "why_tests_cant": "each path re-orders, splits into bytes and re-accumulates with wrap-around; agreement on samples does not exclude an accumulator overflow", "anchors": ["jaxite/jaxite_cggi/matrix_utils.py: toeplitz, toeplitz_kernelized, toeplitz_poly_mul, poly_mul, poly_dot_product, i32_as_u8_matmul", "jaxite/jaxite_cggi/polymul_kernel.py: negacyclic_vector_matrix_polymul, fallback_vector_matrix_polymul, i32_matmul"]}
{"id": "C09", "title": "Monomial multiplication is rotation with sign", "statement": "monomial_mul(p, d) is the product of p by X^d in Z[X]/(X^N+1) modulo 2^log_modulus for every integer d including negative and beyond 2N, and scale_by_x_power_n_minus_1(d, M) is the entrywise product by X^d - 1.", "quantifier": "all polynomials, all N, all integer exponents", "why_tests_cant": "boundary exponents 0, N, 2N-1, negative exponents and their combination with every coefficient", "anchors": ["jaxite/jaxite_cggi/matrix_utils.py: monomial_mul, scale_by_x_power_n_minus_1, x_power_n_minus_1"]}
{"id": "C10", "title": "RLWE encryption decrypts to the encoded polynomial", "statement": "For every key, mask and noise polynomial, decrypting an RLWE encryption of p gives p + noise in Z_q[X]/(X^N+1); decryption of a trivial encryption returns the polynomial under every key; flattening the RLWE key gives the LWE key under which sample extraction decrypts.", "quantifier": "all keys, masks, noise polynomials, messages, N and RLWE dimensions", "why_tests_cant": "keys and masks are random polynomials; sizes are unbounded", "anchors": ["jaxite/jaxite_cggi/rlwe.py: encrypt, decrypt, flatten_key, trivial_encryption", "jaxite/jaxite_cggi/test_polynomial.py: trivial_encryption"]}
{"id": "C11", "title": "RGSW external product multiplies messages", "statement": "For every RGSW encryption of m in {0,1} under any randomness and every RLWE ciphertext, the external product decrypts to m times the phase of the ciphertext plus an error bounded by (k+1)*levels*N*maxdigit*noise (+ the gadget truncation term); cmux returns the branch selected by the bit up to that error.", "quantifier": "all keys, randomness, ciphertexts, bits, decomposition parameters with exact gadget", "why_tests_cant": "the bound is a worst case over all ciphertexts and randomness", "anchors": ["jaxite/jaxite_cggi/rgsw.py: encrypt, jit_encrypt, key_block", "jaxite/jaxite_cggi/bootstrap.py: external_product, cmux, jit_cmux"]}
{"id": "C12", "title": "Blind rotation rotates the accumulator by the encrypted phase", "statement": "With a bootstrapping key generated for any binary LWE key of even dimension (BMMP unrolling by two) and any LWE ciphertext over Z_{2N}, blind_rotate of a test polynomial decrypts to X^{-phase} times the test polynomial up to a noise bound proportional to n/2 external products; an odd dimension is rejected.", "quantifier": "all LWE keys, ciphertexts, bootstrapping-key randomness, test polynomials, even dimensions n and degrees N", "why_tests_cant": "induction over the LWE dimension; all 2^n keys", "anchors": ["jaxite/jaxite_cggi/bootstrap.py: gen_bootstrapping_key, blind_rotate, jit_blind_rotate"]}
{"id": "C13", "title": "Sample extraction reads the constant coefficient", "statement": "sample_extract of an RLWE ciphertext is an LWE ciphertext whose phase under the flattened RLWE key is the constant coefficient of the RLWE phase, for every ciphertext, key, degree and RLWE dimension.", "quantifier": "all ciphertexts, keys, N and RLWE dimensions", "why_tests_cant": "index/sign bookkeeping must be right for every coefficient", "anchors": ["jaxite/jaxite_cggi/bootstrap.py: sample_extract", "jaxite/jaxite_cggi/rlwe.py: flatten_key"]}
{"id": "C14", "title": "Test polynomial evaluates the look-up table at every phase", "statement": "gen_test_polynomial(f, N): for every message m and every phase within half a block of m's block in Z_{2N}, the constant coefficient of X^{-phase} * testpoly is the encoding of f[m]; list lengths that do not fit are rejected with ValueError.", "quantifier": "all look-up tables, messages, phases, N", "why_tests_cant": "the negacyclic wrap at block 0 (half of it is negated) is exercised only by negative errors", "anchors": ["jaxite/jaxite_cggi/test_polynomial.py: gen_test_polynomial, _pad_for_error, trivial_encryption"]}
{"id": "C15", "title": "Programmable bootstrapping is correct and resets noise", "statement": "For every key set and every randomness within stated bounds, bootstrap(ct, lut) decrypts to lut[m] whenever the phase of ct is within the error window of m, and the noise of the output is bounded by a constant independent of ct.", "quantifier": "all ciphertexts in the window, all keys, all randomness within bound, all look-up tables", "why_tests_cant": "composition of five stages each with worst-case noise; noise reset must hold for every input noise", "anchors": ["jaxite/jaxite_cggi/bootstrap.py: bootstrap, jit_bootstrap", "jaxite/jaxite_cggi/lwe.py: switch_modulus", "jaxite/jaxite_cggi/key_switch.py: switch_key"]}
{"id": "C16", "title": "Boolean gates compute their truth tables", "statement": "For encryptions of a, b (and c) with noise below the per-gate limit, and_, nand_, or_, nor_, xor_, xnor_, andny_, andyn_, orny_, oryn_, not_, lut1, lut2, lut3, cmux_ decrypt to the named Boolean function, and constant(b) decrypts to b under every key; lut1 rejects truth tables above 3.", "quantifier": "all keys, ciphertexts within noise limit, all truth tables, all Boolean inputs", "why_tests_cant": "argument order and table bit order mistakes are symmetric on many inputs; noise limits are worst case", "anchors": ["jaxite/jaxite_bool/jaxite_bool.py: and_ ... oryn_, not_, lut1, lut2, lut3, cmux_, constant", "jaxite/jaxite_bool/lut.py"]}
{"id": "C17", "title": "Arbitrary circuits decrypt to their cleartext value", "statement": "For every Boolean circuit built from the public gates, of any depth and fan-out, evaluating it on fresh encryptions and decrypting gives the circuit's cleartext value, for every randomness within the parameter set's bounds (test parameters).", "quantifier": "all circuits (unbounded depth), all inputs, all keys, all bounded randomness", "why_tests_cant": "circuits are unbounded; noise must not accumulate along any path", "anchors": ["jaxite/jaxite_bool/jaxite_bool.py", "jaxite/jaxite_bool/bool_params.py: get_params_for_test", "README.md: add_i8 example"]}
{"id": "C18", "title": "Look-up tables list the function in argument order", "statement": "LookUpTable(tt, n).as_cleartext_list()[i] is bit i of tt; from_callable(f) is the table whose entry for arguments (x_1..x_n) sits at index x_1..x_n read as a binary number with x_1 most significant; lut_by_name returns the named function's table and rejects unknown names; as_rlwe_test_polynomial pads with the unused encoding to 2^message_bits and rejects longer lists.", "quantifier": "all truth tables, arities, callables and names", "why_tests_cant": "all 2^(2^n) tables", "anchors": ["jaxite/jaxite_bool/lut.py: LookUpTable, from_callable, lut_by_name, lut_poly_by_name, as_rlwe_test_polynomial"]}
{"id": "C19", "title": "The LUT cache is transparent", "statement": "For every sequence of cache requests the cached look-up returns exactly what a fresh computation would return, whatever was requested before.", "quantifier": "all request histories", "why_tests_cant": "history-dependent state; tests exercise a handful of histories", "anchors": ["jaxite/jaxite_bool/lut.py: LutCache"]}
{"id": "C20", "title": "Type conversions round-trip", "statement": "uint/bit-slice, u8/bit-slice, u8-list/bit-slice, bytes/bit-slice and string/cleartext conversions are mutually inverse on their domain, and reject exactly the out-of-domain inputs.", "quantifier": "all integers, widths, byte lists, strings", "why_tests_cant": "all lengths and values; the failing bytes are the ones >= 128", "anchors": ["jaxite/jaxite_bool/type_converters.py"]}
{"id": "C21", "title": "Batched gate evaluation equals pointwise evaluation", "statement": "pmap_lut2 / pmap_lut3 return, for every list of inputs and whatever the number of devices, the list of the single-gate results in order, and batch_vmap(f, batch) equals vmap(f) for every batch size that it accepts.", "quantifier": "all list lengths, device counts, batch sizes and functions", "why_tests_cant": "padding and regrouping must be right for every length/devices combination", "anchors": ["jaxite/jaxite_bool/jaxite_bool.py: pmap_lut2, pmap_lut3", "jaxite/jaxite_cggi/jax_helpers.py: batch_vmap"]}
{"id": "C22", "title": "The 128-bit parameters leave room for every ciphertext", "statement": "With the 128-bit production parameters every two-input gate on ciphertexts with noise inside the window is correct for every mask and every binary key (no failure probability).", "quantifier": "all ciphertexts and keys for the production parameters", "why_tests_cant": "failure needs a specific key/mask alignment of tiny probability", "anchors": ["jaxite/jaxite_bool/bool_params.py: get_params_for_128_bit_security", "jaxite/jaxite_cggi/lwe.py: switch_modulus"]}
{"id": "C23", "title": "Barrett reduction returns the canonical residue", "statement": "modular_reduction(z, precompute_barrett_constants(m)) = z mod m for every modulus m accepted (m < 2^31) and every z < m^2.", "quantifier": "all moduli and all 64-bit products below m^2", "why_tests_cant": "2^62 products times 2^31 moduli; the float-rounded constant fails only for special moduli", "anchors": ["jaxite/jaxite_ckks/barrett.py: precompute_barrett_constants, modular_reduction"]}
{"id": "C24", "title": "Modular addition is exact", "statement": "AddModularBarrett and AddModularSubtract return (a+b) mod m coefficientwise for residues a,b < m; AddSimple never loses information when no overflow occurs.", "quantifier": "all moduli below 2^31, all residues, all shapes", "why_tests_cant": "boundary a+b = m and a+b >= 2^32", "anchors": ["jaxite/jaxite_ckks/add.py: AddSimple, AddModularBarrett, AddModularSubtract"]}
{"id": "C25", "title": "Bit reversal is an involutive permutation", "statement": "bit_reversal_array, get_bit_reverse_perm and _get_bit_reversal_perm describe, for every power of two size, the same permutation, which is its own inverse.", "quantifier": "all powers of two, all indices", "why_tests_cant": "unbounded sizes", "anchors": ["jaxite/jaxite_ckks/rns_utils.py: bit_reversal, bit_reversal_array", "jaxite/jaxite_ckks/math.py: get_bit_reverse_perm", "jaxite/jaxite_ckks/ntt_cpu.py: _get_bit_reversal_perm"]}
{"id": "C26", "title": "The reference NTT is an invertible ring homomorphism", "statement": "For every prime q = 1 mod 2n, every power of two n >= 2: Ntt.inverse(Ntt.forward(a)) = a mod q, forward evaluates the polynomial at the odd powers of the 2n-th root of unity in bit-reversed order, and pointwise products of transforms are transforms of negacyclic products.", "quantifier": "all n, q, coefficient vectors", "why_tests_cant": "in-place butterflies for every size; samples at a few sizes do not generalise", "anchors": ["jaxite/jaxite_ckks/rns.py: Ntt"]}
{"id": "C27", "title": "The CPU NTT agrees with the reference NTT", "statement": "ntt_negacyclic_poly / intt_negacyclic_poly are mutually inverse and give, for every power of two and every NTT prime, the evaluation at odd powers of the root in bit-reversed order.", "quantifier": "all n, q, coefficient vectors", "why_tests_cant": "as above, with scaling and permutation steps in a different order", "anchors": ["jaxite/jaxite_ckks/ntt_cpu.py: ntt_negacyclic_poly, intt_negacyclic_poly, ntt_cyclic_bit_reverse, intt_cyclic_bit_reverse"]}
{"id": "C28", "title": "The accelerator NTT agrees with the CPU NTT", "statement": "NTTBarrett.ntt / intt on a (rows x columns) layout with byte-split matrices return, for every factorisation N = R*C in powers of two and moduli below 2^31, the same values as ntt_negacyclic_poly / intt_negacyclic_poly and are mutually inverse.", "quantifier": "all R, C, moduli and coefficient arrays", "why_tests_cant": "three passes of byte-split matmuls with precomputed twiddles; no accumulator may overflow for any input", "anchors": ["jaxite/jaxite_ckks/ntt.py: NTTBarrett", "jaxite/jaxite_ckks/bat_utils.py: matmul_bat_einsum, basis_aligned_transformation", "jaxite/jaxite_ckks/math.py: gen_twiddle_matrix"]}
{"id": "C29", "title": "BAT matrix multiplication is the modular matrix product", "statement": "matmul_bat_einsum(lhs, basis_aligned_transformation(A, q)) is congruent to lhs times A modulo q, with no 32-bit accumulator overflow below the documented inner dimension.", "quantifier": "all matrices, moduli < 2^32, inner dimensions below the bound", "why_tests_cant": "byte planes and shifts for every value", "anchors": ["jaxite/jaxite_ckks/bat_utils.py", "jaxite/jaxite_cggi/matrix_utils.py: hpmatmul_offline_compile_bat, hpmatmul_bat_adapt"]}
{"id": "C30", "title": "CRT reconstruction inverts residue representation", "statement": "reconstruct_crt returns the unique value in [0,Q) with the given residues for pairwise coprime moduli; the centred lift recovers every integer of magnitude below Q/2.", "quantifier": "all moduli lists, all residues", "why_tests_cant": "unbounded number and size of moduli", "anchors": ["jaxite/jaxite_ckks/rns_utils.py: reconstruct_crt, compute_q_hat_inv_mod_q, inverse_mod", "jaxite/jaxite_ckks/encode.py: Decode.decode"]}
{"id": "C31", "title": "RnsPolynomial operations are the ring operations", "statement": "Adding, subtracting, negating and multiplying RnsPolynomials represents the corresponding operation of Z_Q[X]/(X^n+1) in either form; incompatible operands (moduli, degree, form) are rejected with ValueError; multiplication requires NTT form.", "quantifier": "all polynomials, moduli, degrees, mixtures of forms", "why_tests_cant": "the form flag interacts with every operation sequence", "anchors": ["jaxite/jaxite_ckks/rns.py: RnsPolynomial"]}
{"id": "C32", "title": "CKKS encryption decrypts to the plaintext plus small noise", "statement": "For every key generated by keygen and every randomness, decrypt(encrypt(m)) = m + v*e + e0 + e1*s in R_Q, hence within the corresponding coefficient bound of m; ciphertext and key moduli must match as a prefix, otherwise ValueError.", "quantifier": "all keys, randomness, plaintexts, degrees, moduli", "why_tests_cant": "randomness is unbounded; the identity must be exact for all of it", "anchors": ["jaxite/jaxite_ckks/encrypt.py: Encrypt.encrypt, Decrypt.decrypt", "jaxite/jaxite_ckks/key_gen.py: keygen"]}
{"id": "C33", "title": "Homomorphic addition and plaintext multiplication are correct", "statement": "Decrypting a sum of ciphertexts gives the sum of the decryptions modulo each q, and decrypting the product by a plaintext gives the product of the decryption with the plaintext, whichever implementation (simple, Barrett, subtract) is used.", "quantifier": "all ciphertexts, keys, plaintexts, moduli below 2^31", "why_tests_cant": "as above", "anchors": ["jaxite/jaxite_ckks/add.py", "jaxite/jaxite_ckks/mul.py: MulPlaintextCiphertextSimple, MulPlaintextCiphertextBarrett", "jaxite/jaxite_ckks/encrypt.py: Decrypt"]}
{"id": "C34", "title": "Fast basis conversion is exact up to a common multiple of Q", "statement": "basis_change maps residues of x in [0,Q) to residues of x + u*Q modulo every target prime with one common integer 0 <= u < number of source primes.", "quantifier": "all x, source and target bases", "why_tests_cant": "the same u must hold for every target prime, for every x", "anchors": ["jaxite/jaxite_ckks/basis_conversion.py: BasisConversionBarrett"]}
{"id": "C35", "title": "Rescaling divides by the last prime and rounds", "statement": "rescale maps the residues of x to the residues of the nearest integer to x/q_last (error at most 1/2) for every remaining prime, on every coefficient; calling it before precomputation is an error.", "quantifier": "all x in the ring, all prime chains", "why_tests_cant": "failing inputs need q_i < q_last/2 and large residues", "anchors": ["jaxite/jaxite_ckks/rescale.py: Rescale"]}
{"id": "C36", "title": "Key switching and relinearisation preserve the plaintext", "statement": "Decrypting a key-switched ciphertext under the new key gives P times (old key times the switched component) plus bounded noise; ciphertext-ciphertext multiplication followed by relinearisation decrypts to the product of the decryptions plus noise.", "quantifier": "all ciphertexts, keys, key-switching randomness, digit counts dnum", "why_tests_cant": "sum over digits of approximate base conversions; bound must hold for all", "anchors": ["jaxite/jaxite_ckks/key_switching.py: KeySwitcher", "jaxite/jaxite_ckks/key_gen.py: gen_key_switching_key, gen_evaluation_key", "jaxite/jaxite_ckks/mul.py: Mul"]}
{"id": "C37", "title": "Automorphisms in NTT form permute evaluation points", "statement": "apply_automorphism_ntt with odd g maps the transform of a(X) to the transform of a(X^g), and the conjugation's reversal is the case g = -1, for every power-of-two degree.", "quantifier": "all degrees, odd exponents, polynomials", "why_tests_cant": "index arithmetic on bit-reversed positions for every size", "anchors": ["jaxite/jaxite_ckks/blind_rotate_utils.py: apply_automorphism_ntt", "jaxite/jaxite_ckks/conjugate.py: Conjugation"]}
{"id": "C38", "title": "Secret key generation and extension are consistent", "statement": "extend_secret_key produces, for every extended modulus, the residues of the same integer polynomial as the original key, for every key the generator can produce; the ternary sampler returns coefficients in {-1,0,1} with both signs possible.", "quantifier": "all keys the generators can return, all moduli", "why_tests_cant": "a sign mistake shows only for keys with negative coefficients", "anchors": ["jaxite/jaxite_ckks/key_gen.py: extend_secret_key", "jaxite/jaxite_ckks/random.py: gen_ternary_poly, gen_sparse_binary"]}
{"id": "C39", "title": "Canonical embedding FFT round-trips", "statement": "fft_special(fft_special_inv(v)) = v and conversely for every power of two length over exact complex arithmetic, and Decode(Encode(v)) is v up to coefficient rounding at the given scale.", "quantifier": "all slot vectors and lengths", "why_tests_cant": "unbounded sizes; exactness is algebraic", "anchors": ["jaxite/jaxite_ckks/encode.py: fft_special, fft_special_inv, Encode, Decode"]}
{"id": "C40", "title": "Primitive roots are primitive", "statement": "root_of_unity(m, q) returns an element of order exactly m modulo a prime q with m | q-1 (and for powers of two the smallest such), and rejects m not dividing q-1.", "quantifier": "all primes q, all m", "why_tests_cant": "number-theoretic search over all q", "anchors": ["jaxite/jaxite_ckks/math.py: prime_factors, find_generator, root_of_unity", "jaxite/jaxite_ckks/rns.py: _primitive_root"]}
{"id": "C41", "title": "Plans and permutations of ciphertext multiplication are partitions", "statement": "compute_control_indices splits the moduli indices of every level into disjoint parts that cover all of them, in order, for every number of primes and dnum.", "quantifier": "all numbers of primes and digits", "why_tests_cant": "unbounded parameters; short last part and empty parts", "anchors": ["jaxite/jaxite_ckks/mul.py: Mul.compute_control_indices", "jaxite/jaxite_ckks/key_gen.py: gen_key_switching_key"]}
{"id": "C42", "title": "CKKS blind rotation selects the rotation named by the key bit", "statement": "hmuxrot with a key for bit b decrypts to the ciphertext unchanged (b=0) or to its automorphic image (b=1) up to key-switching noise, and brot_mux composes the selected rotations; the column method brot_cm with a row of gen_cm_keys decrypts to scale/P times the plaintext that row selects, up to a stated noise; parameter mismatches are rejected.", "quantifier": "all bits, ciphertexts, keys and exponent sequences", "why_tests_cant": "composition over unbounded sequences", "anchors": ["jaxite/jaxite_ckks/blind_rotate.py: BlindRotation", "jaxite/jaxite_ckks/key_gen.py: gen_hmuxrot_key, gen_cm_keys"]}
{"id": "C43", "title": "Chunk and RNS representations round-trip", "statement": "array_to_int(int_to_array(x)) = x for every integer that fits (larger ones are rejected) and RNS reconstruction inverts to_rns below the product of the moduli.", "quantifier": "all integers, bases, array sizes", "why_tests_cant": "unbounded integers", "anchors": ["jaxite_ec/util.py: int_to_array, array_to_int, to_rns, rns_reconstruct"]}
{"id": "C44", "title": "Chunked addition, subtraction and comparison are integer operations", "statement": "add_2u16, add_3u16 return the sum when it fits, sub_2u16 the difference when a >= b, compare_u16 the sign of a-b, and the carry loops terminate on every input.", "quantifier": "all chunk vectors of every length", "why_tests_cant": "carry chains of every length; termination of a while_loop", "anchors": ["jaxite_ec/finite_field.py: add_2u16, add_3u16, sub_2u16, compare_u16, carry_propagation, cond_sub_2u16, cond_sub_mod_u16"]}
{"id": "C45", "title": "Barrett modular multiplication of field elements is exact", "statement": "mod_mul_barrett_2u16(a,b) is the canonical residue a*b mod p for all field elements a,b < p of the 377-bit curve prime, with no intermediate overflow.", "quantifier": "all pairs of field elements (2^754)", "why_tests_cant": "the quotient estimate must be off by at most one for every product", "anchors": ["jaxite_ec/finite_field.py: mul_2u16, mul_shift_2u16x2x1, mod_mul_barrett_2u16, barrett_reduction_u16x2", "jaxite_ec/util.py: MU_377_INT"]}
{"id": "C46", "title": "Lazy modular multiplication is closed and congruent", "statement": "mod_mul_lazy_2u16 maps any two 400-bit inputs to an output below 2^400 congruent to the product modulo p, so chains of any length stay correct.", "quantifier": "all 25-chunk inputs", "why_tests_cant": "2^800 inputs, unbounded chains", "anchors": ["jaxite_ec/finite_field.py: mod_mul_lazy_2u16", "jaxite_ec/util.py: construct_lazy_matrix"]}
{"id": "C47", "title": "RNS modular multiplication is congruent modulo p", "statement": "mod_mul_rns_2u16 applied to residue vectors of x and y gives residues of a value congruent to x*y modulo p and below the documented bound, whenever x*y is below the stated fraction of the RNS range; word-size reductions never lose a carry.", "quantifier": "all residue vectors of admissible values", "why_tests_cant": "the approximate quotient is a rounding argument over all values", "anchors": ["jaxite_ec/finite_field.py: mod_red_rns_2u16, moduli_rns_red_internal_2u16, mod_mul_rns_2u16", "jaxite_ec/util.py: rns_coefficients_precompute"]}
{"id": "C48", "title": "RNS subtraction is correct for every operand", "statement": "add_sub_rns_var with negated operands returns residues of x - y + (multiple of p) for all admissible x, y.", "quantifier": "all residue vectors, including those with a zero residue", "why_tests_cant": "zero residues occur with probability 2^-16 per channel", "anchors": ["jaxite_ec/finite_field.py: negate_rns_for_var_add, negate_rns_for_var_add_zero_check, add_sub_rns_var"]}
{"id": "C49", "title": "Reference field classes implement the prime field", "statement": "FiniteFieldElement, ...Barrett and ...Montgomery agree with arithmetic modulo p: every operation returns the canonical representative, equality is equality of residues, exponentiation and division are correct, copy(v) has value v.", "quantifier": "all primes and residues", "why_tests_cant": "boundary a+b = p and copy(0) are single points in a huge domain", "anchors": ["jaxite_ec/algorithm/finite_field.py"]}
{"id": "C50", "title": "XYZZ point formulas implement the curve group law", "statement": "For points in XYZZ coordinates (zz^3 = zzz^2, non-zero) on the curve, add_general returns the affine chord sum whenever the x-coordinates differ, double_general the tangent double, convert_to_affine recovers affine coordinates, and results stay on the curve.", "quantifier": "all fields of characteristic not 2, all points", "why_tests_cant": "polynomial identities over every field", "anchors": ["jaxite_ec/algorithm/elliptic_curve.py: ECCSWeierstrassXYZZ", "jaxite_ec/elliptic_curve.py: padd_barret_xyzz, pdul_barret_xyzz"]}
{"id": "C51", "title": "Projective and affine formulas implement the curve group law", "statement": "The projective mixed and complete additions and doubling agree with the affine chord-and-tangent law after conversion, for every pair of points where they are used.", "quantifier": "all fields, all points", "why_tests_cant": "polynomial identities; exceptional cases", "anchors": ["jaxite_ec/algorithm/elliptic_curve.py: ECCSWeierstrassAffine, ECCSWeierstrassProjective"]}
{"id": "C52", "title": "Twisted Edwards formulas implement the unified law", "statement": "Extended-coordinates addition and doubling agree with the affine twisted Edwards law (a = -1), keep t = x*y/z, have [0,1,1,0] as identity, and twist/untwist are inverse birational maps where defined.", "quantifier": "all fields, all points with non-vanishing denominators", "why_tests_cant": "polynomial identities; exceptional points of the birational map", "anchors": ["jaxite_ec/algorithm/elliptic_curve.py: ECCSTwistedEdwardsExtended", "jaxite_ec/elliptic_curve.py: padd_lazy_twisted, pdul_lazy_twisted, pneg_lazy_twisted"]}
{"id": "C53", "title": "Accelerated point operations agree with the reference formulas", "statement": "padd/pdul with Barrett, lazy and RNS arithmetic return coordinates congruent modulo p to the reference formulas on congruent inputs, and stay within their input range so that they can be chained indefinitely.", "quantifier": "all coordinate chunk vectors in the admissible range, chains of any length", "why_tests_cant": "range closure is an invariant over unbounded chains", "anchors": ["jaxite_ec/elliptic_curve.py"]}
{"id": "C54", "title": "Pippenger MSM equals the sum of scalar multiples", "statement": "Running bucket accumulation, bucket reduction, (batch summation) and window merge on any list of scalars and points gives sum of scalar*point in the group, for every slice length, list length and parallelism.", "quantifier": "all scalar and point lists, slice lengths, parallel widths", "why_tests_cant": "lists are unbounded; empty buckets, repeated points and zero windows are corner cases", "anchors": ["jaxite_ec/pippenger.py: MSMPippenger, MSMPippengerTwisted", "jaxite_ec/pippenger_rns.py"]}
{"id": "C55", "title": "Signed-digit bucket selection represents the scalar", "statement": "construct_ba_selection_with_sign yields digits in range whose signed weighted sum is the scalar whenever its final carry assertion passes, and the assertion passes for every scalar below half the top window range.", "quantifier": "all scalars, slice lengths, window counts", "why_tests_cant": "carry chains across all windows", "anchors": ["jaxite_ec/pippenger.py: MSMPippengerTwistedSigned.construct_ba_selection_with_sign"]}
{"id": "C56", "title": "High-precision matrix products compute the integer product", "statement": "The outer-product and convolution forms return the product of two matrices of 32-bit words modulo the width of the result type, and compiling the left matrix for a modulus q up to 2^32, multiplying and reducing modulo q gives the product modulo q; the compilation ends for every word and modulus.", "quantifier": "all matrices of 32-bit words up to the inner dimension the accumulators allow, all moduli", "why_tests_cant": "the compilation loop ends after a data-dependent number of rounds; overflow depends on the dimension and on the entries", "anchors": ["jaxite/jaxite_cggi/matrix_utils.py: hpmatmul_conv_adapt_outer_product, hpmatmul_conv_adapt_conv, smul_as_dense_gemv_bat, hpmatmul_offline_compile_bat, hpmatmul_bat_adapt, hpmatmul_golden"]}
{"id": "C57", "title": "Random sources deliver their stream in order", "statement": "Every sequence of calls on one source object returns, array after array, one stretch of the underlying stream reduced into the unsigned dtype: nothing is skipped, repeated or rejected; secret keys are binary; a negative dimension raises before anything is drawn; the cyclic test source repeats a fixed binary string.", "quantifier": "all generators, shapes, dtypes and histories of calls", "why_tests_cant": "histories are unbounded", "anchors": ["jaxite/jaxite_cggi/random_source.py: _shape_generator, CycleRng, SystemRandomSource, PseudorandomSource, NormalOnlyRng, ConstantUniformRng, ZeroRng"]}
{"id": "C58", "title": "Encrypted arithmetic acts slot by slot on complex vectors", "statement": "Encoding a complex vector, encrypting, computing and decrypting and decoding returns the slot-wise result: the vector itself, sums, products with a plaintext, products of two ciphertexts after relinearisation and rescaling, complex conjugates, and rotated slots, each within an explicit error, as long as the scaled values stay below half the modulus.", "quantifier": "all vectors, scales, ring degrees, modulus chains, keys and error samples within their bounds", "why_tests_cant": "the error composes over all stages and depends on every sample; wrap-around depends on the magnitude of the values", "anchors": ["jaxite/jaxite_ckks/encode.py: encode, decode", "jaxite/jaxite_ckks/encrypt.py: Encrypt.encrypt, Decrypt.decrypt", "jaxite/jaxite_ckks/add.py", "jaxite/jaxite_ckks/mul.py: MulPlaintextCiphertextBarrett.mul, Mul.tensor_multiply, Mul.relinearize", "jaxite/jaxite_ckks/rescale.py: Rescale.rescale", "jaxite/jaxite_ckks/conjugate.py: Conjugation.conjugate", "jaxite/jaxite_ckks/blind_rotate_utils.py: apply_automorphism_ntt"]}
{"id": "C59", "title": "The reference lazy reduction multiplies modulo p in a redundant form", "statement": "For every positive modulus p of t bytes and any batch of pairs of factors of at most t+2 bytes, lazy_reduction_via_matrix returns for each pair a number congruent to the product modulo p and below 65536*p, which again has at most t+2 bytes, so products can be chained without limit; batches of different sizes and a zero modulus raise.", "quantifier": "all moduli up to 252 bytes, batch sizes, factors and chains of products", "why_tests_cant": "the reduction leaves a redundant remainder whose size depends on every byte of the product", "anchors": ["jaxite_ec/algorithm/lazy_reduction.py: byte_len, chunk_decomposition, lazy_reduction_via_matrix"]}
{"id": "C60", "title": "The gadget matrix inverts the gadget decomposition", "statement": "Applying inverse_gadget to a vector and then the gadget matrix gives the vector back up to the precision of the last level, and exactly when base^levels is 2^total_bit_length and the entries are multiples of base^-levels; parameters whose base^levels does not divide 2^total_bit_length are rejected.", "quantifier": "all vectors of float32 entries between 0 and 1/2, all bases, level counts and total bit lengths up to 32", "why_tests_cant": "the digits depend on all 32 bits of the scaled entry, for every base and level count", "anchors": ["jaxite/jaxite_cggi/decomposition.py: gadget_matrix, inverse_gadget"]}
{"id": "C61", "title": "The reference residue-number product reduces correctly", "statement": "For any target size, find_moduli returns pairwise coprime moduli of at most 16 bits with their offsets; with them, rns_coefficients_precompute builds its constants for any modulus q, and rns_mod_reduce maps any two batches of residue vectors to integers congruent to the products modulo q and below 1020*n*q, as long as the products leave the slack of the quotient estimate; in the script's configuration this covers all pairs of 377-bit field elements. The function works only where the global moduli_precision is defined.", "quantifier": "all targets whose offsets fit a byte (at most 58 moduli), all moduli q, batch sizes and integers in the range", "why_tests_cant": "the quotient estimate is a rounded floating-point sum over every byte of every residue, and must never be off by one", "anchors": ["jaxite_ec/algorithm/rns_mod_reduce.py: find_moduli, hardware_friendly_mod_reduce, rns_coefficients_precompute, rns_mod_reduce, rns_reconstruct"]}
{"id": "C62", "title": "A whole Boolean session works from the random sources up", "statement": "Generating client keys and server keys from random sources, encrypting any list of bits, evaluating any circuit and decrypting every wire raises nothing and returns the cleartext values, whichever source objects are used and shared, in whatever state they are, as long as they return arrays of the requested shape with 32-bit masks, binary keys and bounded noise and the noise bounds fit the parameters; every source class of the library meets that contract; with the test parameters noise up to 10 is enough room. Each key, mask and noise array is drawn exactly once, from the source of its role, so no randomness is used twice.", "quantifier": "all sources and their states, all parameter sets, platforms, circuits and inputs within the noise bounds", "why_tests_cant": "the result depends on every drawn value, on the shapes and order of the draws and on the sharing of generator state", "anchors": ["jaxite/jaxite_bool/jaxite_bool.py: ClientKeySet, ServerKeySet, encrypt, decrypt", "jaxite/jaxite_bool/bool_params.py: get_rng_for_test", "jaxite/jaxite_cggi/lwe.py: gen_key, encrypt", "jaxite/jaxite_cggi/rlwe.py: gen_key", "jaxite/jaxite_cggi/rgsw.py: key_from_rlwe", "jaxite/jaxite_cggi/bootstrap.py: gen_bootstrapping_key", "jaxite/jaxite_cggi/key_switch.py: gen_key", "jaxite/jaxite_cggi/random_source.py"]}
{"id": "C63", "title": "CKKS keys and ciphertexts from random sources decrypt", "statement": "Generating a key pair from a random source, with a dense or a sparse secret of any weight up to the degree, and then encoding, encrypting and decrypting any sequence of messages, each at any level, returns every message up to noise of at most (2n+1)B, whichever source objects are used and in whatever state; every source class of the library meets the contract, and with the noiseless test source messages come back exactly. Every polynomial is drawn once: three for the keys and three fresh ones per encryption; a sparse secret has exactly the requested number of ones and a larger weight than the degree raises.", "quantifier": "all sources and states, ring degrees, prime chains, weights, sequences of messages and levels", "why_tests_cant": "the histories of draws are unbounded and every drawn coefficient enters the noise", "anchors": ["jaxite/jaxite_ckks/random.py: SecureRandomSource, ZeroNoiseRandomSource, TestRandomSource", "jaxite/jaxite_ckks/key_gen.py: keygen", "jaxite/jaxite_ckks/encrypt.py: Encrypt.encrypt, Decrypt.decrypt"]}
{"id": "C64", "title": "Big integer objects compute with the integers they hold", "statement": "Every expression over big integer objects and ints, with + - * / (floor division) % ** << >> and &, returns an object holding the integer value, and raises exactly when the value does not exist (division by zero, negative exponent or shift); comparisons agree with the order of the integers, whichever side is an int; the rounded-up logarithm is the integer logarithm; and field elements can be built from ints and objects alike.", "quantifier": "all expressions and integers, all constructors' arguments that are ints or objects", "why_tests_cant": "expressions and integers are unbounded, and dispatch depends on the type of each operand", "anchors": ["jaxite_ec/algorithm/big_integer.py: GMPBigInteger", "jaxite_ec/algorithm/finite_field.py: FiniteFieldElement, FiniteFieldElementBarrett, FiniteFieldElementMontgomery"]}
{"id": "C65", "title": "CKKS objects survive transformations of the array library", "statement": "Any nesting of lists, tuples, ciphertexts, keys and kernels can be taken apart into arrays and rebuilt by jit, vmap, scan and tree_map: with the same arrays the same object comes back, with other arrays the object holding those arrays, its configuration and derived attributes unchanged and its structure the same; with placeholders instead of arrays it can be rebuilt too; and an operation that works on concrete objects works on traced ones.", "quantifier": "all objects of the registered classes, all nestings and all replacements of the arrays", "why_tests_cant": "objects nest without bound and every attribute of every class must be put back in its place", "anchors": ["jaxite/jaxite_ckks/types.py", "jaxite/jaxite_ckks/barrett.py: BarrettConstants", "jaxite/jaxite_ckks/add.py", "jaxite/jaxite_ckks/mul.py: Mul, EvaluationKeys", "jaxite/jaxite_ckks/ntt.py", "jaxite/jaxite_ckks/basis_conversion.py", "jaxite/jaxite_ckks/key_switching.py: KeySwitcher", "jaxite/jaxite_ckks/conjugate.py: Conjugation", "jaxite/jaxite_ckks/rescale.py: Rescale", "jaxite/jaxite_ckks/blind_rotate.py: BlindRotation"]}
{"id": "C66", "title": "The noise of a plaintext can be read back", "statement": "For every valid EncodingParameters, every cleartext accepted by encode and every integer e within half an error window, extract_noise(encode(m) + e) = e as a signed integer.", "quantifier": "all parameter triples up to 32 bits, all messages, all noises in the window", "why_tests_cant": "the sign bit, the rounding and the wraparound interact only at particular messages and noises out of 2^32", "anchors": ["jaxite/jaxite_cggi/encoding.py: extract_noise, remove_noise, encode"]}
{"id": "C67", "title": "Parameters that pass the modulus switch check do not lose messages", "statement": "If assert_safe_modulus_switch(mod_degree, message_bits, lwe_dimension) passes, then switching the modulus of a ciphertext of that dimension to 2 * mod_degree moves its phase by at most half a message unit, so a noiseless ciphertext still decodes to its message.", "quantifier": "all degrees, message lengths and dimensions, all ciphertexts and binary keys", "why_tests_cant": "the rounding errors of all samples must line up, which random ciphertexts practically never do", "anchors": ["jaxite/jaxite_cggi/test_utils.py: assert_safe_modulus_switch", "jaxite/jaxite_cggi/lwe.py: switch_modulus"]}
{"id": "C68", "title": "The consistency checker compares all values of a name and nothing else", "statement": "After any sequence of store calls, check(asserter) passes exactly when the asserter accepts every two values stored under the same name, the earlier one as its first argument; without an asserter it raises.", "quantifier": "all histories of store calls, all names and values, all asserters", "why_tests_cant": "histories are unbounded and names interleave arbitrarily", "anchors": ["jaxite/jaxite_cggi/test_utils.py: ConsistencyChecker"]}
{"id": "C69", "title": "Observing a bootstrap does not change it", "statement": "bootstrap returns the same ciphertext with and without a callback that does not raise; the callback sees the input, the switched ciphertext, the rotated polynomial, the extracted ciphertext and the result, in this order; and MidBootstrapDecrypter reports no DECRYPTION_FAILURE exactly when the message survives the modulus switch and the extracted ciphertext and the result decode to the table's image of the starting message; and when the input is inside its noise window and the noise bootstrap adds is below half a message unit, it reports none.", "quantifier": "all ciphertexts, keys, parameters, tables with an entry for every message, and callbacks", "why_tests_cant": "the report must be right on the inputs that fail, which tests with working parameters do not produce", "anchors": ["jaxite/jaxite_cggi/bootstrap.py: bootstrap", "jaxite/jaxite_cggi/test_utils.py: MidBootstrapDecrypter"]}
