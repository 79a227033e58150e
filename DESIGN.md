# Design: a machine-checked model of google/jaxite

The model is written in Rocq (Coq 8.16.1), standard library only.  `/repo` is read as text; nothing of it is run.

## Layout

* `rocq/theories/Base/*` – mathematics with no reference to the code (finite sums over `Z`, congruence, the ring
  `Z[X]/(X^N+1)` presented as antiperiodic functions, positional digits, bits).
* `rocq/theories/<Pkg>/Model_*.v` – the code, function by function, no proofs.  Each definition cites file:lines.
* `rocq/theories/<Pkg>/Spec_*.v` – small independent specifications used by theorem statements.
* `rocq/theories/<Pkg>/Proof_*.v` – lemmas.
* `rocq/theories/<Pkg>/Prop_*.v` – the property theorems, closed by `exact`, each with an `Example` showing that its
  hypotheses are met by a concrete non-trivial case, and `Print Assumptions`.

`<Pkg>` is `Bool`, `Cggi`, `Ckks`, `Ec`.  `INDEX.md` lists the refuted and the partial theorems by name (tools/gen_index.py).

## Modelling conventions

* A `uint32` array is a `list Z` of words in `[0,2^32)`; every arithmetic operation whose result the code keeps in 32
  (16, 8, 64) bits is written with an explicit `mod 2^32` (`mod 2^16`, ...).  Python integers are `Z`, unbounded.
* A shift by at least the word width gives 0 (XLA semantics).
* `raise ValueError` / failed `assert` is the value `None` (or `Err`); totalised defaults (`nth _ _ 0`) are used only
  under hypotheses that keep the index in range, or behind an explicit length check.
* `jit`, `vmap`, `named_call`, sharding and device placement are identities on values; `vmap` is `map`;
  `lax.scan`/`fori_loop` is a fold; `lax.while_loop` is fuel-bounded iteration with a proof that the fuel suffices.
* Randomness is an argument: every draw from a RandomSource is universally quantified, with a bound where the theorem
  needs one.
* Floating point appears in few places (CKKS encoding, `inverse_gadget`, float division in constants).  Integer/integer
  true division is modelled exactly as correctly rounded binary64; the CKKS embedding is modelled in exact arithmetic.

## Plan per property

| id | what is modelled | how it is proved |
|----|------------------|------------------|
| C01 | encoding.py over `Z` with 32-bit wraps | arithmetic: rounding to a multiple of 2^e is inverted by window errors |
| C02, C03 | lwe.py; ciphertext = mask ++ [b] | linear algebra modulo 2^log by induction on vectors |
| C04 | switch_modulus, integer_div | per-coordinate rounding error bound, summed by induction on the key |
| C05 | key_switch.gen_key with universally quantified randomness, jit_switch_key | sum rearrangement + digit bounds (C06) |
| C06, C07 | decompose, signed_decomposition as folds over levels | positional-digit lemmas by induction on levels; refutations by computation for the false clauses of C07 |
| C08, C09 | each multiplication path on lists | all equal the antiperiodic convolution `negmul`; byte splitting by distributivity |
| C10, C11, C12, C13 | rlwe.py, rgsw.py, bootstrap.py | phase algebra in Z[X]/(X^N+1) modulo 2^32; induction on the LWE dimension for blind rotation |
| C14 | gen_test_polynomial, _pad_for_error | index arithmetic on blocks |
| C15 | bootstrap as the composition | composition of C04, C05, C12, C13, C14 with explicit noise budget |
| C16, C17 | jaxite_bool gates; circuits as an inductive type | case analysis on tables + C15; induction on circuits with the noise invariant |
| C18, C19 | lut.py, cache as a state machine | bit lemmas; invariant over request histories |
| C20 | type_converters.py | induction; refutation for bit_slice_to_bytes |
| C21 | regrouping as list functions | list lemmas |
| C22 | the 128-bit parameters | refutation: explicit ciphertext/key whose modulus switch leaves the window; conditional theorem instead |
| C23, C24 | barrett.py, add.py with binary64 constant | interval arithmetic; refutations for the boundary cases |
| C25-C28 | bit reversal, NTTs | induction on log n; evaluation semantics |
| C29 | BAT matmul | byte decomposition + accumulator bounds |
| C30, C34, C35 | CRT, basis conversion, rescale | coprimality + sums; refutation for rescale with a large last prime |
| C31-C33, C36-C38 | RNS polynomials, keygen, encrypt, key switching | ring algebra per prime |
| C39 | fft_special, fft_special_inv, encode, decode over exact complex numbers (pairs of reals) | stage invariant: partial evaluations at the powers of 5; each stage pair is twice the identity; rounding error bound by the triangle inequality |
| C40 | math.py | order arguments |
| C41 | compute_control_indices | list partition lemmas |
| C42 | key_gen.gen_hmuxrot_key, gen_mux_rotation_key, gen_cm_keys, blind_rotate.hmuxrot, brot_mux, brot_cm | one step from the key-switch equation (both key halves at once), composition by induction on the bits with the algebra of automorphisms (Proof_autocomp); column method: the 64-bit sum cannot wrap, the slots of the sum are the sum of products (Prop_column), and gen_cm_keys encrypts the identity at the scale (Prop_cmkeys) |
| C43-C46 | util.py, finite_field.py on chunk lists | positional-digit lemmas; carry loop invariant + termination measure |
| C47, C48 | RNS reduction | approximate-quotient argument; refutation for zero residues |
| C49 | reference field classes; the floating-point default of k as a relation (Ec/Model_reflog.v) | modular arithmetic; refutations for `>`, copy(0) and the default k (the witness prime by a certificate, Ec/Prime110.v from tools/gen_prime110.py) |
| C50-C52 | formulas over an arbitrary field | `field`/`ring` over an abstract field |
| C53 | accelerated formulas | range invariant + congruence |
| C54, C55 | Pippenger over an abstract abelian group; signed digits; the whole run on BLS12-377 (`Model_msm377`: twist, pack, buckets, unpack, convert) | induction on scalars, windows, buckets; the twist is an injective homomorphism with no exceptional sum on groups without an element of order two (`Proof_twistgroup`); refutation for the XYZZ variant's missing cases |
| C56 | the high-precision matrix products, the chunk and re-chunk loops and the column projections on lists of bytes | tier argument: three rounds bring every column below 2^32; byte sums by exchange of summation; refutations for x64 off, 64-bit overflow and the jax variant |
| C57 | sources as state machines S -> Z * S; arrays as row-major lists | induction on the draws and on the history of calls |
| C58 | composition of the models of C27, C32, C33, C35, C36 and C39; `Spec_slots.shows` is decrypt then decode | evaluation at the slot points is a ring morphism (sum, negacyclic product, automorphisms); no wrap-around while scaled values stay below half the modulus; triangle inequality |
| C59 | algorithm/lazy_reduction.py on integers, matmul wrapping at 2^32 | the bytes of the high half sum to it; each row is congruent to its power of 256; size bound from 256^(t-1) <= p |
| C60 | decomposition.gadget_matrix, inverse_gadget on dyadic numbers | block dot product with the telescoping digit sum of C06; round-to-nearest bound |
| C61 | algorithm/rns_mod_reduce.py, the whole script pipeline; float ceiling as correctly rounded binary64 | search invariant for the moduli; the fractions are v/m, so rounding never crosses an integer; the row computation equals the library's (C47); CRT |
| C62 | ClientKeySet, ServerKeySet and encrypt from RandomSource objects (Model_session.v): which arrays are drawn, in which order and shape, from which source | every draw of an honest source has the shape and range that key_setup (C16) asks for; then C16 and C17; each source class is honest by C57 |
| C63 | keygen and Encrypt.encrypt drawing from RandomSource objects (Ckks/Model_session.v), the source classes of random.py over any Python generator | the drawn arrays are residues of bounded integers, then C32 message by message; the draws by a recording source |
| C64 | GMPBigInteger's special methods with Python's operator dispatch over tagged values, the three field constructors (Ec/Model_bigint.v) | induction on the expression; constructors by unfolding to the elements of C49 |
| C65 | tree_flatten and tree_unflatten of the twenty registered classes over attribute records, jax.tree_util over them (Ckks/Model_pytree.v) | one lemma per class, then induction on the nesting |
| C66 | extract_noise of encoding.py | case analysis on the position of the encoding relative to 2^31 |
| C67 | assert_safe_modulus_switch of test_utils.py over exact numbers | witness with all rounding errors equal; the bound of C04 |
| C68 | ConsistencyChecker as an association list and an insertion order | induction on the history |
| C69 | bootstrap with its callback as a state transformer; MidBootstrapDecrypter.decrypt as such a callback | case analysis stage by stage; no false alarm from the noise bounds of C15 |

## Trusted base

* Coq 8.16.1's kernel (the files are also re-checked with `coqchk`), including its bytecode evaluator for the steps closed by `vm_compute`.
* `Print Assumptions` follows every property theorem.  The theorems about real and complex numbers (all of C39 and C58, and C42_cm_keys and C42_column_method_partial) print the standard
  library's axioms for the real numbers: `ClassicalDedekindReals.sig_forall_dec`, `ClassicalDedekindReals.sig_not_dec` and
  `FunctionalExtensionality.functional_extensionality_dep`.  Every other property theorem prints "Closed under the global context".
* Some files load standard-library modules that declare axioms, and `coqchk` lists them as present in the loaded libraries although no
  theorem of that file uses them: the real numbers (as above, with the `Rdefinitions` symbols) and
  `functional_extensionality_dep`, loaded by the `nsatz` tactic, and the `Under_rel` constants of `Coq.ssr.ssrunder`.  All are part of the
  standard library.  None is ours.
* The reading of the Python source that the model encodes, and of the JAX/NumPy operations it calls (the conventions above): integer wrap
  around, shifts, gather clamping, `jnp.array` range errors, `int / int` as correctly rounded binary64, einsum and dot as exact sums in
  the accumulator type.  The comment of each model definition gives the lines it was read from and what is simplified.
* `p377`, the 377-bit base field modulus, is proved prime (`Ec/Prime377.v`, generated by `tools/gen_prime377.py`; a Brillhart-Lehmer-Selfridge certificate checked by the kernel, theory in `Base/Pocklington.v`), so the group-law theorems for the shipped curves have no primality hypothesis.

## What is modelled

`tools/coverage.py` compares the line ranges cited in the model's comments with the functions of `/repo`.

| source | model | not modelled |
|--------|-------|--------------|
| jaxite_bool/{jaxite_bool,bool_encoding,bool_params,lut,type_converters} | Bool/Model_bool, Model_lut, Model_type_converters | the contents of the random streams, printing, hashing |
| jaxite_cggi/{encoding,lwe,rlwe,rgsw,decomposition,key_switch,test_polynomial,bootstrap,polymul_kernel,jax_helpers} | Cggi/Model_* | printing; tree plumbing; Pallas block scheduling (a kernel is the composition of its block computations); timing |
| jaxite_cggi/matrix_utils | Cggi/Model_matrix_utils | see C56 for the high-precision products |
| jaxite_cggi/random_source | randomness is a universally quantified argument; see C57 for the deterministic sources | the entropy of the system source |
| jaxite_ckks/{add,barrett,bat_utils,basis_conversion,ntt,ntt_cpu,math,rns,rns_utils,types,random,key_gen,encrypt,key_switching,mul,rescale,conjugate,blind_rotate,blind_rotate_utils} | Ckks/Model_* | pytree flattening, jit caching, sharding |
| jaxite_ckks/encode | Ckks/Model_encode, Ckks/Model_fft: the embedding in exact arithmetic | binary64 rounding inside the FFT, in the scaling and in the float remainder above 2^53 |
| jaxite_ec/{util,finite_field,elliptic_curve,pippenger} | Ec/Model_util, points, field, field_rns, accel, accel_rns, pippenger, msm377 | profiling; input files |
| jaxite_ec/algorithm/{elliptic_curve,finite_field,big_integer,lazy_reduction,rns_mod_reduce} | Ec/Model_curve, Model_reffield, Model_lazyref, Model_rnsref | GMP internals (big integers are `Z`) |

## Findings

Each is a theorem with a concrete witness (`*_refuted`), or follows from the exact characterisation named.

| id | what a user would see |
|----|-----------------------|
| C01 | the test-polynomial range bound is off by one |
| C07 | digits reach +base/2; the truncation error exceeds half a unit; base lengths that do not divide 32 do not recompose |
| C08 | the BAT kernel silently needs 18 rows; digits above 256 are rounded by the bfloat16 kernel |
| C15 | two padding bits break programmable bootstrapping |
| C11 | the coefficient modulus is a uint32 power: a 32-bit ciphertext reports 0, and cmux takes all moduli from 2^32 up for equal |
| C18 | the table named "cmux" claims two inputs |
| C20 | bytes with bit 7 set, bit lists whose length is not a multiple of 8, and out-of-range integers are converted wrongly instead of being rejected |
| C21 | pmap_lut2/3 fail with more inputs than devices |
| C22 | with the 128-bit parameters some ciphertexts leave their slot after modulus switching |
| C23 | the Barrett constant computed through binary64 is wrong for some primes (2^29+2^15+1): reductions are off by the modulus |
| C24 | add_modular_barrett's documented input range is too wide |
| C26 | degree 1 passes the checks and then fails |
| C27 | the two NTTs may use different roots |
| C28 | moduli below 1020*max(rows, columns) overflow (97 with a 4x4 layout) |
| C29 | inner dimensions above 16512 overflow the 32-bit accumulator |
| C31 | a polynomial in NTT form sent through to_jnp_array and gen_rns_polynomial_from_jnp_array with its default flag comes back as a different polynomial |
| C33 | plaintext products are wrong for moduli with a wrong Barrett constant; the Simple product wraps for uint32 inputs |
| C34 | basis conversion is wrong for two 30-bit primes |
| C35 | rescaling is wrong when a later prime exceeds about twice an earlier one (a negative number is cast to uint64) |
| C36 | a digit count that leaves an empty digit has no key switcher |
| C37 | even automorphism indices are accepted |
| C38 | the ternary sampler never produces -1 as a small negative; the extension treats q-1 as a large positive |
| C39 | encode accepts more than degree/2 slots and returns a plaintext of a larger degree that decodes to other values; decode defaults to is_slot_form=False, while encode returns slot form, so decode(encode(x)) with the defaults returns other values |
| C40 | order 1 is rejected |
| C42 | keys for bit 1 cannot be generated when the auxiliary product reaches 2^64; the default number of rescalings is too small for several auxiliary primes; gen_cm_keys ignores the values of the indices it is given; hmuxrot with two digits multiplies both by the one part of its selection key, so rotating by 0 doubles the message |
| C43 | negative integers become zero; a single point packed in another base than 16 is unpacked as another point |
| C44 | subtraction is wrong when the top chunk of the difference is 0xFFFF; an overflowing addition (also in carry_add) wraps into the lowest chunk; comparison of 32 chunks or more is rejected |
| C45 | operands of 384 bits that are not reduced are accepted and reduced wrongly |
| C48 | negation of zero gives -65536; the zero check is wrong when only the word of the modulus 2^16 is zero; 255 negated operands overflow |
| C49 | copy(0) copies the old value; x/0 = 0; Barrett and Montgomery sums may equal the modulus; Montgomery ** is neither the power nor its Montgomery form; the default k, math.ceil(math.log2(prime)), is one too small for primes just above a power of two, and a Montgomery product then leaves [0, p] |
| C50 | equal x coordinates or points of order two give ZZ = 0 without the zero flag |
| C51 | mixed addition with equal x gives z = 0; the complete formulas give z = 0 for opposite points; the affine class never returns a sum |
| C52 | incompleteness when d is a square; exceptional points become the identity; a flagged identity cannot be converted back; twist_projective is wrong for z other than 1 |
| C53 | doubling the identity in residue form does not give the identity; adding two curve points (x = 341 and x = 397, exact affine inputs) in residue form gives a wrong point, because a product whose word for the modulus 2^16 is zero is negated word by word with a zero check |
| C54 | a sum equal to the neutral element is returned as the affine point (-1, 0); a second run on the same object adds to the first; XYZZ method: a window that is zero everywhere or a repeated point gives ZZ = 0 |
| C55 | some scalars below half the range are rejected; one-bit slices reject every non-zero scalar |
| C56 | with x64 off (the default of jaxite_cggi) hpmatmul_bat_adapt is wrong; two full-precision products overflow the outer-product form; smul_as_dense_gemv_bat_jax counts a projection twice. The three hpmatmul tests are module-level functions in an absltest file, so the test runner does not collect them |
| C57 | the default bounds (0, 2^32 - 1) raise for int32 arrays |
| C59 | factors of more than t+2 bytes are truncated without an error |
| C60 | with base^levels below 2^total the recomposed vector is wrong (1/2 comes back as 0), not approximate as documented |
| C61 | rns_mod_reduce raises NameError for every input when imported (its precision variable is set only under `__main__`); offsets above 255, which find_moduli returns for targets beyond 58 moduli, break hardware_friendly_mod_reduce |
| C64 | `3 + BigInt(4)` and every other operator with an int on the left raise TypeError; `ceil_log2` raises for every value, so `FiniteFieldElementBarrett(v, BigInt(p))` and `FiniteFieldElementMontgomery(v, BigInt(p))` always raise while an int p works |
| C65 | rebuilding AddModularSubtract with placeholder leaves (vmap with the kernel as an argument) raises, because tree_unflatten runs the constructor; the plaintext products call `moduli.tolist()` on a pytree child, so they raise when their operands are traced; a Mul taken apart before precompute_constants loses its injected kernels |
| C66 | without padding, a message encoded as 2^31 with a negative noise is reported to have that noise plus 2^32 |
| C67 | assert_safe_modulus_switch bounds the typical error, not the worst one: it passes for degree 64, 3 message bits, dimension 15, where a noiseless encryption of 0 decodes to another message after the switch |
