-Q theories Verif

theories/Base/Bitrev.v
theories/Base/Bits.v
theories/Base/Cplx.v
theories/Base/Crt.v
theories/Base/Egcd.v
theories/Base/Fermat.v
theories/Base/Fp.v
theories/Base/FpNsatz.v
theories/Base/Lists.v
theories/Base/Modeq.v
theories/Base/Nega.v
theories/Base/Order.v
theories/Base/Pocklington.v
theories/Base/Powm.v
theories/Base/PrimeCheck.v
theories/Base/Word.v
theories/Base/ZSum.v
theories/Bool/Model_bool.v
theories/Bool/Model_lut.v
theories/Bool/Model_lutstr.v
theories/Bool/Model_session.v
theories/Bool/Model_type_converters.v
theories/Bool/Proof_lut.v
theories/Bool/Proof_type_converters.v
theories/Bool/Prop_batch.v
theories/Bool/Prop_circuit.v
theories/Bool/Prop_gates.v
theories/Bool/Prop_lut.v
theories/Bool/Prop_lutstr.v
theories/Bool/Prop_session.v
theories/Bool/Prop_type_converters.v
theories/Bool/Spec_bool.v
theories/Bool/Spec_circuit.v
theories/Bool/Spec_gates.v
theories/Bool/Spec_session.v
theories/Cggi/Model_batch.v
theories/Cggi/Model_bootstrap.v
theories/Cggi/Model_callback.v
theories/Cggi/Model_consistency.v
theories/Cggi/Model_decomposition.v
theories/Cggi/Model_encoding.v
theories/Cggi/Model_extprod.v
theories/Cggi/Model_gadget.v
theories/Cggi/Model_hpmatmul.v
theories/Cggi/Model_key_switch.v
theories/Cggi/Model_lwe.v
theories/Cggi/Model_matrix_utils.v
theories/Cggi/Model_modcheck.v
theories/Cggi/Model_polymul.v
theories/Cggi/Model_random_source.v
theories/Cggi/Model_rgsw.v
theories/Cggi/Model_rlwe.v
theories/Cggi/Model_test_polynomial.v
theories/Cggi/Proof_batch.v
theories/Cggi/Proof_blind_rotate.v
theories/Cggi/Proof_bootstrap.v
theories/Cggi/Proof_decomposition.v
theories/Cggi/Proof_encoding.v
theories/Cggi/Proof_hpmatmul.v
theories/Cggi/Proof_hpmatmul2.v
theories/Cggi/Proof_key_switch.v
theories/Cggi/Proof_lwe.v
theories/Cggi/Proof_matrix_utils.v
theories/Cggi/Proof_poly.v
theories/Cggi/Proof_polymul.v
theories/Cggi/Proof_rgsw.v
theories/Cggi/Proof_rlwe.v
theories/Cggi/Proof_test_polynomial.v
theories/Cggi/Prop_bootstrap.v
theories/Cggi/Prop_callback.v
theories/Cggi/Prop_cmux.v
theories/Cggi/Prop_consistency.v
theories/Cggi/Prop_gadget.v
theories/Cggi/Prop_hpmatmul.v
theories/Cggi/Prop_lwe.v
theories/Cggi/Prop_modcheck.v
theories/Cggi/Prop_noise.v
theories/Cggi/Prop_poly.v
theories/Cggi/Prop_random_source.v
theories/Cggi/Prop_rlwe.v
theories/Cggi/Prop_silent.v
theories/Cggi/Spec_batch.v
theories/Cggi/Spec_bootstrap.v
theories/Cggi/Spec_hpmatmul.v
theories/Cggi/Spec_lwe.v
theories/Cggi/Spec_poly.v
theories/Cggi/Spec_random_source.v
theories/Cggi/Spec_rlwe.v
theories/Ckks/Model_addmul.v
theories/Ckks/Model_auto.v
theories/Ckks/Model_barrett.v
theories/Ckks/Model_basis.v
theories/Ckks/Model_bat.v
theories/Ckks/Model_blindrot.v
theories/Ckks/Model_cmkeys.v
theories/Ckks/Model_encode.v
theories/Ckks/Model_fft.v
theories/Ckks/Model_keyswitch.v
theories/Ckks/Model_math.v
theories/Ckks/Model_mul.v
theories/Ckks/Model_ntt.v
theories/Ckks/Model_ntt_cpu.v
theories/Ckks/Model_plan.v
theories/Ckks/Model_pytree.v
theories/Ckks/Model_rescale.v
theories/Ckks/Model_rns.v
theories/Ckks/Model_rns_utils.v
theories/Ckks/Model_rnsarray.v
theories/Ckks/Model_scheme.v
theories/Ckks/Model_session.v
theories/Ckks/Proof_auto.v
theories/Ckks/Proof_autocomp.v
theories/Ckks/Proof_autohom.v
theories/Ckks/Proof_barrett.v
theories/Ckks/Proof_basis.v
theories/Ckks/Proof_bat.v
theories/Ckks/Proof_bitrev.v
theories/Ckks/Proof_blindrot.v
theories/Ckks/Proof_embed.v
theories/Ckks/Proof_embed2.v
theories/Ckks/Proof_encrypt.v
theories/Ckks/Proof_fft.v
theories/Ckks/Proof_keyswitch.v
theories/Ckks/Proof_ksk.v
theories/Ckks/Proof_math.v
theories/Ckks/Proof_moddown.v
theories/Ckks/Proof_mul.v
theories/Ckks/Proof_ntt.v
theories/Ckks/Proof_ntt_accel.v
theories/Ckks/Proof_ntt_cpu.v
theories/Ckks/Proof_ntt_ref.v
theories/Ckks/Proof_rescale.v
theories/Ckks/Proof_slots.v
theories/Ckks/Proof_transform.v
theories/Ckks/Prop_addmul.v
theories/Ckks/Prop_auto.v
theories/Ckks/Prop_barrett.v
theories/Ckks/Prop_basis.v
theories/Ckks/Prop_bat.v
theories/Ckks/Prop_bitrev.v
theories/Ckks/Prop_blindrot.v
theories/Ckks/Prop_cmkeys.v
theories/Ckks/Prop_column.v
theories/Ckks/Prop_crt.v
theories/Ckks/Prop_decodeflag.v
theories/Ckks/Prop_encrypt.v
theories/Ckks/Prop_fft.v
theories/Ckks/Prop_keys.v
theories/Ckks/Prop_keyswitch.v
theories/Ckks/Prop_lift.v
theories/Ckks/Prop_math.v
theories/Ckks/Prop_mul.v
theories/Ckks/Prop_ntt_accel.v
theories/Ckks/Prop_ntt_cpu.v
theories/Ckks/Prop_ntt_ref.v
theories/Ckks/Prop_plan.v
theories/Ckks/Prop_pytree.v
theories/Ckks/Prop_qhat.v
theories/Ckks/Prop_rescale.v
theories/Ckks/Prop_rns.v
theories/Ckks/Prop_rnsarray.v
theories/Ckks/Prop_session.v
theories/Ckks/Prop_slots.v
theories/Ckks/Prop_twiddle.v
theories/Ckks/Spec_barrett.v
theories/Ckks/Spec_blindrot.v
theories/Ckks/Spec_fft.v
theories/Ckks/Spec_keyswitch.v
theories/Ckks/Spec_ntt.v
theories/Ckks/Spec_poly.v
theories/Ckks/Spec_pytree.v
theories/Ckks/Spec_rescale.v
theories/Ckks/Spec_session.v
theories/Ckks/Spec_slots.v
theories/Ec/Model_accel.v
theories/Ec/Model_accel_rns.v
theories/Ec/Model_bigint.v
theories/Ec/Model_curve.v
theories/Ec/Model_field.v
theories/Ec/Model_field_rns.v
theories/Ec/Model_lazyref.v
theories/Ec/Model_msm377.v
theories/Ec/Model_pippenger.v
theories/Ec/Model_points.v
theories/Ec/Model_reffield.v
theories/Ec/Model_reflog.v
theories/Ec/Model_rnsref.v
theories/Ec/Model_util.v
theories/Ec/Prime110.v
theories/Ec/Prime377.v
theories/Ec/Proof_accel.v
theories/Ec/Proof_accel_rns.v
theories/Ec/Proof_arith.v
theories/Ec/Proof_carry.v
theories/Ec/Proof_chunks.v
theories/Ec/Proof_curve.v
theories/Ec/Proof_mulchunks.v
theories/Ec/Proof_pippenger.v
theories/Ec/Proof_rns377.v
theories/Ec/Proof_shifted.v
theories/Ec/Proof_twistgroup.v
theories/Ec/Prop_accel.v
theories/Ec/Prop_accel_rns.v
theories/Ec/Prop_arith.v
theories/Ec/Prop_barrett377.v
theories/Ec/Prop_bigint.v
theories/Ec/Prop_carryadd.v
theories/Ec/Prop_edwards.v
theories/Ec/Prop_lazy377.v
theories/Ec/Prop_lazyref.v
theories/Ec/Prop_msm377.v
theories/Ec/Prop_onehot.v
theories/Ec/Prop_pippenger.v
theories/Ec/Prop_pippenger_xyzz.v
theories/Ec/Prop_points.v
theories/Ec/Prop_projective.v
theories/Ec/Prop_refcopy.v
theories/Ec/Prop_reffield.v
theories/Ec/Prop_reflog.v
theories/Ec/Prop_rns377.v
theories/Ec/Prop_rnsadd.v
theories/Ec/Prop_rnsneg.v
theories/Ec/Prop_rnspadd.v
theories/Ec/Prop_rnsref.v
theories/Ec/Prop_signed.v
theories/Ec/Prop_util.v
theories/Ec/Prop_xyzz.v
theories/Ec/Spec_accel.v
theories/Ec/Spec_accel_rns.v
theories/Ec/Spec_bigint.v
theories/Ec/Spec_chunks.v
theories/Ec/Spec_curve.v
theories/Ec/Spec_msm.v
theories/Ec/Spec_pippenger.v
theories/Ec/Spec_reffield.v
theories/Ec/Spec_rns377.v
