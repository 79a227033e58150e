(** C31: an RnsPolynomial survives the conversion to an array and back. *)
From Coq Require Import ZArith Znumtheory List Bool Lia.
From Verif Require Import Base.ZSum Base.Modeq Base.Lists Base.Bitrev Base.Nega Base.Powm Base.Fermat Base.PrimeCheck Base.Word.
From Verif Require Import Ckks.Model_rns_utils Ckks.Model_rns Ckks.Model_rnsarray Ckks.Spec_ntt Ckks.Spec_poly Ckks.Proof_ntt Ckks.Proof_ntt_ref Ckks.Proof_transform.
From Verif Require Import Ckks.Prop_ntt_ref Ckks.Prop_crt Ckks.Proof_ntt_cpu Ckks.Prop_rns.
Import ListNotations.
Local Open Scope Z_scope.

Lemma entry_range ntt L q psi a j : 1 < q -> (j < 2 ^ L)%nat -> 0 <= entry ntt L q psi a j < q.
Proof. intros Q Hj. unfold entry. destruct ntt; [unfold transform; rewrite nth_map_seq by exact Hj |]; apply Z.mod_pos_bound; lia. Qed.
Lemma represents_shape L ms params p a : rns_setup L ms params -> represents L ms params p a ->
  length (rp_coeffs p) = length ms /\ forall i, (i < length ms)%nat -> length (nth i (rp_coeffs p) []) = (2 ^ L)%nat.
Proof.
  intros S (_ & _ & La & E). destruct (setup_rows L ms params S) as [Lp H]. rewrite E. destruct (rp_is_ntt p); (split; [rewrite map_length; lia |]); intros i Hi.
  - rewrite (nth_map_lt _ _ _ _ {| nt_n := 0; nt_q := 0; nt_n_inv := 0; nt_psis := []; nt_psis_inv := [] |}) by lia. destruct (H i Hi) as (_ & _ & _ & psi & _ & F). rewrite F by exact La. unfold transform. rewrite map_length, seq_length. reflexivity.
  - rewrite (nth_map_lt _ _ _ _ 0) by exact Hi. rewrite poly_mod_length. exact La.
Qed.
(** In either form, and for any moduli of up to 64 bits: the array has one row per modulus and one column per coefficient, and
    the polynomial built from it, with the same form flag, is the polynomial. *)
Theorem C31_array_roundtrip : forall L moduli params p a, rns_setup L moduli params -> Forall (fun q => q <= 2 ^ 64) moduli -> represents L moduli params p a ->
  exists arr, to_jnp_array p = Some arr /\ length arr = length moduli /\ Forall (fun r => length r = rp_len p) arr /\
    gen_rns_polynomial_from_jnp_array (rp_len p) arr moduli (rp_is_ntt p) = p /\
    represents L moduli params (gen_rns_polynomial_from_jnp_array (rp_len p) arr moduli (rp_is_ntt p)) a.
Proof.
  intros L ms params p a S B R. destruct (represents_shape L ms params p a S R) as [LC LR]. destruct (setup_rows L ms params S) as [Lp HS].
  assert (G : forall r, In r (rp_coeffs p) -> length r = (2 ^ L)%nat /\ forallb (fun c => (0 <=? c) && (c <? 2 ^ 64)) r = true).
  { intros r Hr. destruct (In_nth _ _ [] Hr) as (i & Hi & <-). rewrite LC in Hi. split; [apply LR; exact Hi |]. apply forallb_forall. intros c Hc. destruct (In_nth _ _ 0 Hc) as (j & Hj & <-). rewrite LR in Hj by exact Hi.
    destruct (represents_entries L ms params p a S R i j Hi Hj) as (psi & _ & _ & ->). destruct (HS i Hi) as (_ & _ & Q & _). pose proof (entry_range (rp_is_ntt p) L (nth i ms 0) psi a j Q Hj) as E.
    rewrite Forall_forall in B. specialize (B (nth i ms 0) (nth_In _ _ Hi)). apply andb_true_intro. split; [apply Z.leb_le; lia | apply Z.ltb_lt; lia]. }
  pose proof R as (D & M & La & C). exists (rp_coeffs p). split.
  { unfold to_jnp_array. destruct (forallb _ (rp_coeffs p)) eqn:E; [reflexivity |]. exfalso. rewrite <- not_true_iff_false in E. apply E. apply forallb_forall. intros r Hr. destruct (G r Hr) as [G1 G2]. rewrite G2, andb_true_r. apply Nat.eqb_eq.
    rewrite G1. symmetry. destruct (rp_coeffs p) as [| r0 rs]; [contradiction |]. cbn [hd]. apply (G r0). left. reflexivity. }
  split; [exact LC |]. split; [apply Forall_forall; intros r Hr; unfold rp_len; rewrite D; apply (G r Hr) |].
  assert (E : gen_rns_polynomial_from_jnp_array (rp_len p) (rp_coeffs p) ms (rp_is_ntt p) = p) by (unfold gen_rns_polynomial_from_jnp_array, rp_len; rewrite <- M; destruct p; reflexivity).
  split; [exact E |]. rewrite E. exact R.
Qed.
Print Assumptions C31_array_roundtrip.
(** FINDING: the flag is not part of the array.  With the default flag, a polynomial converted in NTT form comes back as a different
    polynomial: over n = 4 and the modulus 17, X comes back as its transform read as coefficients. *)
Theorem C31_array_default_flag_refuted : exists params p arr, rns_setup 2 [17] params /\ represents 2 [17] params p [0; 1; 0; 0] /\ to_jnp_array p = Some arr /\
  ~ represents 2 [17] params (gen_rns_polynomial_from_jnp_array 4 arr [17] false) [0; 1; 0; 0].
Proof.
  destruct (mk_rns_params (2 ^ 2) [17]) as [params |] eqn:E; [| vm_compute in E; discriminate].
  assert (S : rns_setup 2 [17] params) by (split; [constructor; [| constructor]; split; [lia |]; split; [apply prime_check_sound; vm_compute |]; reflexivity | exact E]).
  set (g := gen_rns_polynomial 4 [0; 1; 0; 0] [17]). pose proof (C31_generate 2 [17] params [0; 1; 0; 0] S eq_refl) as R. change (gen_rns_polynomial (2 ^ 2) [0; 1; 0; 0] [17]) with g in R.
  destruct (C31_to_ntt 2 [17] params g [0; 1; 0; 0] S R) as [RN FN].
  destruct (C31_array_roundtrip 2 [17] params _ [0; 1; 0; 0] S ltac:(repeat constructor; lia) RN) as (arr & A & _).
  exists params, (to_ntt_form params g), arr. split; [exact S |]. split; [exact RN |]. split; [exact A |]. intros (_ & _ & _ & C). cbn [gen_rns_polynomial_from_jnp_array rp_coeffs rp_is_ntt] in C. subst arr.
  vm_compute in E. injection E as <-. vm_compute in A. discriminate.
Qed.
Print Assumptions C31_array_default_flag_refuted.
Example C31_array_ex : to_jnp_array (gen_rns_polynomial 4 [1; -2; 3; 400] [17; 97]) = Some [[1; 15; 3; 9]; [1; 95; 3; 12]].
Proof. reflexivity. Qed.
