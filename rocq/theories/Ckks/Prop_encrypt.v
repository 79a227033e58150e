(** C32: CKKS encryption decrypts to the plaintext plus small noise. *)
From Coq Require Import ZArith Znumtheory List Bool Lia.
From Verif Require Import Base.ZSum Base.Modeq Base.Lists Base.Bitrev Base.Nega Base.Powm Base.Word Base.Fermat Base.PrimeCheck Base.Crt.
From Verif Require Import Ckks.Model_rns_utils Ckks.Model_math Ckks.Model_ntt_cpu Ckks.Model_encode Ckks.Model_scheme Ckks.Spec_ntt Ckks.Spec_poly.
From Verif Require Import Ckks.Proof_ntt_ref Ckks.Proof_ntt_cpu Ckks.Proof_transform Ckks.Prop_ntt_cpu Ckks.Prop_crt Ckks.Proof_slots Ckks.Proof_encrypt.
Import ListNotations.
Local Open Scope Z_scope.

(** the noise of a fresh ciphertext: v*e + e0 + e1*s *)
Definition fresh_noise (s e v e0 e1 : list Z) : list Z := poly_add (poly_add (poly_mul v e) e0) (poly_mul e1 s).

(** C32: for every secret, error and uniform sample of key generation, every level (a prefix of k moduli), every message
    and every encryption randomness, decryption returns exactly m + v*e + e0 + e1*s modulo every prime. *)
Theorem C32_decrypt_encrypt : forall L moduli k s a e m v e0 e1,
  scheme_moduli L moduli -> (1 <= k <= length moduli)%nat -> uniform_sample (2 ^ L) moduli a ->
  Forall (fun p => length p = (2 ^ L)%nat) [s; e; m; v; e0; e1] ->
  let level := firstn k moduli in
  exists pk sk pt ct,
    keygen moduli (residue_array s moduli) a (residue_array e moduli) = Some (pk, sk) /\
    encode_plaintext m level = Some pt /\
    encrypt pk pt (residue_array v level) (residue_array e0 level) (residue_array e1 level) = Some ct /\
    ct_moduli ct = level /\
    decrypt sk ct = Some {| pt_data := residue_array (poly_add m (fresh_noise s e v e0 e1)) level; pt_moduli := level |}.
Proof.
  intros L moduli k s a e m v e0 e1 HS Hk Ha HF level.
  repeat match goal with H : Forall _ (_ :: _) |- _ => inversion H; clear H; subst end.
  destruct (keygen_ok L moduli HS s a e) as (pk & sk & EK & MP & MS & S1 & SS & S0); try assumption.
  pose proof (scheme_firstn L moduli k HS Hk) as HS'.
  destruct (encode_ok L (firstn k moduli) m HS') as (pt & EP & MPt & SP); [assumption |].
  destruct (uniform_cols _ _ _ Ha) as [La Ca].
  destruct (encrypt_ok L moduli k pk pt s (fun i => nth i a []) e m v e0 e1) as (ct & EC & MC & _ & SC0 & SC1); try assumption.
  exists pk, sk, pt, ct. split; [exact EK |]. split; [exact EP |]. split; [exact EC |]. split; [exact MC |].
  rewrite (decrypt_ok L moduli k sk ct s _ _ HS Hk ltac:(assumption) MS SS MC SC0 SC1). f_equal. unfold level. f_equal.
  assert (Lk : length (firstn k moduli) = k) by (rewrite firstn_length; lia).
  rewrite <- (residues_of_map (firstn k moduli)). rewrite Lk. apply map_ext_in. intros i Hi. apply in_seq in Hi.
  unfold fresh_noise. apply (decryption_equation L); try assumption; [| apply Ca; lia].
  apply (adm L (firstn k moduli) (scheme_adm L _ HS')). lia.
Qed.

(** C32: with secrets and v of entries in {-1, 0, 1} and errors of at most B, the noise is at most (2n + 1) B *)
Theorem C32_noise_bound : forall n s e v e0 e1 B, Forall (fun p => length p = n) [s; e; v; e0; e1] ->
  poly_bound 1 s -> poly_bound 1 v -> poly_bound B e -> poly_bound B e0 -> poly_bound B e1 ->
  poly_bound ((2 * Z.of_nat n + 1) * B) (fresh_noise s e v e0 e1).
Proof.
  intros n s e v e0 e1 B HF Bs Bv Be B0 B1.
  rewrite !Forall_cons_iff in HF. destruct HF as (Hs & He & Hv & H0 & H1 & _).
  unfold fresh_noise.
  replace ((2 * Z.of_nat n + 1) * B) with ((Z.of_nat (length v) * (1 * B) + B) + Z.of_nat (length e1) * (B * 1)) by (rewrite Hv, H1; ring).
  apply poly_bound_add; [rewrite poly_add_length, !poly_mul_length; congruence | |].
  - apply poly_bound_add; [rewrite poly_mul_length; congruence | | exact B0]. apply poly_bound_mul; [congruence | exact Bv | exact Be].
  - apply poly_bound_mul; [congruence | exact B1 | exact Bs].
Qed.

(** C32: so the decrypted coefficients, lifted to integers, are m + noise exactly whenever these stay below Q/2 *)
Theorem C32_decrypt_lift : forall L moduli m noise, scheme_moduli L moduli -> coprime_moduli moduli ->
  Forall (fun x => - lprod moduli < 2 * x <= lprod moduli) (poly_add m noise) ->
  decode_integers (residue_array (poly_add m noise) moduli) moduli = Some (poly_add m noise).
Proof. intros L moduli m noise HS HC H. apply (C30_centred_lift moduli _ HC); [apply HS | exact H]. Qed.

(** C32: moduli that are not a prefix of the key's moduli are rejected, by encryption and by decryption *)
Theorem C32_prefix_required : forall pk sk pt ct v e0 e1,
  (pt_moduli pt <> firstn (length (pt_moduli pt)) (pk_moduli pk) -> encrypt pk pt v e0 e1 = None) /\
  (ct_moduli ct <> firstn (length (ct_moduli ct)) (sk_moduli sk) -> decrypt sk ct = None).
Proof.
  intros. split; intros H.
  - unfold encrypt. destruct (list_eqb _ _) eqn:E; [apply list_eqb_eq in E; contradiction | reflexivity].
  - unfold decrypt. destruct (list_eqb _ _) eqn:E; [apply list_eqb_eq in E; contradiction | reflexivity].
Qed.

Example C32_example_moduli : scheme_moduli 2 [97; 193] /\ coprime_moduli [97; 193] /\ uniform_sample 4 [97; 193] [[1; 2; 3; 96]; [0; 192; 7; 5]].
Proof.
  split; [split; [discriminate |] |].
  - constructor; [| constructor; [| constructor]]; (split; [| vm_compute; discriminate]);
    (split; [lia |]); (split; [apply prime_check_sound; vm_compute; reflexivity |]); (split; [| vm_compute; discriminate]); [exists 12 | exists 24]; reflexivity.
  - split; [split; repeat constructor |]. repeat constructor; lia.
Qed.
Example C32_example : match keygen [97; 193] (residue_array [0; 1; 1; 0] [97; 193]) [[1; 2; 3; 96]; [0; 192; 7; 5]] (residue_array [1; -1; 0; 2] [97; 193]),
    encode_plaintext [100; -200; 300; 40] [97; 193] with
  | Some (pk, sk), Some pt =>
     match encrypt pk pt (residue_array [1; 0; 0; 1] [97; 193]) (residue_array [0; -1; 0; 0] [97; 193]) (residue_array [0; 0; 1; 0] [97; 193]) with
     | Some ct => match decrypt sk ct with Some p => decode_integers (pt_data p) [97; 193] = Some [101; -202; 298; 44] | None => False end
     | None => False end
  | _, _ => False end.
Proof. vm_compute. reflexivity. Qed.

Print Assumptions C32_decrypt_encrypt.
Print Assumptions C32_noise_bound.
Print Assumptions C32_decrypt_lift.
Print Assumptions C32_prefix_required.
