(** What a user may assume of a random source, and the parameters of a key set without the draws. *)
From Coq Require Import ZArith List Bool.
From Verif Require Import Base.Word Cggi.Model_decomposition Cggi.Model_test_polynomial Cggi.Spec_lwe Cggi.Spec_rlwe Cggi.Spec_bootstrap Cggi.Spec_random_source.
From Verif Require Import Bool.Model_bool Bool.Model_session.
Import ListNotations.
Local Open Scope Z_scope.

(** every call, in every state, returns an array of the shape asked for whose elements satisfy [P] *)
Definition returns {W} (call : list Z -> W -> option (list Z) * W) (P : Z -> Prop) : Prop :=
  forall sh w, valid_shape sh -> exists l w', call sh w = (Some l, w') /\ Z.of_nat (length l) = size sh /\ Forall P l.
(** masks are 32-bit words, keys are bits and the noise, read as a signed number, is at most [B] *)
Record honest {W} (B : Z) (src : source W) : Prop := {
  honest_uniform : returns (uniform src) word32;
  honest_normal : returns (rounded_normal src) (fun e => Z.abs (s32 e) <= B);
  honest_key : returns (sk_uniform src) (fun v => v = 0 \/ v = 1) }.

(** admissible parameters: the conditions of [key_setup] (Spec_gates.v) that do not speak of keys or draws *)
Record admissible (tpu : Z) (pr : bool_params) (d : Z) (bnn knn : nat) : Prop := {
  ad_degree : 3 <= d <= 30 /\ modulus_degree (scheme pr) = Z.to_nat (2 ^ d);
  ad_modulus : plaintext_modulus (scheme pr) = 2 ^ 32;
  ad_dim : Nat.even (lwe_dimension (scheme pr)) = true;
  ad_rank : (1 <= rlwe_dimension (scheme pr))%nat;
  ad_bgadget : gadget (bs_decomp pr) bnn;
  ad_kgadget : gadget (ks_decomp pr) knn;
  ad_platform : kernel_exact tpu (modulus_degree (scheme pr)) (rlwe_dimension (scheme pr)) (log_base (bs_decomp pr)) }.

(** a source that also records its calls: who was asked, for what, and with which shape *)
Inductive role := ClientLwe | ClientRlwe | ServerLwe | ServerRlwe | Encryption.
Inductive kind := Mask | Noise | Key.
Definition call := (role * kind * list Z)%type.
Definition record {W} (r : role) (k : kind) (f : list Z -> W -> option (list Z) * W) (sh : list Z) (st : W * list call) : option (list Z) * (W * list call) :=
  let '(o, w) := f sh (fst st) in (o, (w, snd st ++ [(r, k, sh)])).
Definition recording {W} (r : role) (src : source W) : source (W * list call) :=
  {| uniform := record r Mask (uniform src); rounded_normal := record r Noise (rounded_normal src); sk_uniform := record r Key (sk_uniform src) |}.
(** the calls of one session: two keys, the four arrays of the server keys, and a mask and one noise for every encryption, each array drawn
    once and after all the earlier ones *)
Definition expected_calls (pr : bool_params) (inputs : nat) : list call :=
  let n := Z.of_nat (lwe_dimension (scheme pr)) in let k := Z.of_nat (rlwe_dimension (scheme pr)) in let N := Z.of_nat (modulus_degree (scheme pr)) in
  let encryptions := Z.of_nat (bsk_count true (lwe_dimension (scheme pr))) in
  let L := Z.of_nat (level_count (bs_decomp pr)) in let Lk := Z.of_nat (level_count (ks_decomp pr)) in
  [(ClientLwe, Key, [n]); (ClientRlwe, Key, [k; N]);
   (ServerRlwe, Mask, [encryptions; k + 1; L; k; N]); (ServerRlwe, Noise, [encryptions; k + 1; L]);
   (ServerLwe, Mask, [k * N; Lk; n]); (ServerLwe, Noise, [k * N; Lk])]
  ++ concat (repeat [(Encryption, Mask, [n]); (Encryption, Noise, [1])] inputs).
