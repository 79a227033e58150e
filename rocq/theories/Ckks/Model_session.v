(** Model of key generation and encryption drawing from random sources (random.py, key_gen.keygen, encrypt.Encrypt.encrypt).
    [S] is the state of the random source; None is an exception. *)
From Coq Require Import ZArith List Bool.
From Verif Require Import Base.Lists Cggi.Model_random_source Ckks.Model_ntt_cpu Ckks.Model_scheme.
Import ListNotations.
Local Open Scope Z_scope.

(** random.py:9-29, the interface RandomSource *)
Record source (S : Type) := { gen_gaussian_poly : nat -> list Z -> S -> array * S;
                              gen_ternary_poly : nat -> list Z -> S -> array * S;
                              gen_uniform_poly : nat -> list Z -> S -> array * S;
                              gen_sparse_binary : nat -> nat -> list Z -> S -> option array * S }.
Arguments gen_gaussian_poly {S}. Arguments gen_ternary_poly {S}. Arguments gen_uniform_poly {S}. Arguments gen_sparse_binary {S}.

(** the methods of Python's generator that random.py calls: choice([0, 1]), randrange(0, q), round(normalvariate(0, 3.19)) and
    sample(range(degree), k), which raises when k is larger than the degree *)
Record generator (S : Type) := { choice01 : S -> Z * S; randrange : Z -> S -> Z * S; rounded_normal : S -> Z * S; sample : nat -> nat -> S -> option (list nat) * S }.
Arguments choice01 {S}. Arguments randrange {S}. Arguments rounded_normal {S}. Arguments sample {S}.

(** random.py:38-45 *)
Definition gaussian {S} (rng : generator S) (degree : nat) (moduli : list Z) (s : S) : array * S :=
  let '(coeffs, s) := draws (rounded_normal rng) degree s in (residue_array coeffs moduli, s).
(** random.py:47-52 *)
Definition ternary {S} (rng : generator S) (degree : nat) (moduli : list Z) (s : S) : array * S :=
  let '(coeffs, s) := draws (choice01 rng) degree s in (residue_array coeffs moduli, s).
(** random.py:54-58: modulus after modulus *)
Fixpoint uniform {S} (rng : generator S) (degree : nat) (moduli : list Z) (s : S) : array * S :=
  match moduli with
  | [] => ([], s)
  | q :: rest => let '(col, s) := draws (randrange rng q) degree s in let '(cols, s) := uniform rng degree rest s in (col :: cols, s)
  end.
(** random.py:60-66 *)
Definition sparse {S} (rng : generator S) (degree weight : nat) (moduli : list Z) (s : S) : option array * S :=
  let '(o, s) := sample rng degree weight s in
  (match o with None => None | Some indices => Some (sparse_binary degree indices moduli) end, s).
(** random.py:32-66 SecureRandomSource and 83-88 TestRandomSource: the generator is SystemRandom or a seeded Random *)
Definition secure_source {S} (rng : generator S) : source S :=
  {| gen_gaussian_poly := gaussian rng; gen_ternary_poly := ternary rng; gen_uniform_poly := uniform rng; gen_sparse_binary := sparse rng |}.
(** random.py:69-80, ZeroNoiseRandomSource *)
Definition zero_noise_source {S} (rng : generator S) : source S :=
  {| gen_gaussian_poly := fun degree moduli s => (map (fun _ => repeat 0 degree) moduli, s); gen_ternary_poly := ternary rng; gen_uniform_poly := uniform rng; gen_sparse_binary := sparse rng |}.

(** key_gen.py:17-45, keygen with its draws *)
Definition new_keys {S} (degree : nat) (moduli : list Z) (src : source S) (hamming_weight : option nat) (s : S) : option (public_key * secret_key) * S :=
  let '(key, s) := match hamming_weight with
                   | Some w => gen_sparse_binary src degree w moduli s
                   | None => let '(k, s) := gen_ternary_poly src degree moduli s in (Some k, s)
                   end in
  match key with
  | None => (None, s)
  | Some key =>
      let '(a, s) := gen_uniform_poly src degree moduli s in
      let '(e, s) := gen_gaussian_poly src degree moduli s in
      (keygen moduli key a e, s)
  end.
(** encrypt.py:46-89, Encrypt.encrypt with its draws; the moduli are checked before anything is drawn *)
Definition new_encryption {S} (pk : public_key) (pt : plaintext) (src : source S) (s : S) : option ciphertext * S :=
  let moduli := pt_moduli pt in
  let degree := degree_of (pt_data pt) in
  if negb (list_eqb moduli (firstn (length moduli) (pk_moduli pk))) then (None, s)
  else
    let '(v, s) := gen_ternary_poly src degree moduli s in
    let '(e0, s) := gen_gaussian_poly src degree moduli s in
    let '(e1, s) := gen_gaussian_poly src degree moduli s in
    (encrypt pk pt v e0 e1, s).

(** a user's session: every message, given by its integer coefficients and the number of moduli it is encoded for, is encoded, encrypted and
    decrypted again *)
Fixpoint round_trips {S} (pk : public_key) (sk : secret_key) (moduli : list Z) (src : source S) (messages : list (list Z * nat)) (s : S) : option (list plaintext) * S :=
  match messages with
  | [] => (Some [], s)
  | (m, k) :: rest =>
      match encode_plaintext m (firstn k moduli) with
      | None => (None, s)
      | Some pt =>
          let '(o, s) := new_encryption pk pt src s in
          match match o with None => None | Some ct => decrypt sk ct end with
          | None => (None, s)
          | Some out => let '(o, s) := round_trips pk sk moduli src rest s in (match o with None => None | Some outs => Some (out :: outs) end, s)
          end
      end
  end.
Definition session {S} (degree : nat) (moduli : list Z) (key_source enc_source : source S) (hamming_weight : option nat) (messages : list (list Z * nat)) (s : S) : option (list plaintext) * S :=
  let '(o, s) := new_keys degree moduli key_source hamming_weight s in
  match o with None => (None, s) | Some (pk, sk) => round_trips pk sk moduli enc_source messages s end.
