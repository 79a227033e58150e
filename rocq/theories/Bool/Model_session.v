(** Model of a whole session of jaxite_bool: keys generated from random sources, encryption, a circuit, decryption.
    [W] is the state of all random sources together: one object passed in two roles and two independent objects are both
    instances.  An array drawn from a source is the row-major list of its elements.  None is an exception. *)
From Coq Require Import ZArith List Bool.
From Verif Require Import Base.Word Base.Lists Cggi.Model_encoding Cggi.Model_lwe Cggi.Model_decomposition Cggi.Model_rlwe Cggi.Model_test_polynomial Cggi.Model_key_switch Cggi.Model_bootstrap Cggi.Model_random_source.
From Verif Require Import Bool.Model_lut Bool.Model_bool Bool.Spec_circuit.
Import ListNotations.
Local Open Scope Z_scope.

(** random_source.py:66-86, the interface RandomSource, every call with dtype uint32 *)
Record source (W : Type) := { uniform : list Z -> W -> option (list Z) * W;
                              rounded_normal : list Z -> W -> option (list Z) * W;
                              sk_uniform : list Z -> W -> option (list Z) * W }.
Arguments uniform {W}. Arguments rounded_normal {W}. Arguments sk_uniform {W}.

(** statements one after the other; an exception ends the session *)
Definition andthen {W A B} (r : option A * W) (f : A -> W -> option B * W) : option B * W :=
  let '(o, w) := r in match o with None => (None, w) | Some a => f a w end.

(** jnp.reshape of a row-major array; random_source.py:54-63 *)
Definition reshape2 (a b : nat) (l : list Z) : list (list Z) := rows a b l.
Definition reshape3 (a b c : nat) (l : list Z) : list (list (list Z)) := map (reshape2 b c) (rows a (b * c) l).
Definition reshape4 (a b c d : nat) (l : list Z) : list (list (list (list Z))) := map (reshape3 b c d) (rows a (b * (c * d)) l).
Definition reshape5 (a b c d e : nat) (l : list Z) : list (list (list (list (list Z)))) := map (reshape4 b c d e) (rows a (b * (c * (d * e))) l).
Definition dims (l : list nat) : list Z := map Z.of_nat l.

(** lwe.py:37-45, gen_key: the key data *)
Definition lwe_gen_key {W} (pr : bool_params) (prg : source W) (w : W) : option (list Z) * W :=
  sk_uniform prg (dims [lwe_dimension (scheme pr)]) w.
(** rlwe.py:107-119, gen_key: the key data *)
Definition rlwe_gen_key {W} (pr : bool_params) (prg : source W) (w : W) : option (list (list Z)) * W :=
  andthen (sk_uniform prg (dims [rlwe_dimension (scheme pr); modulus_degree (scheme pr)]) w)
    (fun l w => (Some (reshape2 (rlwe_dimension (scheme pr)) (modulus_degree (scheme pr)) l), w)).
(** jaxite_bool.py:37-44, ClientKeySet *)
Definition new_client_keys {W} (pr : bool_params) (lwe_rng rlwe_rng : source W) (w : W) : option client_key_set * W :=
  andthen (lwe_gen_key pr lwe_rng w) (fun ls w => andthen (rlwe_gen_key pr rlwe_rng w) (fun rs w => (Some (client_keys pr ls rs), w))).

(** jaxite_bool.py:58-81, ServerKeySet.  rgsw.key_from_rlwe (rgsw.py:104-106) and to_rlwe_secret_key (90-91) wrap and unwrap
    the key.  The draws of gen_bootstrapping_key (bootstrap.py:63-96; the parity check of line 67 comes before them) and then
    those of key_switch.gen_key (key_switch.py:50-73). *)
Definition new_server_keys {W} (tpu : Z) (ck : client_key_set) (pr : bool_params) (lwe_rng rlwe_rng : source W) (w : W) : option server_key_set * W :=
  let dim := length (key_data (lwe_sk ck)) in
  let k := length (rk_data (rlwe_sk ck)) in
  let N := rk_degree (rlwe_sk ck) in
  let L := level_count (bs_decomp pr) in
  let Lk := level_count (ks_decomp pr) in
  let n := length (key_data (flatten_key (rlwe_sk ck))) in
  if negb (Nat.even dim) then (None, w)
  else
    let num := (dim + dim / 2)%nat in
    let padded := ((num + GEN_BSK_NUM_BATCHES - 1) / GEN_BSK_NUM_BATCHES * GEN_BSK_NUM_BATCHES)%nat in
    andthen (uniform rlwe_rng (dims [padded; S k; L; k; N]) w) (fun ai w =>
    andthen (rounded_normal rlwe_rng (dims [padded; S k; L]) w) (fun es w =>
    andthen (uniform lwe_rng (dims [n; Lk; dim]) w) (fun kai w =>
    andthen (rounded_normal lwe_rng (dims [n; Lk]) w) (fun kes w =>
      (server_keys tpu ck pr (reshape5 padded (S k) L k N ai) (reshape3 padded (S k) L es) (reshape3 n Lk dim kai) (reshape2 n Lk kes), w))))).

(** jaxite_bool.py:84-90, encrypt, with lwe.encrypt (lwe.py:48-62): the error sample is an array of one element *)
Definition new_encryption {W} (value : bool) (ck : client_key_set) (prg : source W) (w : W) : option (list Z) * W :=
  andthen (uniform prg (dims [length (key_data (lwe_sk ck))]) w) (fun ai w =>
  andthen (rounded_normal prg [1] w) (fun e w => (bool_encrypt value ck ai (nth 0 e 0), w))).
Fixpoint new_encryptions {W} (values : list bool) (ck : client_key_set) (prg : source W) (w : W) : option (list (list Z)) * W :=
  match values with
  | [] => (Some [], w)
  | v :: rest => andthen (new_encryption v ck prg w) (fun ct w => andthen (new_encryptions rest ck prg w) (fun cts w => (Some (ct :: cts), w)))
  end.

(** the session: client keys, server keys, encryptions of the inputs, the circuit on the server, decryption of every wire; the
    inner option is the outcome of each decryption *)
Definition session {W} (tpu : Z) (pr : bool_params) (client_lwe client_rlwe server_lwe server_rlwe enc : source W) (c : list instr) (inputs : list bool) (w : W)
  : option (list (option bool)) * W :=
  andthen (new_client_keys pr client_lwe client_rlwe w) (fun ck w =>
  andthen (new_server_keys tpu ck pr server_lwe server_rlwe w) (fun sk w =>
  andthen (new_encryptions inputs ck enc w) (fun cts w =>
    (match run_circuit tpu sk pr c cts with None => None | Some out => Some (map (fun ct => bool_decrypt ct ck) out) end, w)))).

(** random_source.py:88-258, the sources of the library *)
Definition python_source {S} (randint : Z -> Z -> S -> Z * S) (normal : Z -> S -> Z * S) (bounds : Z * Z) (normal_std : Z) : source S :=
  {| uniform := fun sh => rng_uniform randint bounds sh uint32; rounded_normal := fun sh => rng_rounded_normal normal normal_std sh uint32;
     sk_uniform := fun sh => rng_sk_uniform randint sh uint32 |}.
Definition cycle_source (const_normal_noise : Z) : source nat :=
  {| uniform := fun sh => cycle_uniform sh uint32; rounded_normal := fun sh => cycle_rounded_normal const_normal_noise sh uint32; sk_uniform := fun sh => cycle_sk_uniform sh uint32 |}.
Definition normal_only_source {S} (randint : Z -> Z -> S -> Z * S) (normal : Z -> S -> Z * S) (normal_std : Z) : source S :=
  {| uniform := fun sh s => (constant_uniform 0 sh uint32, s); rounded_normal := fun sh => rng_rounded_normal normal normal_std sh uint32; sk_uniform := fun sh => rng_sk_uniform randint sh uint32 |}.
Definition constant_uniform_source {S} (randint : Z -> Z -> S -> Z * S) (normal : Z -> S -> Z * S) (const_uniform normal_std : Z) : source S :=
  {| uniform := fun sh s => (constant_uniform const_uniform sh uint32, s); rounded_normal := fun sh => rng_rounded_normal normal normal_std sh uint32; sk_uniform := fun sh => rng_sk_uniform randint sh uint32 |}.
Definition zero_source {S} : source S :=
  {| uniform := fun sh s => (constant_uniform 0 sh uint32, s); rounded_normal := fun sh s => (constant_uniform 0 sh uint32, s); sk_uniform := fun sh s => (constant_uniform 0 sh uint32, s) |}.
