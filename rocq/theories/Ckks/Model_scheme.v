(** Model of jaxite/jaxite_ckks/types.py, random.py, encrypt.py and the first part of key_gen.py.
    A (degree, num_moduli) array is the list of its columns, one per modulus.  None is an exception.
    Randomness is an explicit argument. *)
From Coq Require Import ZArith List Bool.
From Verif Require Import Base.Lists Base.Word Ckks.Model_rns_utils Ckks.Model_math Ckks.Model_ntt_cpu.
Import ListNotations.
Local Open Scope Z_scope.

(** the data attribute of types.py:8-52 *)
Definition array := list (list Z).
(** entry of coefficient j modulo the i-th prime *)
Definition ent (A : array) (i j : nat) : Z := nth j (nth i A []) 0.
(** an array given by its entries: NumPy arithmetic is entrywise, with the moduli broadcast over the coefficients *)
Definition tab (k n : nat) (f : nat -> nat -> Z) : array := map (fun i => map (fun j => f i j) (seq 0 n)) (seq 0 k).
(** uint64 arithmetic *)
Definition u64 (x : Z) : Z := x mod 2 ^ 64.
Definition u32 (x : Z) : Z := x mod 2 ^ 32.
Definition degree_of (A : array) : nat := length (nth 0 A []).

(** types.py:8-103 *)
Record plaintext := { pt_data : array; pt_moduli : list Z }.
Record ciphertext := { ct_data : list array; ct_moduli : list Z }.
Record public_key := { pk0 : array; pk1 : array; pk_moduli : list Z }.
Record secret_key := { sk_data : array; sk_moduli : list Z }.

(** random.py:38-45 (gaussian) and 47-52 (ternary): the same integer coefficients reduced modulo every prime *)
Definition residue_array (coeffs : list Z) (moduli : list Z) : array := map (fun q => map (fun c => c mod q) coeffs) moduli.
(** random.py:48: the coefficients rng.choice([0, 1]) can give *)
Definition ternary_sample (coeffs : list Z) : Prop := Forall (fun c => c = 0 \/ c = 1) coeffs.
(** random.py:54-58: uniform residues, independent for every prime *)
Definition uniform_sample (n : nat) (moduli : list Z) (A : array) : Prop :=
  Forall2 (fun col q => length col = n /\ Forall (fun x => 0 <= x < q) col) A moduli.
(** random.py:60-66: [indices] is rng.sample(range(degree), weight); the column is not reduced *)
Definition sparse_binary (degree : nat) (indices : list nat) (moduli : list Z) : array :=
  let v := fold_left (fun v i => upd i 1 v) indices (repeat 0 degree) in
  map (fun _ => v) moduli.

(** key_gen.py:33-45, keygen after the secret s, the uniform a and the error e have been drawn *)
Definition keygen (moduli : list Z) (s a e : array) : option (public_key * secret_key) :=
  match ntt_negacyclic_poly s moduli, ntt_negacyclic_poly a moduli, ntt_negacyclic_poly e moduli with
  | Some s_ntt, Some a_ntt, Some e_ntt =>
      let k := length moduli in
      let n := degree_of s in
      let prod := tab k n (fun i j => u64 (ent a_ntt i j * ent s_ntt i j) mod nth i moduli 0) in
      let b_ntt := tab k n (fun i j => u64 (u64 (ent e_ntt i j + nth i moduli 0) - ent prod i j) mod nth i moduli 0) in
      Some ({| pk0 := b_ntt; pk1 := a_ntt; pk_moduli := moduli |}, {| sk_data := s_ntt; sk_moduli := moduli |})
  | _, _, _ => None
  end.

(** np.array_equal on vectors of moduli, encrypt.py:46-107 *)
Definition list_eqb (l1 l2 : list Z) : bool := (length l1 =? length l2)%nat && forallb (fun p => fst p =? snd p) (combine l1 l2).

(** encrypt.py:46-89, Encrypt.encrypt; v, e0, e1 are the arrays drawn from the random source *)
Definition encrypt (pk : public_key) (pt : plaintext) (v e0 e1 : array) : option ciphertext :=
  let moduli := pt_moduli pt in
  let k := length moduli in
  let n := degree_of (pt_data pt) in
  if negb (list_eqb moduli (firstn k (pk_moduli pk))) then None
  else match ntt_negacyclic_poly v moduli, ntt_negacyclic_poly e0 moduli, ntt_negacyclic_poly e1 moduli with
  | Some v_ntt, Some e0_ntt, Some e1_ntt =>
      let p0 := firstn k (pk0 pk) in
      let p1 := firstn k (pk1 pk) in
      let prod0 := tab k n (fun i j => u64 (ent v_ntt i j * ent p0 i j) mod nth i moduli 0) in
      let c0 := tab k n (fun i j => u64 (u64 (ent prod0 i j + ent e0_ntt i j) + ent (pt_data pt) i j) mod nth i moduli 0) in
      let prod1 := tab k n (fun i j => u64 (ent v_ntt i j * ent p1 i j) mod nth i moduli 0) in
      let c1 := tab k n (fun i j => u64 (ent prod1 i j + ent e1_ntt i j) mod nth i moduli 0) in
      Some {| ct_data := [tab k n (fun i j => u32 (ent c0 i j)); tab k n (fun i j => u32 (ent c1 i j))]; ct_moduli := moduli |}
  | _, _, _ => None
  end.

(** encrypt.py:98-122, Decrypt.decrypt *)
Definition decrypt (sk : secret_key) (ct : ciphertext) : option plaintext :=
  let moduli := ct_moduli ct in
  let k := length moduli in
  if negb (list_eqb moduli (firstn k (sk_moduli sk))) then None
  else
    let c0 := nth 0 (ct_data ct) [] in
    let c1 := nth 1 (ct_data ct) [] in
    let s := firstn k (sk_data sk) in
    let n := degree_of c0 in
    let res := tab k n (fun i j => u64 (ent c0 i j + u64 (ent c1 i j * ent s i j) mod nth i moduli 0) mod nth i moduli 0) in
    match intt_negacyclic_poly res moduli with
    | None => None
    | Some res_coeffs => Some {| pt_data := tab k n (fun i j => u32 (ent res_coeffs i j)); pt_moduli := moduli |}
    end.

(** encode.py:152-159, the plaintext made of the rounded scaled coefficients *)
Definition encode_plaintext (scaled_coeffs : list Z) (moduli : list Z) : option plaintext :=
  match ntt_negacyclic_poly (residue_array scaled_coeffs moduli) moduli with
  | None => None
  | Some poly_ntt => Some {| pt_data := tab (length moduli) (length scaled_coeffs) (fun i j => u32 (ent poly_ntt i j)); pt_moduli := moduli |}
  end.

(** key_gen.py:48-74, extend_secret_key *)
Definition extend_secret_key (sk : secret_key) (target_moduli : list Z) : option secret_key :=
  let current := sk_moduli sk in
  if negb (list_eqb (firstn (length current) target_moduli) current) then None
  else match intt_negacyclic_poly (sk_data sk) current with
  | None => None
  | Some s_coeffs =>
      match nth_error s_coeffs 0 with  (* s_coeffs[:, 0]: IndexError without moduli *)
      | None => None
      | Some single =>
          match ntt_negacyclic_poly (map (fun _ => single) target_moduli) target_moduli with
          | None => None
          | Some ext => Some {| sk_data := ext; sk_moduli := target_moduli |}
          end
      end
  end.
