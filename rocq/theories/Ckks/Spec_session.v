(** What a user may assume of a CKKS random source. *)
From Coq Require Import ZArith List Bool.
From Verif Require Import Ckks.Model_scheme Ckks.Spec_poly Ckks.Model_session.
Import ListNotations.
Local Open Scope Z_scope.

Definition bit (x : Z) : Prop := x = 0 \/ x = 1.
(** the array holds the residues of [degree] integers that satisfy [P] *)
Definition holds (degree : nat) (moduli : list Z) (P : list Z -> Prop) (A : array) : Prop := exists coeffs, length coeffs = degree /\ P coeffs /\ A = residue_array coeffs moduli.
Definition ones (coeffs : list Z) : nat := count_occ Z.eq_dec coeffs 1.
(** for moduli above 1, in every state: errors of at most B, bits, residues, and bits with the number of ones asked for *)
Record honest {S} (B : Z) (src : source S) : Prop := {
  honest_gaussian : forall n ms s, Forall (fun q => 1 < q) ms -> holds n ms (poly_bound B) (fst (gen_gaussian_poly src n ms s));
  honest_ternary : forall n ms s, Forall (fun q => 1 < q) ms -> holds n ms (Forall bit) (fst (gen_ternary_poly src n ms s));
  honest_uniform : forall n ms s, Forall (fun q => 1 < q) ms -> uniform_sample n ms (fst (gen_uniform_poly src n ms s));
  honest_sparse : forall n w ms s, Forall (fun q => 1 < q) ms -> (w <= n)%nat ->
    exists A, fst (gen_sparse_binary src n w ms s) = Some A /\ holds n ms (fun c => Forall bit c /\ ones c = w) A }.
(** Python's generator *)
Record python_generator {S} (B : Z) (rng : generator S) : Prop := {
  py_choice : forall s, bit (fst (choice01 rng s));
  py_randrange : forall q s, 0 < q -> 0 <= fst (randrange rng q s) < q;
  py_normal : forall s, Z.abs (fst (rounded_normal rng s)) <= B;
  py_sample : forall n w s, (w <= n)%nat -> exists l, fst (sample rng n w s) = Some l /\ NoDup l /\ length l = w /\ Forall (fun i => (i < n)%nat) l;
  py_sample_error : forall n w s, (n < w)%nat -> fst (sample rng n w s) = None }.

(** a source that records its calls: which kind of polynomial, its degree, weight and moduli *)
Inductive kind := Gaussian | Ternary | Uniform | Sparse (weight : nat).
Inductive role := Keys | Encryption.
Definition call := (role * kind * nat * list Z)%type.
Definition recording {S} (r : role) (src : source S) : source (S * list call) :=
  let put {A} (x : A * S) (log : list call) (c : call) := (fst x, (snd x, log ++ [c])) in
  {| gen_gaussian_poly := fun n ms st => put (gen_gaussian_poly src n ms (fst st)) (snd st) (r, Gaussian, n, ms);
     gen_ternary_poly := fun n ms st => put (gen_ternary_poly src n ms (fst st)) (snd st) (r, Ternary, n, ms);
     gen_uniform_poly := fun n ms st => put (gen_uniform_poly src n ms (fst st)) (snd st) (r, Uniform, n, ms);
     gen_sparse_binary := fun n w ms st => put (gen_sparse_binary src n w ms (fst st)) (snd st) (r, Sparse w, n, ms) |}.
(** secret, mask and error of the keys; then for every message its own v and two errors *)
Definition expected_calls (degree : nat) (moduli : list Z) (hamming_weight : option nat) (messages : list (list Z * nat)) : list call :=
  [(Keys, match hamming_weight with Some w => Sparse w | None => Ternary end, degree, moduli); (Keys, Uniform, degree, moduli); (Keys, Gaussian, degree, moduli)]
  ++ flat_map (fun mk => let level := firstn (snd mk) moduli in [(Encryption, Ternary, degree, level); (Encryption, Gaussian, degree, level); (Encryption, Gaussian, degree, level)]) messages.
