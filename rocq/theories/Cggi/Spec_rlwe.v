(** Specification vocabulary for RLWE: the phase of a ciphertext (a_1,...,a_k,b) under key polynomials (s_1,...,s_k) is
    the polynomial b - (a_1 s_1 + ... + a_k s_k) of Z[X]/(X^N+1). *)
From Coq Require Import ZArith List.
From Verif Require Import Base.ZSum Base.Modeq Base.Nega Cggi.Spec_poly.
Import ListNotations.
Local Open Scope Z_scope.

(** its j'th coefficient, an integer *)
Definition rlwe_phase (N : nat) (sk ct : list (list Z)) (j : nat) : Z :=
  coeff (nth (length sk) ct []) j -
  zsum (length sk) (fun i => nega_coeff N (coeff (nth i ct [])) (coeff (nth i sk [])) j).

(** the phase is the polynomial [msg] up to an error whose coefficients have magnitude at most [B], modulo q *)
Definition rlwe_near (N : nat) (q : Z) (sk ct : list (list Z)) (msg : nat -> Z) (B : Z) : Prop :=
  exists err : nat -> Z, (forall j, (j < N)%nat -> Z.abs (err j) <= B) /\
    forall j, (j < N)%nat -> rlwe_phase N sk ct j == msg j + err j [mod q].

(** well-shaped ciphertexts and keys *)
Definition is_rlwe (N k : nat) (ct : list (list Z)) : Prop := rect (S k) N ct.
Definition is_key (N k : nat) (sk : list (list Z)) : Prop := rect k N sk.

(** the platform/size combinations for which the polynomial kernels are exact (property C08) *)
Definition kernel_exact (tpu : Z) (N k : nat) (base_log : Z) : Prop :=
  (N mod 128 <> 0)%nat \/ tpu < 5 \/ 8 <= base_log \/ ((S k <= 4)%nat /\ Z.of_nat N * (255 * 2 ^ base_log) < 2 ^ 24).
Definition bat_exact (tpu : Z) (N rows : nat) : Prop := (N mod 128 = 0)%nat -> 5 <= tpu -> rows = 18%nat.
