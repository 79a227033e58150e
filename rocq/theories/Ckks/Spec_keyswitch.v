(** Specification vocabulary for key switching: the digits the moduli are grouped into and the noise a key switch may add. *)
From Coq Require Import ZArith List Bool.
From Verif Require Import Base.ZSum Base.Fermat Base.Crt Ckks.Model_plan Ckks.Prop_ntt_accel.
Import ListNotations.
Local Open Scope Z_scope.

(** the t-th of dnum consecutive groups of ceil(|q| / dnum) moduli (the last one may be shorter) *)
Definition digit_group (q : list Z) (dnum t : nat) : list Z :=
  let alpha := ceil_div (length q) dnum in firstn alpha (skipn (t * alpha) q).

(** what a key switch may add: for each digit, n products of an error coefficient (at most B) with a digit coefficient below
    (number of moduli in the group) * (product of the group) *)
Definition switch_noise (n : nat) (q : list Z) (dnum : nat) (B : Z) : Z :=
  zsum dnum (fun t => Z.of_nat n * (Z.of_nat (length (digit_group q dnum t)) * lprod (digit_group q dnum t) * B)).

(** parameters the accelerated key switch handles: distinct NTT-friendly primes with exact Barrett constants, no empty
    digit, at most 4112 moduli per digit, every prime at least 1020 times the digit size *)
Definition switch_setting (lr lc : nat) (q p : list Z) (dnum : nat) : Prop :=
  q <> [] /\ p <> [] /\ (0 < dnum)%nat /\ (forall t, (t < dnum)%nat -> digit_group q dnum t <> []) /\
  Forall (accel_modulus lr lc) (q ++ p) /\ coprime_moduli (q ++ p) /\
  Z.of_nat (ceil_div (length q) dnum) <= 4112 /\ Forall (fun m => 1020 * Z.of_nat (ceil_div (length q) dnum) <= m) (q ++ p).
