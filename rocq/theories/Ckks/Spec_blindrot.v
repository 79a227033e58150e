(** Specification vocabulary for CKKS blind rotation. *)
From Coq Require Import ZArith List Bool.
From Verif Require Import Base.Modeq Base.Fermat Ckks.Spec_keyswitch.
Import ListNotations.
Local Open Scope Z_scope.

(** g names the rotation by e slots to the right: X -> X^g with g = 5^(-e) modulo 2n (for e < 0, g = 5^|e|) *)
Definition rotates (n : nat) (e g : Z) : Prop := 5 ^ Z.max e 0 * g == 5 ^ Z.max (- e) 0 [mod 2 * Z.of_nat n].

(** the number a list of bits stands for, least significant bit first *)
Fixpoint bits_value (bits : list Z) : Z := match bits with [] => 0 | b :: bits => b + 2 * bits_value bits end.

(** P times the error of one homomorphic rotation by a key bit: two key switches (one per component) and one division by P *)
Definition hmux_noise (n : nat) (q p : list Z) (B S : Z) : Z := 2 * switch_noise n q 1 B + (lprod p - 1) * (1 + Z.of_nat n * S).
