(** Specification vocabulary for the external product, blind rotation and bootstrapping: admissible parameters, shapes
    and bounds of the random draws, and the closed-form noise bounds.  No modelled function occurs here. *)
From Coq Require Import ZArith List.
From Verif Require Import Base.ZSum Base.Word Cggi.Model_decomposition Cggi.Spec_lwe Cggi.Spec_poly.
Import ListNotations.
Local Open Scope Z_scope.

(** decomposition parameters of a 32-bit word into [nn] base-2^log_base digits of which level_count are kept *)
Definition gadget (p : decomp_params) (nn : nat) : Prop :=
  1 <= log_base p < 32 /\ Z.of_nat nn * log_base p = 32 /\ decomp_total p = 32 /\ (1 <= level_count p <= nn)%nat.

(** error of dropping the low digits: none when all are kept *)
Definition gadget_trunc (p : decomp_params) (nn : nat) : Z :=
  if Nat.eqb (level_count p) nn then 0 else 2 ^ (32 - Z.of_nat (level_count p) * log_base p).

(** |m| * truncation * (1 + k*N*S)  +  (k+1) * levels * N * maxdigit * noise;  S bounds the key coefficients *)
Definition ext_product_noise (N k : nat) (p : decomp_params) (nn : nat) (S m E : Z) : Z :=
  Z.abs m * (gadget_trunc p nn * (1 + Z.of_nat k * (Z.of_nat N * S)))
  + Z.of_nat ((k + 1) * level_count p) * (Z.of_nat N * (2 ^ log_base p * E)).

(** the draws of one RGSW encryption: masks of k+1 blocks of levels of k polynomials, one noise word per row *)
Definition rgsw_draws (N k L : nat) (E : Z) (ai : list (list (list (list Z)))) (es : list (list Z)) : Prop :=
  length ai = S k /\ Forall (fun blk => cube L k N blk) ai /\ shape2 (S k) L es /\
  Forall (Forall (fun e => Z.abs (s32 e) <= E)) es.

(** gen_bootstrapping_key pads the number of encryptions up to a multiple of 20 *)
Definition bsk_count (use_bmmp : bool) (n : nat) : nat :=
  let num := if use_bmmp then (n + n / 2)%nat else n in ((num + 19) / 20 * 20)%nat.
Definition bsk_draws (N k L : nat) (E : Z) (count : nat) (ai : list (list (list (list (list Z))))) (es : list (list (list Z))) : Prop :=
  length ai = count /\ length es = count /\
  forall j, (j < count)%nat -> rgsw_draws N k L E (nth j ai []) (nth j es []).

(** noise of blind rotation over an LWE dimension n: n/2 external products by X^e - 1 with six noises each when the key
    is unrolled by two, n external products by a bit otherwise; S bounds the coefficients of the RLWE key *)
Definition rotation_noise_gen (use_bmmp : bool) (n N k : nat) (p : decomp_params) (nn : nat) (S E : Z) : Z :=
  if use_bmmp then Z.of_nat (n / 2) * ext_product_noise N k p nn S 2 (6 * E)
  else Z.of_nat n * ext_product_noise N k p nn S 1 E.
Definition rotation_noise (use_bmmp : bool) (n N k : nat) (p : decomp_params) (nn : nat) (E : Z) : Z :=
  rotation_noise_gen use_bmmp n N k p nn 1 E.

(** the draws of a key-switching key from a key of length n to one of length n', and the noise it adds *)
Definition ksk_draws (n n' L : nat) (E : Z) (ai : list (list (list Z))) (es : list (list Z)) : Prop :=
  length ai = n /\ Forall (shape2 L n') ai /\ shape2 n L es /\ Forall (Forall (fun e => Z.abs (s32 e) <= E)) es.
Definition key_switch_noise_gen (n : nat) (p : decomp_params) (nn : nat) (S E : Z) : Z :=
  Z.of_nat n * (S * gadget_trunc p nn + Z.of_nat (level_count p) * (2 ^ log_base p * E)).
Definition key_switch_noise (n : nat) (p : decomp_params) (nn : nat) (E : Z) : Z := key_switch_noise_gen n p nn 1 E.
