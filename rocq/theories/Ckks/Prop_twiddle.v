(** C40: generators for every prime, and the matrices of powers. *)
From Coq Require Import ZArith Znumtheory List Bool Lia Setoid.
From Verif Require Import Base.ZSum Base.Modeq Base.Lists Base.Powm Base.Egcd Base.Fermat Base.Order.
From Verif Require Import Ckks.Model_scheme Ckks.Model_math Ckks.Proof_ntt_accel Ckks.Prop_math.
Import ListNotations.
Local Open Scope Z_scope.

(** find_generator for every prime, 2 included *)
Theorem C40_generator_all : forall q, prime q -> exists g, find_generator q = Some g /\ 1 <= g < q /\ has_order q (q - 1) g.
Proof.
  intros q Hq. destruct (Z.eq_dec q 2) as [->|N].
  - exists 1. split; [reflexivity|]. split; [lia|]. split; [apply eqm_refl|]. intros k Hk. lia.
  - pose proof (prime_ge_2 q Hq). destruct (C40_generator q Hq ltac:(lia)) as (g & E & B & O). exists g. split; [exact E|]. split; [lia|exact O].
Qed.
Print Assumptions C40_generator_all.

(** gen_twiddle_matrix: entry (r, c) is the residue of omega^(r*c); gen_twiddle_matrix_inv: the entries are the inverses of those,
    and an omega that shares a factor with q is rejected *)
Theorem C40_twiddle : forall rows cols q omega, 1 < q ->
  length (gen_twiddle_matrix rows cols q omega) = rows /\
  forall r, (r < rows)%nat -> length (nth r (gen_twiddle_matrix rows cols q omega) []) = cols /\
    forall c, (c < cols)%nat -> nth c (nth r (gen_twiddle_matrix rows cols q omega) []) 0 = omega ^ Z.of_nat (r * c) mod q.
Proof.
  intros rows cols q w Q. destruct (twiddle_shaped q rows cols w Q) as [(S1 & S2 & S3) V]. split; [exact S1|]. intros r Hr. split; [apply S2; exact Hr|].
  intros c Hc. specialize (S3 r c Hr Hc). specialize (V r c Hr Hc). unfold ent in *. symmetry. apply eqm_small_mod; [lia| |exact S3]. symmetry. exact V.
Qed.
Print Assumptions C40_twiddle.
Theorem C40_twiddle_inv : forall rows cols q omega, 1 < q ->
  (Z.gcd omega q <> 1 -> gen_twiddle_matrix_inv rows cols q omega = None) /\
  (Z.gcd omega q = 1 -> exists M, gen_twiddle_matrix_inv rows cols q omega = Some M /\ length M = rows /\
    forall r, (r < rows)%nat -> length (nth r M []) = cols /\
      forall c, (c < cols)%nat -> 0 <= nth c (nth r M []) 0 < q /\ (nth c (nth r M []) 0 * omega ^ Z.of_nat (r * c)) mod q = 1).
Proof.
  intros rows cols q w Q. unfold gen_twiddle_matrix_inv. split; intros G; [rewrite inverse_none by (lia || exact G); reflexivity|].
  destruct (inverse_total w q ltac:(lia) G) as [v E]. rewrite E. destruct (inverse_some w q v ltac:(lia) E) as [_ I].
  exists (gen_twiddle_matrix rows cols q v). split; [reflexivity|]. destruct (C40_twiddle rows cols q v Q) as [L H]. split; [exact L|].
  intros r Hr. destruct (H r Hr) as [L2 H2]. split; [exact L2|]. intros c Hc. rewrite (H2 c Hc). split; [apply Z.mod_pos_bound; lia|].
  apply eqm_small_mod; [lia| |lia]. rewrite eqm_mod. rewrite <- Z.pow_mul_l. change ((v * w) ^ Z.of_nat (r * c)) with (pw (v * w) (r * c)).
  clear - I. induction (r * c)%nat as [|n IH]; [apply eqm_refl|]. rewrite pw_S, IH. rewrite (Z.mul_comm v w), I. apply eqm_refl.
Qed.
Print Assumptions C40_twiddle_inv.

Example C40_twiddle_ex : gen_twiddle_matrix 2 3 17 3 = [[1; 1; 1]; [1; 3; 9]] /\ gen_twiddle_matrix_inv 2 3 17 3 = Some [[1; 1; 1]; [1; 6; 2]] /\
  gen_twiddle_matrix_inv 2 3 15 3 = None /\ find_generator 2 = Some 1.
Proof. repeat split; vm_compute; reflexivity. Qed.
