(** C30: the constants of the CRT, and the test for powers of two. *)
From Coq Require Import ZArith Znumtheory List Bool Lia.
From Verif Require Import Base.ZSum Base.Modeq Base.Lists Base.Egcd Base.Word Base.Fermat Base.Crt Ckks.Model_rns_utils Ckks.Proof_ntt_ref Ckks.Prop_crt.
Import ListNotations.
Local Open Scope Z_scope.

(** the constants modulo other moduli: entry (i, j) is the product of all moduli but the i-th, modulo the j-th target *)
Theorem C30_q_hat_mod_p : forall moduli target, Forall (fun m => 0 < m) moduli ->
  length (compute_q_hat_mod_p moduli target) = length moduli /\
  forall i, (i < length moduli)%nat -> length (nth i (compute_q_hat_mod_p moduli target) []) = length target /\
    forall j, (j < length target)%nat ->
      nth j (nth i (compute_q_hat_mod_p moduli target) []) 0 = (lprod (firstn i moduli) * lprod (skipn (S i) moduli)) mod nth j target 0.
Proof.
  intros moduli target P. unfold compute_q_hat_mod_p. rewrite map_length. split; [reflexivity|]. intros i Hi.
  rewrite (nth_map_lt _ _ _ _ 0) by exact Hi. rewrite map_length. split; [reflexivity|]. intros j Hj. rewrite (nth_map_lt _ _ _ _ 0) by exact Hj.
  f_equal. rewrite Forall_forall in P. pose proof (P (nth i moduli 0) (nth_In _ _ Hi)) as Q.
  rewrite product_lprod. replace (lprod moduli) with (lprod (firstn i moduli) * lprod (skipn (S i) moduli) * nth i moduli 0); [apply Z.div_mul; lia|].
  clear P Q Hj. revert i Hi. induction moduli as [|m l IH]; intros i Hi; [cbn in Hi; lia|]. destruct i as [|i].
  - cbn [firstn skipn nth]. unfold lprod. cbn [fold_right]. ring.
  - cbn [firstn skipn nth]. cbn [length] in Hi. specialize (IH i ltac:(lia)). unfold lprod in *. cbn [fold_right]. rewrite <- IH. cbn [skipn]. ring.
Qed.
Print Assumptions C30_q_hat_mod_p.

(** the inverses: residues, and inverse to the product of the other moduli *)
Theorem C30_q_hat_inv : forall moduli, coprime_moduli moduli ->
  exists inv, compute_q_hat_inv_mod_q moduli = Some inv /\ length inv = length moduli /\
    forall i, (i < length moduli)%nat -> 0 <= nth i inv 0 < nth i moduli 0 /\
      (lprod moduli / nth i moduli 0) * nth i inv 0 == 1 [mod nth i moduli 0].
Proof.
  intros moduli C. destruct (q_hat_inv_spec moduli C) as (inv & E & L & H). exists inv. split; [exact E|]. split; [exact L|].
  intros i Hi. destruct (H i Hi) as (H1 & H2 & H3). split; [exact H2|]. rewrite <- product_lprod, H1. exact H3.
Qed.
Print Assumptions C30_q_hat_inv.

Theorem C30_is_power_of_two : forall x, is_power_of_two x = true <-> exists k, 0 <= k /\ x = 2 ^ k.
Proof. intros x. split; [apply is_power_of_two_only|]. intros (k & Hk & ->). apply is_power_of_two_pow. exact Hk. Qed.
Print Assumptions C30_is_power_of_two.

Example C30_constants_ex : compute_q_hat_mod_p [3; 5; 7] [11; 4] = [[2; 3]; [10; 1]; [4; 3]] /\ compute_q_hat_inv_mod_q [3; 5; 7] = Some [2; 1; 1] /\
  map is_power_of_two [-4; 0; 1; 6; 8] = [false; false; true; false; true].
Proof. repeat split; vm_compute; reflexivity. Qed.
