(** C44 for carry_add, the carry propagation with a fixed number of rounds. *)
From Coq Require Import ZArith List Bool Lia.
From Verif Require Import Base.ZSum Base.Word Base.Bits Base.Lists.
From Verif Require Import Ec.Model_util Ec.Model_field Ec.Spec_chunks Ec.Proof_chunks Ec.Proof_carry.
Import ListNotations.
Local Open Scope Z_scope.

Definition step (w : Z) (row : list Z) : list Z := map2 (fun l h => (l + h) mod 2 ^ w) (map (fun v => Z.land v (2 ^ 16 - 1)) row) (roll (map (fun v => v / 2 ^ 16) row) 0).
Lemma step_row w row : Forall (fun v => 0 <= v < 2 ^ (16 + 16)) row -> step w row = carry_row w (2 ^ 16 - 1) 16 row.
Proof.
  intros F. unfold step, carry_row. f_equal. f_equal. apply map_ext_in. intros v Hv. rewrite Forall_forall in F. specialize (F v Hv). symmetry. apply Z.mod_small.
  split; [apply Z.div_pos; lia | apply Z.div_lt_upper_bound; lia].
Qed.
Definition low_done (j : nat) (row : list Z) : Prop := forall i, (i < j)%nat -> nth i row 0 < 2 ^ 16.
Lemma top_small n row : length row = S n -> Forall (fun v => 0 <= v) row -> chunk_value 16 row < 2 ^ (16 * Z.of_nat (S n)) -> last row 0 < 2 ^ 16.
Proof.
  intros L F V. assert (N : row <> []) by (destruct row; [discriminate | discriminate]). destruct (exists_last N) as (r & t & ->). rewrite app_length in L. cbn [length] in L. rewrite last_last.
  apply Forall_app in F. destruct F as [Fr Ft]. inversion Ft; subst. rewrite value_app in V by lia. cbn [chunk_value] in V. rewrite Z.mul_0_r, Z.add_0_r in V.
  pose proof (value_nonneg 16 r ltac:(lia) Fr). replace (length r) with n in V by lia. rewrite Nat2Z.inj_succ in V. replace (16 * Z.succ (Z.of_nat n)) with (16 * Z.of_nat n + 16) in V by lia.
  rewrite Z.pow_add_r in V by lia. pose proof (pow2_pos (16 * Z.of_nat n) ltac:(lia)). nia.
Qed.
Lemma nth_roll (l : list Z) i : (i < length l)%nat -> nth i (roll l 0) 0 = match i with O => last l 0 | S j => nth j l 0 end.
Proof.
  intros H. destruct i as [| i]; [reflexivity |]. unfold roll. cbn [nth]. assert (N : l <> []) by (destruct l; [cbn in H; lia | discriminate]). destruct (exists_last N) as (r & t & ->).
  rewrite removelast_app1. rewrite app_length in H. cbn in H. rewrite app_nth1 by lia. reflexivity.
Qed.
Lemma last_map (f : Z -> Z) l : l <> [] -> last (map f l) 0 = f (last l 0).
Proof. intros N. destruct (exists_last N) as (r & t & ->). rewrite map_app. cbn [map]. rewrite !last_last. reflexivity. Qed.
Lemma step_low w n j row : 32 <= w -> length row = S n -> Forall (fun v => 0 <= v < 2 ^ (16 + 16)) row -> chunk_value 16 row < 2 ^ (16 * Z.of_nat (S n)) -> (j <= n)%nat -> low_done j row -> low_done (S j) (step w row).
Proof.
  intros Hw L F V Hj D i Hi. assert (N : row <> []) by (destruct row; discriminate). assert (F0 : Forall (fun v => 0 <= v) row) by (eapply Forall_impl; [| exact F]; cbn beta; intros; lia).
  unfold step. rewrite (nth_map2 _ _ _ i 0 0) by (rewrite ?roll_length, ?map_length by (destruct row; discriminate); lia). rewrite nth_roll by (rewrite map_length; lia).
  assert (A : forall k, (k <= n)%nat -> 0 <= nth k row 0) by (intros k Hk; rewrite Forall_forall in F0; apply F0, nth_In; lia).
  assert (H0 : match i with O => last (map (fun v => v / 2 ^ 16) row) 0 | S k => nth k (map (fun v => v / 2 ^ 16) row) 0 end = 0).
  { destruct i as [| i].
    - rewrite (last_map (fun v => v / 2 ^ 16)) by exact N. apply Z.div_small. split; [| exact (top_small n row L F0 V)]. destruct (exists_last N) as (r & t & ->). rewrite last_last. apply Forall_app in F0. destruct F0 as [_ F0]. inversion F0; assumption.
    - rewrite (nth_indep _ 0 ((fun v => v / 2 ^ 16) 0)) by (rewrite map_length; lia). rewrite (map_nth (fun v => v / 2 ^ 16)). apply Z.div_small. split; [apply A; lia | apply D; lia]. }
  rewrite H0. rewrite (nth_indep _ 0 ((fun v => Z.land v (2 ^ 16 - 1)) 0)) by (rewrite map_length; lia). rewrite (map_nth (fun v => Z.land v (2 ^ 16 - 1))). rewrite land_mask by lia. rewrite Z.add_0_r.
  pose proof (Z.mod_pos_bound (nth i row 0) (2 ^ 16) ltac:(lia)). assert (2 ^ 32 <= 2 ^ w) by (apply pow2_le; lia). change (2 ^ 32) with 4294967296 in *. change (2 ^ 16) with 65536 in *. rewrite Z.mod_small; lia.
Qed.
Lemma iter_steps w n row : 32 <= w -> length row = S n -> Forall (fun v => 0 <= v < 2 ^ (16 + 16)) row -> chunk_value 16 row < 2 ^ (16 * Z.of_nat (S n)) -> forall j, (j <= S n)%nat ->
  let r := Nat.iter j (step w) row in length r = S n /\ Forall (fun v => 0 <= v < 2 ^ (16 + 16)) r /\ chunk_value 16 r = chunk_value 16 row /\ low_done j r.
Proof.
  intros Hw L F V. induction j as [| j IH]; intros Hj; cbn [Nat.iter nat_rect].
  - repeat split; try assumption. intros i Hi. lia.
  - destruct (IH ltac:(lia)) as (I1 & I2 & I3 & I4). cbv zeta. change (nat_rect _ row (fun _ => step w) j) with (Nat.iter j (step w) row). set (r := Nat.iter j (step w) row) in *.
    assert (Vr : chunk_value 16 r < 2 ^ (16 * Z.of_nat (S n))) by lia. destruct (carry_row_value w 16 (S n) r ltac:(lia) ltac:(lia) I1 ltac:(lia) I2 Vr) as [C1 C2].
    split; [rewrite step_row by exact I2; rewrite carry_row_length; [exact I1 | destruct r; discriminate] |]. split; [rewrite step_row by exact I2; exact C1 |]. split; [rewrite step_row by exact I2; lia |].
    apply (step_low w n j r Hw I1 I2 Vr ltac:(lia) I4).
Qed.
(** As many rounds as there are chunks turn chunks of up to 32 bits into the 16-bit chunks of the same value, if the value fits the array. *)
Theorem C44_carry_add_partial : forall w n row, 32 <= w -> (1 <= n)%nat -> length row = n -> Forall (fun v => 0 <= v < 2 ^ 32) row -> chunk_value 16 row < 2 ^ (16 * Z.of_nat n) ->
  digits 16 n (carry_add w row n (2 ^ 16 - 1) 16) /\ chunk_value 16 (carry_add w row n (2 ^ 16 - 1) 16) = chunk_value 16 row.
Proof.
  intros w [| n] row Hw Hn L F V; [lia |]. destruct (iter_steps w n row Hw L F V (S n) ltac:(lia)) as (I1 & I2 & I3 & I4). unfold carry_add. change (fun row0 : list Z => _) with (step w).
  split; [| exact I3]. unfold digits. split; [exact I1 |]. apply Forall_forall. intros v Hv. destruct (In_nth _ _ 0 Hv) as (i & Hi & <-). split; [| apply I4; lia].
  rewrite Forall_forall in I2. apply I2. apply nth_In. exact Hi.
Qed.
Example C44_carry_add_ex : carry_add 32 [131071; 65535; 65535; 5] 4 (2 ^ 16 - 1) 16 = [65535; 0; 0; 6] /\ chunk_value 16 [131071; 65535; 65535; 5] < 2 ^ 64.
Proof. split; vm_compute; reflexivity. Qed.
Print Assumptions C44_carry_add_partial.
(** With two rounds fewer a carry that ripples through all the chunks is left over. *)
Example C44_carry_add_rounds_ex : carry_add 32 [131071; 65535; 65535; 5] 2 (2 ^ 16 - 1) 16 = [65535; 0; 65536; 5].
Proof. vm_compute. reflexivity. Qed.
(** FINDING: a carry out of the top chunk comes back in chunk 0: the result is not the value modulo 2^(16 n) *)
Theorem C44_carry_add_overflow_refuted : ~ forall n row, (2 <= n)%nat -> length row = n -> Forall (fun v => 0 <= v < 2 ^ 32) row ->
  chunk_value 16 (carry_add 32 row n (2 ^ 16 - 1) 16) = chunk_value 16 row mod 2 ^ (16 * Z.of_nat n).
Proof.
  intros H. specialize (H 2%nat [0; 65536] ltac:(lia) eq_refl). assert (F : Forall (fun v => 0 <= v < 2 ^ 32) [0; 65536]) by (repeat constructor; lia). specialize (H F). vm_compute in H. discriminate.
Qed.
Print Assumptions C44_carry_add_overflow_refuted.
