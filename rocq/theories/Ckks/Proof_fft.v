(** Lemmas about the canonical embedding loops. *)
From Coq Require Import Reals ZArith List Bool Lia Lra.
From Verif Require Import Base.Lists Base.Word Base.ZSum Base.Bitrev Base.Cplx Ckks.Model_rns_utils Ckks.Proof_bitrev Ckks.Prop_bitrev Ckks.Model_fft Ckks.Spec_fft.
Import ListNotations.
Local Open Scope R_scope.
Add Ring CPLX2 : cplx_ring.

Lemma zip2_length {A B C} (f : A -> B -> C) a b : length (zip2 f a b) = Nat.min (length a) (length b).
Proof. unfold zip2. rewrite map_length, combine_length. reflexivity. Qed.
Lemma zip2_nth {A B C} (f : A -> B -> C) a b i da db dc : (i < length a)%nat -> (i < length b)%nat -> nth i (zip2 f a b) dc = f (nth i a da) (nth i b db).
Proof.
  revert b i. induction a as [|x a IH]; intros [|y b] [|i] Ha Hb; cbn in *; try lia; [reflexivity |]. apply IH; lia.
Qed.

Lemma rot_loop_length n x g m : length (rot_group_loop n x g m) = n.
Proof. revert x. induction n as [|n IH]; intros x; cbn; [reflexivity |]. rewrite IH. reflexivity. Qed.
Lemma rot_loop_nth n : forall x g m j, (0 < m)%Z -> (j < n)%nat -> nth j (rot_group_loop n x g m) 0%Z = ((x * g ^ Z.of_nat (S j)) mod m)%Z.
Proof.
  induction n as [|n IH]; intros x g m j Hm Hj; [lia |]. cbn [rot_group_loop]. destruct j as [|j]; cbn [nth].
  - f_equal. rewrite Z.pow_1_r. reflexivity.
  - rewrite IH by lia. rewrite Z.mul_mod_idemp_l by lia. f_equal. rewrite (Nat2Z.inj_succ (S j)), Z.pow_succ_r by lia. ring.
Qed.
Lemma rot_group_length m nh g : length (rot_group m nh g) = Nat.max 1 nh.
Proof. unfold rot_group. cbn [length]. rewrite rot_loop_length. lia. Qed.
Lemma rot_group_nth m nh j : (1 < m)%nat -> (j < nh)%nat -> nth j (rot_group (Z.of_nat m) nh 5) 0%Z = Z.of_nat (5 ^ j mod m).
Proof.
  intros Hm Hj. rewrite Nat2Z.inj_mod, Nat2Z.inj_pow. unfold rot_group. destruct j as [|j]; cbn [nth].
  - rewrite Z.pow_0_r. symmetry. apply Z.mod_small. lia.
  - rewrite rot_loop_nth by lia. rewrite Z.mul_1_l. reflexivity.
Qed.

Lemma roots_nth m k : (k < m)%nat -> nth k (roots m) c0 = zeta m k.
Proof. intros H. unfold roots. rewrite nth_map_seq by exact H. reflexivity. Qed.

(** sizes: m = 4 * 2^L, length = 2^(s+1) *)
Lemma sizes L s : (s < L)%nat -> (4 * 2 ^ L = 2 * 2 ^ s * 4 * 2 ^ (L - S s))%nat.
Proof. intros H. replace L with (s + 1 + (L - S s))%nat at 1 by lia. rewrite !Nat.pow_add_r. cbn [Nat.pow]. lia. Qed.
Lemma pow2_pos n : (0 < 2 ^ n)%nat.
Proof. pose proof (Nat.pow_nonzero 2 n). lia. Qed.
Lemma half_of s : (2 * 2 ^ s / 2 = 2 ^ s)%nat.
Proof. rewrite Nat.mul_comm. apply Nat.div_mul. lia. Qed.
Lemma root_index m lenq step r : (m = lenq * step)%nat -> (0 < lenq)%nat -> (0 < step)%nat -> (r < lenq)%nat -> nth (Z.to_nat (Z.of_nat r * (Z.of_nat m / Z.of_nat lenq))) (roots m) c0 = zeta lenq r.
Proof.
  intros -> Hl Hs Hr. rewrite <- Nat2Z.inj_div. rewrite (Nat.mul_comm lenq), Nat.div_mul by lia. rewrite <- Nat2Z.inj_mul, Nat2Z.id. rewrite roots_nth by nia. rewrite (Nat.mul_comm step lenq). apply zeta_scale; assumption.
Qed.
Lemma fwd_roots_length m len rg : length (fwd_roots m len rg) = Nat.min (len / 2) (length rg).
Proof. unfold fwd_roots. rewrite map_length, firstn_length. reflexivity. Qed.
Lemma inv_roots_length m len rg : length (inv_roots m len rg) = Nat.min (len / 2) (length rg).
Proof. unfold inv_roots. rewrite map_length, firstn_length. reflexivity. Qed.
Lemma mod_idx L s j : (s < L)%nat -> (Z.of_nat (5 ^ j mod (4 * 2 ^ L)) mod Z.of_nat (2 * 2 ^ s * 4))%Z = Z.of_nat (5 ^ j mod (2 * 2 ^ s * 4)).
Proof.
  intros H. rewrite <- Nat2Z.inj_mod. f_equal. rewrite (sizes L s H). pose proof (pow2_pos s). pose proof (pow2_pos (L - S s)). set (lq := (2 * 2 ^ s * 4)%nat) in *. rewrite Nat.mod_mul_r by lia. rewrite (Nat.mul_comm lq (_ mod _)), Nat.mod_add by lia. apply Nat.mod_mod. lia.
Qed.
Lemma fwd_roots_nth L s j : (s < L)%nat -> (j < 2 ^ s)%nat -> nth j (fwd_roots (4 * 2 ^ L) (2 * 2 ^ s) (rot_group (Z.of_nat (4 * 2 ^ L)) (2 ^ L) 5)) c0 = zeta (2 * 2 ^ s * 4) (5 ^ j).
Proof.
  intros Hs Hj. pose proof (pow2_pos s). pose proof (pow2_pos L). pose proof (pow2_pos (L - S s)). assert (LE : (2 ^ s <= 2 ^ L)%nat) by (apply Nat.pow_le_mono_r; lia).
  unfold fwd_roots. rewrite half_of. rewrite (nth_map_lt _ _ _ _ 0%Z) by (rewrite firstn_length, rot_group_length; lia). rewrite nth_firstn_lt by exact Hj. rewrite rot_group_nth by lia. rewrite mod_idx by exact Hs.
  rewrite (root_index (4 * 2 ^ L) (2 * 2 ^ s * 4) (2 ^ (L - S s))); [apply zeta_mod; lia | apply sizes; exact Hs | lia | lia | apply Nat.mod_upper_bound; lia].
Qed.
(** the inverse stage uses the conjugate root *)
Lemma inv_roots_nth L s j : (s < L)%nat -> (j < 2 ^ s)%nat -> cmul (nth j (inv_roots (4 * 2 ^ L) (2 * 2 ^ s) (rot_group (Z.of_nat (4 * 2 ^ L)) (2 ^ L) 5)) c0) (zeta (2 * 2 ^ s * 4) (5 ^ j)) = c1.
Proof.
  intros Hs Hj. pose proof (pow2_pos s). pose proof (pow2_pos L). pose proof (pow2_pos (L - S s)). assert (LE : (2 ^ s <= 2 ^ L)%nat) by (apply Nat.pow_le_mono_r; lia).
  unfold inv_roots. rewrite half_of. rewrite (nth_map_lt _ _ _ _ 0%Z) by (rewrite firstn_length, rot_group_length; lia). rewrite nth_firstn_lt by exact Hj. rewrite rot_group_nth by lia. cbv zeta. rewrite mod_idx by exact Hs.
  set (lq := (2 * 2 ^ s * 4)%nat) in *. set (r := (5 ^ j mod lq)%nat). assert (Hr : (r < lq)%nat) by (apply Nat.mod_upper_bound; lia). rewrite <- Nat2Z.inj_sub by lia. rewrite <- Nat2Z.inj_mod.
  rewrite (root_index (4 * 2 ^ L) lq (2 ^ (L - S s))); [| apply sizes; exact Hs | lia | lia | apply Nat.mod_upper_bound; lia]. rewrite zeta_mod by lia. rewrite <- (zeta_mod lq (5 ^ j)) by lia. fold r. rewrite <- zeta_add. replace (lq - r + r)%nat with lq by lia. apply zeta_full. lia.
Qed.

(** one stage, entry by entry *)
Lemma skipn_skipn' {A} a b (l : list A) : skipn a (skipn b l) = skipn (b + a) l.
Proof. revert l. induction b as [|b IH]; intros l; [reflexivity |]. destruct l as [|x l]; [rewrite !skipn_nil; reflexivity |]. cbn [skipn Nat.add]. apply IH. Qed.
Lemma stage_some f c len vals : length vals = (c * len)%nat -> (0 < len)%nat -> (len mod 2 = 0)%nat -> stage f len vals = Some (concat (map f (rows c len vals))).
Proof. intros H1 H2 H3. unfold stage. rewrite H1, Nat.mod_mul, H3, Nat.div_mul by lia. reflexivity. Qed.
Lemma stage_nth (f : list cplx -> list cplx) c len (vals : list cplx) : length vals = (c * len)%nat -> (0 < len)%nat -> (forall r, length r = len -> length (f r) = len) ->
  let v := concat (map f (rows c len vals)) in length v = (c * len)%nat /\ forall k j, (k < c)%nat -> (j < len)%nat -> nth (k * len + j) v c0 = nth j (f (firstn len (skipn (k * len) vals))) c0.
Proof.
  intros H1 H2 H3 v. assert (F : Forall (fun r => length r = len) (map f (rows c len vals))). { apply Forall_map. eapply Forall_impl; [| apply rows_Forall; exact H1]. intros r Hr. apply H3. exact Hr. }
  split; [unfold v; rewrite (concat_length_const _ len F), map_length, rows_length; reflexivity |]. intros k j Hk Hj. unfold v. rewrite (concat_nth_const _ len) by (try exact F; try exact Hj; rewrite map_length, rows_length; exact Hk). rewrite (nth_map_lt _ _ _ _ []) by (rewrite rows_length; exact Hk). f_equal. f_equal.
  clear - Hk H1. revert vals k H1 Hk. induction c as [|c IH]; intros vals k H1 Hk; [lia |]. cbn [rows]. destruct k as [|k]; cbn [nth]; [reflexivity |]. rewrite IH by (try rewrite skipn_length; lia). f_equal.
  apply skipn_skipn'.
Qed.

(** the powers of five: 5^(2^s) = 1 + 2^(s+2) modulo 2^(s+3) *)
Lemma five_power s : exists k, (5 ^ (2 ^ s) = 1 + 4 * 2 ^ s * (2 * k + 1))%nat.
Proof.
  induction s as [|s (k & IH)]; [exists 0%nat; reflexivity |]. rewrite Nat.pow_succ_r', Nat.mul_comm, Nat.pow_mul_r. rewrite IH. exists (k + 2 ^ s * (2 * k + 1) * (2 * k + 1))%nat. cbn [Nat.pow]. ring.
Qed.
Lemma five_odd j : exists k, (5 ^ j = 2 * k + 1)%nat.
Proof. induction j as [|j (k & IH)]; [exists 0%nat; reflexivity |]. rewrite Nat.pow_succ_r', IH. exists (5 * k + 2)%nat. lia. Qed.

(** the value of a block after s stages: k selects the subsequence, j the point *)
Definition partial_value (a : list cplx) (L s k j : nat) : cplx := csum (2 ^ s) (fun i => cmul (nth (brev (L - s) k + 2 ^ (L - s) * i) a c0) (zeta (4 * 2 ^ s) (5 ^ j * i))).

(** a turn of 2^s points in the exponent does not change the even part and negates the odd part *)
Lemma zeta_turn_even s j i : zeta (4 * 2 ^ s) (5 ^ (2 ^ s + j) * i) = zeta (4 * 2 ^ s) (5 ^ j * i).
Proof.
  destruct (five_power s) as (k & E). rewrite Nat.pow_add_r, E. pose proof (pow2_pos s). replace ((1 + 4 * 2 ^ s * (2 * k + 1)) * 5 ^ j * i)%nat with (5 ^ j * i + 4 * 2 ^ s * ((2 * k + 1) * 5 ^ j * i))%nat by ring. apply zeta_period. lia.
Qed.
Lemma zeta_turn_odd s j : zeta (2 * 2 ^ s * 4) (5 ^ (2 ^ s + j)) = copp (zeta (2 * 2 ^ s * 4) (5 ^ j)).
Proof.
  destruct (five_power s) as (k & E). destruct (five_odd j) as (h & O). rewrite Nat.pow_add_r, E. pose proof (pow2_pos s).
  replace ((1 + 4 * 2 ^ s * (2 * k + 1)) * 5 ^ j)%nat with (5 ^ j + 4 * 2 ^ s * ((2 * k + 1) * 5 ^ j))%nat by ring. rewrite zeta_add. replace (2 * 2 ^ s * 4)%nat with (2 * (4 * 2 ^ s))%nat by ring.
  rewrite O at 2. replace ((2 * k + 1) * (2 * h + 1))%nat with (2 * (2 * k * h + k + h) + 1)%nat by ring. rewrite zeta_half_odd by lia. ring.
Qed.
Lemma zeta_double s x : zeta (2 * 2 ^ s * 4) (x * 2) = zeta (4 * 2 ^ s) x.
Proof. pose proof (pow2_pos s). replace (2 * 2 ^ s * 4)%nat with (4 * 2 ^ s * 2)%nat by ring. apply zeta_scale; lia. Qed.

Lemma partial_step a L s k j : (s < L)%nat ->
  partial_value a L (S s) k j = cadd (partial_value a L s (2 * k) j) (cmul (zeta (2 * 2 ^ s * 4) (5 ^ j)) (partial_value a L s (2 * k + 1) j)).
Proof.
  intros Hs. unfold partial_value. rewrite Nat.pow_succ_r', csum_even_odd, <- csum_mul. replace (L - s)%nat with (S (L - S s)) by lia. set (l := (L - S s)%nat).
  assert (B0 : brev (S l) (2 * k) = brev l k). { rewrite <- (Nat.add_0_r (2 * k)), brev_low by lia. lia. } assert (B1 : brev (S l) (2 * k + 1) = (2 ^ l + brev l k)%nat). { rewrite brev_low by lia. lia. } rewrite B0, B1.
  replace (4 * (2 * 2 ^ s))%nat with (2 * 2 ^ s * 4)%nat by ring. f_equal; apply csum_ext; intros i Hi.
  - f_equal; [f_equal; rewrite Nat.pow_succ_r'; ring |]. replace (5 ^ j * (2 * i))%nat with (5 ^ j * i * 2)%nat by ring. apply zeta_double.
  - replace (5 ^ j * (2 * i + 1))%nat with (5 ^ j + 5 ^ j * i * 2)%nat by ring. rewrite zeta_add, zeta_double. replace (brev l k + 2 ^ l * (2 * i + 1))%nat with (2 ^ l + brev l k + 2 ^ S l * i)%nat by (rewrite Nat.pow_succ_r'; ring). ring.
Qed.
Lemma partial_turn a L s k j : partial_value a L s k (2 ^ s + j) = partial_value a L s k j.
Proof. unfold partial_value. apply csum_ext. intros i _. rewrite zeta_turn_even. reflexivity. Qed.
Lemma partial_step_high a L s k j : (s < L)%nat ->
  partial_value a L (S s) k (2 ^ s + j) = csub (partial_value a L s (2 * k) j) (cmul (zeta (2 * 2 ^ s * 4) (5 ^ j)) (partial_value a L s (2 * k + 1) j)).
Proof. intros Hs. rewrite (partial_step a L s k _ Hs), !partial_turn, zeta_turn_odd. ring. Qed.

Lemma fwd_row_length rs half row : length row = (2 * half)%nat -> length rs = half -> length (fwd_row rs half row) = (2 * half)%nat.
Proof. intros H1 H2. unfold fwd_row. rewrite app_length, !zip2_length, firstn_length, skipn_length. lia. Qed.
Lemma fwd_row_nth rs half row j : length row = (2 * half)%nat -> length rs = half -> (j < half)%nat ->
  nth j (fwd_row rs half row) c0 = cadd (nth j row c0) (cmul (nth (half + j) row c0) (nth j rs c0)) /\
  nth (half + j) (fwd_row rs half row) c0 = csub (nth j row c0) (cmul (nth (half + j) row c0) (nth j rs c0)).
Proof.
  intros H1 H2 Hj. unfold fwd_row. assert (LU : length (firstn half row) = half) by (rewrite firstn_length; lia). assert (LV : length (zip2 cmul (skipn half row) rs) = half) by (rewrite zip2_length, skipn_length; lia).
  assert (EV : nth j (zip2 cmul (skipn half row) rs) c0 = cmul (nth (half + j) row c0) (nth j rs c0)) by (rewrite (zip2_nth _ _ _ _ c0 c0) by (try rewrite skipn_length; lia); rewrite nth_skipn; reflexivity).
  split.
  - rewrite app_nth1 by (rewrite zip2_length; lia). rewrite (zip2_nth _ _ _ _ c0 c0) by lia. rewrite EV, nth_firstn_lt by exact Hj. reflexivity.
  - rewrite app_nth2 by (rewrite zip2_length; lia). rewrite zip2_length, LU, LV. replace (half + j - Nat.min half half)%nat with j by lia. rewrite (zip2_nth _ _ _ _ c0 c0) by lia. rewrite EV, nth_firstn_lt by exact Hj. reflexivity.
Qed.

Definition fwd_state (a : list cplx) (L s : nat) (v : list cplx) : Prop :=
  length v = (2 ^ L)%nat /\ forall k j, (k < 2 ^ (L - s))%nat -> (j < 2 ^ s)%nat -> nth (k * 2 ^ s + j) v c0 = partial_value a L s k j.
Definition rg_of (L : nat) : list Z := rot_group (Z.of_nat (4 * 2 ^ L)) (2 ^ L) 5.
Lemma rg_of_length L : length (rg_of L) = (2 ^ L)%nat.
Proof. unfold rg_of. rewrite rot_group_length. pose proof (pow2_pos L). lia. Qed.
Lemma block_count L s : (s < L)%nat -> (2 ^ L = 2 ^ (L - S s) * (2 * 2 ^ s))%nat.
Proof. intros H. replace L with ((L - S s) + S s)%nat at 1 by lia. rewrite Nat.pow_add_r, Nat.pow_succ_r'. reflexivity. Qed.
Lemma fwd_step a L s v : (s < L)%nat -> fwd_state a L s v ->
  exists v', stage (fwd_row (fwd_roots (4 * 2 ^ L) (2 * 2 ^ s) (rg_of L)) (2 * 2 ^ s / 2)) (2 * 2 ^ s) v = Some v' /\ fwd_state a L (S s) v'.
Proof.
  intros Hs [HL HV]. pose proof (pow2_pos s) as P. pose proof (block_count L s Hs) as BC. rewrite half_of. set (rs := fwd_roots (4 * 2 ^ L) (2 * 2 ^ s) (rg_of L)).
  assert (LE : (2 ^ s <= 2 ^ L)%nat) by (apply Nat.pow_le_mono_r; lia). assert (LR : length rs = (2 ^ s)%nat) by (unfold rs; rewrite fwd_roots_length, rg_of_length, half_of; lia).
  rewrite (stage_some _ (2 ^ (L - S s))); [| rewrite HL; exact BC | lia | rewrite Nat.mul_comm; apply Nat.mod_mul; lia]. eexists. split; [reflexivity |].
  destruct (stage_nth (fwd_row rs (2 ^ s)) (2 ^ (L - S s)) (2 * 2 ^ s) v) as [LV NV]; [rewrite HL; exact BC | lia | intros r Hr; apply fwd_row_length; assumption |].
  split; [rewrite LV; symmetry; exact BC |]. intros k j Hk Hj. rewrite Nat.pow_succ_r' in *. rewrite NV by assumption.
  set (row := firstn (2 * 2 ^ s) (skipn (k * (2 * 2 ^ s)) v)). assert (RL : length row = (2 * 2 ^ s)%nat) by (unfold row; rewrite firstn_length, skipn_length, HL, BC; nia).
  assert (RN : forall i, (i < 2 * 2 ^ s)%nat -> nth i row c0 = nth (k * (2 * 2 ^ s) + i) v c0) by (intros i Hi; unfold row; rewrite nth_firstn_lt by exact Hi; apply nth_skipn).
  assert (K2 : (2 ^ (L - s) = 2 * 2 ^ (L - S s))%nat) by (rewrite <- Nat.pow_succ_r'; f_equal; lia).
  assert (ROOT : forall i, (i < 2 ^ s)%nat -> nth i rs c0 = zeta (2 * 2 ^ s * 4) (5 ^ i)) by (intros i Hi; apply fwd_roots_nth; assumption).
  destruct (Nat.lt_ge_cases j (2 ^ s)) as [Lt | Ge].
  - destruct (fwd_row_nth rs (2 ^ s) row j RL LR Lt) as [E _]. rewrite E, (RN j), (RN (2 ^ s + j)%nat), ROOT by lia. rewrite (partial_step a L s k j Hs).
    replace (k * (2 * 2 ^ s) + j)%nat with (2 * k * 2 ^ s + j)%nat by ring. replace (k * (2 * 2 ^ s) + (2 ^ s + j))%nat with ((2 * k + 1) * 2 ^ s + j)%nat by ring. rewrite !HV by lia. ring.
  - set (i := (j - 2 ^ s)%nat). assert (Hi : (i < 2 ^ s)%nat) by (unfold i; lia). replace j with (2 ^ s + i)%nat by (unfold i; lia). destruct (fwd_row_nth rs (2 ^ s) row i RL LR Hi) as [_ E]. rewrite E, (RN i), (RN (2 ^ s + i)%nat), ROOT by lia. rewrite (partial_step_high a L s k i Hs).
    replace (k * (2 * 2 ^ s) + i)%nat with (2 * k * 2 ^ s + i)%nat by ring. replace (k * (2 * 2 ^ s) + (2 ^ s + i))%nat with ((2 * k + 1) * 2 ^ s + i)%nat by ring. rewrite !HV by lia. ring.
Qed.
Lemma fwd_loop_state a L : forall n fuel s v, (n = L - s)%nat -> (s <= L)%nat -> (n < fuel)%nat -> fwd_state a L s v ->
  exists v', fwd_loop fuel (4 * 2 ^ L) (2 * 2 ^ s) (2 ^ L) (rg_of L) v = Some v' /\ fwd_state a L L v'.
Proof.
  induction n as [|n IH]; intros fuel s v Hn Hs Hf HV; (destruct fuel as [|fuel]; [lia |]); cbn [fwd_loop]; pose proof (pow2_pos s).
  - assert (s = L) by lia. subst s. destruct (Nat.leb_spec (2 * 2 ^ L) (2 ^ L)); [lia |]. exists v. split; [reflexivity | exact HV].
  - pose proof (block_count L s ltac:(lia)) as BC. pose proof (pow2_pos (L - S s)). destruct (Nat.leb_spec (2 * 2 ^ s) (2 ^ L)) as [_ | X]; [| nia].
    destruct (fwd_step a L s v ltac:(lia) HV) as (v' & E & HV'). rewrite E. replace (2 * 2 ^ s * 2)%nat with (2 * 2 ^ S s)%nat by (rewrite Nat.pow_succ_r'; ring). apply IH; try lia. exact HV'.
Qed.

Lemma rev_state a L : length a = (2 ^ L)%nat -> fwd_state a L 0 (bit_reversal_array c0 a).
Proof.
  intros HL. rewrite (bit_reversal_array_spec c0 L a HL). split; [rewrite map_length, seq_length; reflexivity |]. intros k j Hk Hj. rewrite Nat.sub_0_r in *. cbn [Nat.pow] in *. assert (j = 0%nat) by lia. subst j.
  replace (k * 1 + 0)%nat with k by lia. rewrite nth_map_seq by exact Hk. unfold partial_value. rewrite Nat.sub_0_r. cbn [Nat.pow csum]. rewrite !Nat.mul_0_r, zeta_0, Nat.add_0_r. ring.
Qed.
(** the forward transform evaluates *)
Lemma fft_special_value a L : length a = (2 ^ L)%nat ->
  exists y, fft_special a (4 * 2 ^ L) = Some y /\ length y = (2 ^ L)%nat /\ forall j, (j < 2 ^ L)%nat -> nth j y c0 = slot a j.
Proof.
  intros HL. unfold fft_special. rewrite HL. fold (rg_of L). destruct (fwd_loop_state a L L (S (2 ^ L)) 0 (bit_reversal_array c0 a)) as (y & E & HY & V); [lia | lia | pose proof (Nat.pow_gt_lin_r 2 L); lia | apply rev_state; exact HL |].
  exists y. split; [exact E |]. split; [exact HY |]. intros j Hj. specialize (V 0%nat j). rewrite Nat.sub_diag in V. cbn [Nat.pow] in V. rewrite Nat.mul_0_l, Nat.add_0_l in V. rewrite V by lia. unfold partial_value, slot. rewrite Nat.sub_diag, HL. apply csum_ext. intros i _. cbn [brev Nat.pow]. do 2 f_equal. lia.
Qed.

(** rows and concatenation *)
Lemma concat_rows {A} s : forall c (l : list A), length l = (c * s)%nat -> concat (rows c s l) = l.
Proof. induction c as [|c IH]; intros l H; cbn [rows concat]; [destruct l; [reflexivity | discriminate H] |]. rewrite IH by (rewrite skipn_length; lia). apply firstn_skipn. Qed.
Lemma rows_of_concat {A} s (rs : list (list A)) : Forall (fun r => length r = s) rs -> rows (length rs) s (concat rs) = rs.
Proof. induction 1 as [|r rs Hr _ IH]; [reflexivity |]. cbn [length rows concat]. rewrite <- Hr, firstn_app, Nat.sub_diag, firstn_all, firstn_O, app_nil_r. f_equal. rewrite skipn_app, Nat.sub_diag, skipn_all. cbn [skipn app]. rewrite Hr. exact IH. Qed.

Lemma inv_row_length rs half row : length row = (2 * half)%nat -> length rs = half -> length (inv_row rs half row) = (2 * half)%nat.
Proof. intros H1 H2. unfold inv_row. rewrite app_length, !zip2_length, firstn_length, skipn_length. lia. Qed.
Lemma inv_row_nth rs half row j : length row = (2 * half)%nat -> length rs = half -> (j < half)%nat ->
  nth j (inv_row rs half row) c0 = cadd (nth j row c0) (nth (half + j) row c0) /\
  nth (half + j) (inv_row rs half row) c0 = cmul (csub (nth j row c0) (nth (half + j) row c0)) (nth j rs c0).
Proof.
  intros H1 H2 Hj. unfold inv_row. assert (LU : length (firstn half row) = half) by (rewrite firstn_length; lia). assert (LV : length (skipn half row) = half) by (rewrite skipn_length; lia).
  assert (LZ : length (zip2 csub (firstn half row) (skipn half row)) = half) by (rewrite zip2_length; lia). split.
  - rewrite app_nth1 by (rewrite zip2_length; lia). rewrite (zip2_nth _ _ _ _ c0 c0) by lia. rewrite nth_firstn_lt by exact Hj. rewrite nth_skipn. reflexivity.
  - rewrite app_nth2 by (rewrite zip2_length; lia). rewrite zip2_length, LU, LV. replace (half + j - Nat.min half half)%nat with j by lia. rewrite (zip2_nth _ _ _ _ c0 c0) by lia. rewrite (zip2_nth _ _ _ _ c0 c0) by lia. rewrite nth_firstn_lt by exact Hj. rewrite nth_skipn. reflexivity.
Qed.
Lemma halves_ext half (r r' : list cplx) : length r = (2 * half)%nat -> length r' = (2 * half)%nat ->
  (forall j, (j < half)%nat -> nth j r c0 = nth j r' c0 /\ nth (half + j) r c0 = nth (half + j) r' c0) -> r = r'.
Proof.
  intros L1 L2 H. apply (nth_ext _ _ c0 c0); [lia |]. intros n Hn. destruct (Nat.lt_ge_cases n half) as [Lt | Ge]; [apply H; exact Lt |]. replace n with (half + (n - half))%nat by lia. apply H. lia.
Qed.
Lemma nth_cscale r v j : nth j (map (cscale r) v) c0 = cscale r (nth j v c0).
Proof. destruct (Nat.lt_ge_cases j (length v)) as [Lt | Ge]; [apply nth_map_lt; exact Lt |]. rewrite !nth_overflow by (try rewrite map_length; exact Ge). apply cplx_eq; cbn; ring. Qed.
Lemma row_inv_fwd rf ri half row : length row = (2 * half)%nat -> length rf = half -> length ri = half -> (forall j, (j < half)%nat -> cmul (nth j ri c0) (nth j rf c0) = c1) ->
  inv_row ri half (fwd_row rf half row) = map (cscale 2) row.
Proof.
  intros H1 H2 H3 H4. assert (LF := fwd_row_length rf half row H1 H2). apply (halves_ext half); [apply inv_row_length; assumption | rewrite map_length; exact H1 |]. intros j Hj. destruct (inv_row_nth ri half _ j LF H3 Hj) as [-> ->]. destruct (fwd_row_nth rf half row j H1 H2 Hj) as [-> ->]. rewrite !nth_cscale, <- !cdouble. split; [ring |].
  transitivity (cmul (cadd (nth (half + j) row c0) (nth (half + j) row c0)) (cmul (nth j ri c0) (nth j rf c0))); [ring |]. rewrite H4 by exact Hj. ring.
Qed.
Lemma row_fwd_inv rf ri half row : length row = (2 * half)%nat -> length rf = half -> length ri = half -> (forall j, (j < half)%nat -> cmul (nth j ri c0) (nth j rf c0) = c1) ->
  fwd_row rf half (inv_row ri half row) = map (cscale 2) row.
Proof.
  intros H1 H2 H3 H4. assert (LF := inv_row_length ri half row H1 H3). apply (halves_ext half); [apply fwd_row_length; assumption | rewrite map_length; exact H1 |]. intros j Hj. destruct (fwd_row_nth rf half _ j LF H2 Hj) as [-> ->]. destruct (inv_row_nth ri half row j H1 H3 Hj) as [-> ->]. rewrite !nth_cscale, <- !cdouble.
  assert (X : forall d, cmul (cmul d (nth j ri c0)) (nth j rf c0) = d) by (intros d; transitivity (cmul d (cmul (nth j ri c0) (nth j rf c0))); [ring | rewrite H4 by exact Hj; ring]). rewrite X. split; ring.
Qed.
Lemma row_scale_fwd rf half row r : length row = (2 * half)%nat -> length rf = half -> fwd_row rf half (map (cscale r) row) = map (cscale r) (fwd_row rf half row).
Proof.
  intros H1 H2. assert (H1' : length (map (cscale r) row) = (2 * half)%nat) by (rewrite map_length; exact H1). apply (halves_ext half); [apply fwd_row_length; assumption | rewrite map_length; apply fwd_row_length; assumption |]. intros j Hj. rewrite !(nth_cscale _ (fwd_row _ _ _)). destruct (fwd_row_nth rf half _ j H1' H2 Hj) as [-> ->]. destruct (fwd_row_nth rf half row j H1 H2 Hj) as [-> ->]. rewrite !nth_cscale, cscale_add, cscale_sub, cscale_mul. split; reflexivity.
Qed.
Lemma row_scale_inv ri half row r : length row = (2 * half)%nat -> length ri = half -> inv_row ri half (map (cscale r) row) = map (cscale r) (inv_row ri half row).
Proof.
  intros H1 H2. assert (H1' : length (map (cscale r) row) = (2 * half)%nat) by (rewrite map_length; exact H1). apply (halves_ext half); [apply inv_row_length; assumption | rewrite map_length; apply inv_row_length; assumption |]. intros j Hj. rewrite !(nth_cscale _ (inv_row _ _ _)). destruct (inv_row_nth ri half _ j H1' H2 Hj) as [-> ->]. destruct (inv_row_nth ri half row j H1 H2 Hj) as [-> ->]. rewrite !nth_cscale, cscale_add, cscale_mul, cscale_sub. split; reflexivity.
Qed.

Lemma stage_length (f : list cplx -> list cplx) c len vals : length vals = (c * len)%nat -> (forall r, length r = len -> length (f r) = len) -> length (concat (map f (rows c len vals))) = (c * len)%nat.
Proof.
  intros H1 H3. assert (F : Forall (fun r => length r = len) (map f (rows c len vals))). { apply Forall_map. eapply Forall_impl; [| apply rows_Forall; exact H1]. intros r Hr. apply H3. exact Hr. }
  rewrite (concat_length_const _ len F), map_length, rows_length. reflexivity.
Qed.
Lemma stage_compose (f g : list cplx -> list cplx) r c len vals : length vals = (c * len)%nat -> (forall r, length r = len -> length (g r) = len) -> (forall row, length row = len -> f (g row) = map (cscale r) row) ->
  concat (map f (rows c len (concat (map g (rows c len vals))))) = map (cscale r) vals.
Proof.
  intros H1 H2 H3. assert (F : Forall (fun x => length x = len) (map g (rows c len vals))). { apply Forall_map. eapply Forall_impl; [| apply rows_Forall; exact H1]. intros x Hx. apply H2. exact Hx. }
  assert (E : rows c len (concat (map g (rows c len vals))) = map g (rows c len vals)) by (rewrite <- (rows_of_concat len _ F) at 2; rewrite map_length, rows_length; reflexivity). rewrite E, map_map. rewrite <- (concat_rows len c vals H1) at 2. rewrite concat_map. f_equal.
  apply map_ext_in. intros row Hr. apply H3. pose proof (rows_Forall len c vals H1) as FR. rewrite Forall_forall in FR. apply FR. exact Hr.
Qed.
Lemma stage_scale (f : list cplx -> list cplx) r c len vals : length vals = (c * len)%nat -> (forall row, length row = len -> f (map (cscale r) row) = map (cscale r) (f row)) ->
  concat (map f (rows c len (map (cscale r) vals))) = map (cscale r) (concat (map f (rows c len vals))).
Proof.
  intros H1 H3. assert (E : rows c len (map (cscale r) vals) = map (map (cscale r)) (rows c len vals)). { clear. revert vals. induction c as [|c IH]; intros vals; cbn [rows map]; [reflexivity |]. rewrite firstn_map, skipn_map, IH. reflexivity. }
  rewrite E, map_map, concat_map, map_map. f_equal. apply map_ext_in. intros row Hr. apply H3. pose proof (rows_Forall len c vals H1) as FR. rewrite Forall_forall in FR. apply FR. exact Hr.
Qed.

(** the two stages of size 2^(s+1) *)
Definition fstage (L s : nat) (v : list cplx) : list cplx := concat (map (fwd_row (fwd_roots (4 * 2 ^ L) (2 * 2 ^ s) (rg_of L)) (2 ^ s)) (rows (2 ^ (L - S s)) (2 * 2 ^ s) v)).
Definition istage (L s : nat) (v : list cplx) : list cplx := concat (map (inv_row (inv_roots (4 * 2 ^ L) (2 * 2 ^ s) (rg_of L)) (2 ^ s)) (rows (2 ^ (L - S s)) (2 * 2 ^ s) v)).
Section Stages.
  Variables (L s : nat).
  Hypothesis (Hs : (s < L)%nat).
  Let rf := fwd_roots (4 * 2 ^ L) (2 * 2 ^ s) (rg_of L).
  Let ri := inv_roots (4 * 2 ^ L) (2 * 2 ^ s) (rg_of L).
  Lemma rf_length : length rf = (2 ^ s)%nat.
  Proof. assert (LE : (2 ^ s <= 2 ^ L)%nat) by (apply Nat.pow_le_mono_r; lia). unfold rf. rewrite fwd_roots_length, rg_of_length, half_of. lia. Qed.
  Lemma ri_length : length ri = (2 ^ s)%nat.
  Proof. assert (LE : (2 ^ s <= 2 ^ L)%nat) by (apply Nat.pow_le_mono_r; lia). unfold ri. rewrite inv_roots_length, rg_of_length, half_of. lia. Qed.
  Lemma roots_inverse j : (j < 2 ^ s)%nat -> cmul (nth j ri c0) (nth j rf c0) = c1.
  Proof. intros Hj. unfold ri, rf. rewrite fwd_roots_nth by assumption. apply inv_roots_nth; assumption. Qed.
  Variable (v : list cplx).
  Hypothesis (Hv : length v = (2 ^ L)%nat).
  Let Hc : length v = (2 ^ (L - S s) * (2 * 2 ^ s))%nat.
  Proof. rewrite Hv. apply block_count. exact Hs. Qed.
  Lemma fwd_stage_is : stage (fwd_row (fwd_roots (4 * 2 ^ L) (2 * 2 ^ s) (rg_of L)) (2 * 2 ^ s / 2)) (2 * 2 ^ s) v = Some (fstage L s v).
  Proof. pose proof (pow2_pos s). rewrite half_of. apply stage_some; [exact Hc | lia | rewrite Nat.mul_comm; apply Nat.mod_mul; lia]. Qed.
  Lemma inv_stage_is : stage (inv_row (inv_roots (4 * 2 ^ L) (2 * 2 ^ s) (rg_of L)) (2 * 2 ^ s / 2)) (2 * 2 ^ s) v = Some (istage L s v).
  Proof. pose proof (pow2_pos s). rewrite half_of. apply stage_some; [exact Hc | lia | rewrite Nat.mul_comm; apply Nat.mod_mul; lia]. Qed.
  Lemma fstage_length : length (fstage L s v) = (2 ^ L)%nat.
  Proof. rewrite (block_count L s Hs). apply stage_length; [exact Hc |]. intros r Hr. apply fwd_row_length; [exact Hr | apply rf_length]. Qed.
  Lemma istage_length : length (istage L s v) = (2 ^ L)%nat.
  Proof. rewrite (block_count L s Hs). apply stage_length; [exact Hc |]. intros r Hr. apply inv_row_length; [exact Hr | apply ri_length]. Qed.
  Lemma stage_if : istage L s (fstage L s v) = map (cscale 2) v.
  Proof. apply stage_compose; [exact Hc | intros r Hr; apply fwd_row_length; [exact Hr | apply rf_length] |]. intros row Hr. apply row_inv_fwd; [exact Hr | apply rf_length | apply ri_length | exact roots_inverse]. Qed.
  Lemma stage_fi : fstage L s (istage L s v) = map (cscale 2) v.
  Proof. apply stage_compose; [exact Hc | intros r Hr; apply inv_row_length; [exact Hr | apply ri_length] |]. intros row Hr. apply row_fwd_inv; [exact Hr | apply rf_length | apply ri_length | exact roots_inverse]. Qed.
  Lemma fstage_scale r : fstage L s (map (cscale r) v) = map (cscale r) (fstage L s v).
  Proof. apply stage_scale; [exact Hc |]. intros row Hr. apply row_scale_fwd; [exact Hr | apply rf_length]. Qed.
  Lemma istage_scale r : istage L s (map (cscale r) v) = map (cscale r) (istage L s v).
  Proof. apply stage_scale; [exact Hc |]. intros row Hr. apply row_scale_inv; [exact Hr | apply ri_length]. Qed.
End Stages.

(** the loops, as iterated stages *)
Fixpoint fiter (L n s : nat) (v : list cplx) : list cplx := match n with O => v | S n' => fiter L n' (S s) (fstage L s v) end.
Fixpoint iiter (L s : nat) (v : list cplx) : list cplx := match s with O => v | S s' => iiter L s' (istage L s' v) end.
Lemma fwd_loop_iter L : forall n fuel s v, (n + s = L)%nat -> (n < fuel)%nat -> length v = (2 ^ L)%nat -> fwd_loop fuel (4 * 2 ^ L) (2 * 2 ^ s) (2 ^ L) (rg_of L) v = Some (fiter L n s v).
Proof.
  induction n as [|n IH]; intros fuel s v Hn Hf HV; (destruct fuel as [|fuel]; [lia |]); cbn [fwd_loop fiter]; pose proof (pow2_pos s).
  - assert (s = L) by lia. subst s. destruct (Nat.leb_spec (2 * 2 ^ L) (2 ^ L)); [lia | reflexivity].
  - pose proof (block_count L s ltac:(lia)) as BC. pose proof (pow2_pos (L - S s)). destruct (Nat.leb_spec (2 * 2 ^ s) (2 ^ L)) as [_ | X]; [| nia].
    rewrite fwd_stage_is by (assumption || lia). replace (2 * 2 ^ s * 2)%nat with (2 * 2 ^ S s)%nat by (rewrite Nat.pow_succ_r'; ring). apply IH; [lia | lia |]. apply fstage_length; [lia | exact HV].
Qed.
Lemma inv_loop_iter L : forall s fuel v, (s <= L)%nat -> (s < fuel)%nat -> length v = (2 ^ L)%nat -> inv_loop fuel (4 * 2 ^ L) (2 ^ s) (rg_of L) v = Some (iiter L s v).
Proof.
  induction s as [|s IH]; intros fuel v Hn Hf HV; (destruct fuel as [|fuel]; [lia |]); cbn [inv_loop iiter].
  - reflexivity.
  - pose proof (pow2_pos s). rewrite Nat.pow_succ_r'. destruct (Nat.leb_spec 2 (2 * 2 ^ s)) as [_ | X]; [| lia].
    rewrite inv_stage_is by (assumption || lia). rewrite half_of. apply IH; [lia | lia |]. apply istage_length; [lia | exact HV].
Qed.
Lemma fiter_length L : forall n s v, (n + s = L)%nat -> length v = (2 ^ L)%nat -> length (fiter L n s v) = (2 ^ L)%nat.
Proof. induction n as [|n IH]; intros s v Hn HV; cbn [fiter]; [exact HV |]. apply IH; [lia |]. apply fstage_length; [lia | exact HV]. Qed.
Lemma iiter_length L : forall s v, (s <= L)%nat -> length v = (2 ^ L)%nat -> length (iiter L s v) = (2 ^ L)%nat.
Proof. induction s as [|s IH]; intros v Hn HV; cbn [iiter]; [exact HV |]. apply IH; [lia |]. apply istage_length; [lia | exact HV]. Qed.
Lemma fiter_scale L r : forall n s v, (n + s = L)%nat -> length v = (2 ^ L)%nat -> fiter L n s (map (cscale r) v) = map (cscale r) (fiter L n s v).
Proof. induction n as [|n IH]; intros s v Hn HV; cbn [fiter]; [reflexivity |]. rewrite fstage_scale by (assumption || lia). apply IH; [lia |]. apply fstage_length; [lia | exact HV]. Qed.
Lemma iiter_scale L r : forall s v, (s <= L)%nat -> length v = (2 ^ L)%nat -> iiter L s (map (cscale r) v) = map (cscale r) (iiter L s v).
Proof. induction s as [|s IH]; intros v Hn HV; cbn [iiter]; [reflexivity |]. rewrite istage_scale by (assumption || lia). apply IH; [lia |]. apply istage_length; [lia | exact HV]. Qed.
Lemma map_cscale_2 r s v : map (cscale r) (map (cscale s) v) = map (cscale (r * s)) v.
Proof. rewrite map_map. apply map_ext. intros x. apply cscale_cscale. Qed.
Lemma map_cscale_1 v : map (cscale 1) v = v.
Proof. rewrite <- (map_id v) at 2. apply map_ext. intros x. apply cscale_1. Qed.
Lemma fiter_iiter L : forall s v, (s <= L)%nat -> length v = (2 ^ L)%nat -> forall n, (n + s = L)%nat -> fiter L L 0 (iiter L s v) = map (cscale (2 ^ s)) (fiter L n s v).
Proof.
  induction s as [|s IH]; intros v Hs HV n Hn; cbn [iiter].
  - assert (n = L) by lia. subst n. cbn [pow]. rewrite map_cscale_1. reflexivity.
  - rewrite (IH _ ltac:(lia) (istage_length L s ltac:(lia) v HV) (S n)) by lia. cbn [fiter]. rewrite stage_fi by (assumption || lia). rewrite fiter_scale by (assumption || lia). rewrite map_cscale_2. f_equal. f_equal. cbn [pow]. ring.
Qed.
Fixpoint fiter_to (L s : nat) (v : list cplx) : list cplx := match s with O => v | S s' => fstage L s' (fiter_to L s' v) end.
Lemma fiter_to_length L v : length v = (2 ^ L)%nat -> forall s, (s <= L)%nat -> length (fiter_to L s v) = (2 ^ L)%nat.
Proof. intros HV. induction s as [|s IH]; intros Hs; cbn [fiter_to]; [exact HV |]. apply fstage_length; [lia | apply IH; lia]. Qed.
Lemma iiter_fiter_to L v : length v = (2 ^ L)%nat -> forall s, (s <= L)%nat -> iiter L s (fiter_to L s v) = map (cscale (2 ^ s)) v.
Proof.
  intros HV. induction s as [|s IH]; intros Hs; cbn [fiter_to iiter]; [cbn [pow]; rewrite map_cscale_1; reflexivity |]. pose proof (fiter_to_length L v HV s ltac:(lia)) as LT. rewrite stage_if by (assumption || lia). rewrite iiter_scale by (assumption || lia). rewrite IH by lia. rewrite map_cscale_2. reflexivity.
Qed.
Lemma fiter_to_eq L v : forall n s, (n + s = L)%nat -> fiter L n s (fiter_to L s v) = fiter_to L L v.
Proof. induction n as [|n IH]; intros s Hn; cbn [fiter]; [f_equal; lia |]. rewrite <- (IH (S s)) by lia. reflexivity. Qed.

(** the two transforms, in terms of the iterated stages *)
Lemma rev_length a L : length a = (2 ^ L)%nat -> length (bit_reversal_array c0 a) = (2 ^ L)%nat.
Proof. intros HL. rewrite (bit_reversal_array_spec c0 L a HL), map_length, seq_length. reflexivity. Qed.
Lemma fft_special_is a L : length a = (2 ^ L)%nat -> fft_special a (4 * 2 ^ L) = Some (fiter_to L L (bit_reversal_array c0 a)).
Proof.
  intros HL. unfold fft_special. rewrite HL. fold (rg_of L). pose proof (fwd_loop_iter L L (S (2 ^ L)) 0 (bit_reversal_array c0 a) ltac:(lia) ltac:(pose proof (Nat.pow_gt_lin_r 2 L); lia) (rev_length a L HL)) as E. change (2 * 2 ^ 0)%nat with 2%nat in E. rewrite E. f_equal. rewrite <- (fiter_to_eq L _ L 0) by lia. reflexivity.
Qed.
Lemma fft_special_inv_is v L : length v = (2 ^ L)%nat -> fft_special_inv v (4 * 2 ^ L) = Some (bit_reversal_array c0 (map (cscale (1 / INR (2 ^ L))) (iiter L L v))).
Proof.
  intros HL. unfold fft_special_inv. rewrite HL. fold (rg_of L). pose proof (pow2_pos L). destruct (Nat.eqb_spec (2 ^ L) 0); [lia |]. rewrite (inv_loop_iter L L) by (try exact HL; try lia; pose proof (Nat.pow_gt_lin_r 2 L); lia). reflexivity.
Qed.
Lemma INR_pow2 L : INR (2 ^ L) = (2 ^ L)%R.
Proof. rewrite pow_INR. reflexivity. Qed.
Lemma inv_pow2 L : 1 / INR (2 ^ L) * 2 ^ L = 1.
Proof. rewrite INR_pow2. field. apply pow_nonzero. lra. Qed.
Lemma fft_fwd_inv v L : length v = (2 ^ L)%nat -> exists a, fft_special_inv v (4 * 2 ^ L) = Some a /\ length a = (2 ^ L)%nat /\ fft_special a (4 * 2 ^ L) = Some v.
Proof.
  intros HL. rewrite (fft_special_inv_is v L HL). set (w := map _ (iiter L L v)). assert (LI : length (iiter L L v) = (2 ^ L)%nat) by (apply iiter_length; [lia | exact HL]). assert (LW : length w = (2 ^ L)%nat) by (unfold w; rewrite map_length; exact LI).
  eexists. split; [reflexivity |]. assert (LR := rev_length w L LW). split; [exact LR |]. rewrite (fft_special_is _ L LR). rewrite (C25_array_involutive _ c0 L w LW). f_equal. rewrite <- (fiter_to_eq L w L 0) by lia. cbn [fiter_to]. unfold w. rewrite fiter_scale by (assumption || lia). rewrite (fiter_iiter L L v ltac:(lia) HL 0) by lia. cbn [fiter]. rewrite map_cscale_2, inv_pow2. apply map_cscale_1.
Qed.
Lemma fft_inv_fwd a L : length a = (2 ^ L)%nat -> exists y, fft_special a (4 * 2 ^ L) = Some y /\ length y = (2 ^ L)%nat /\ fft_special_inv y (4 * 2 ^ L) = Some a.
Proof.
  intros HL. rewrite (fft_special_is a L HL). set (w := bit_reversal_array c0 a). assert (LW : length w = (2 ^ L)%nat) by (apply rev_length; exact HL). eexists. split; [reflexivity |]. assert (LY := fiter_to_length L w LW L (Nat.le_refl L)). split; [exact LY |].
  rewrite (fft_special_inv_is _ L LY). rewrite (iiter_fiter_to L w LW L (Nat.le_refl L)). rewrite map_cscale_2, inv_pow2, map_cscale_1. f_equal. apply C25_array_involutive with (L := L). exact HL.
Qed.

(** the inverse transform does not increase the largest modulus *)
Definition within_norm (B : R) (v : list cplx) : Prop := forall j, cnorm (nth j v c0) <= B.
Lemma inv_row_norm ri half row B : length row = (2 * half)%nat -> length ri = half -> (forall j, (j < half)%nat -> cnorm (nth j ri c0) = 1) -> (forall j, (j < 2 * half)%nat -> cnorm (nth j row c0) <= B) ->
  forall j, (j < 2 * half)%nat -> cnorm (nth j (inv_row ri half row) c0) <= 2 * B.
Proof.
  intros H1 H2 H3 H4. assert (X : forall j, (j < half)%nat -> cnorm (nth j (inv_row ri half row) c0) <= 2 * B /\ cnorm (nth (half + j) (inv_row ri half row) c0) <= 2 * B).
  { intros j Hj. destruct (inv_row_nth ri half row j H1 H2 Hj) as [-> ->]. pose proof (H4 j ltac:(lia)). pose proof (H4 (half + j)%nat ltac:(lia)). split.
    - eapply Rle_trans; [apply cnorm_add |]. lra.
    - rewrite cnorm_mul, H3 by exact Hj. rewrite Rmult_1_r. replace (csub (nth j row c0) (nth (half + j) row c0)) with (cadd (nth j row c0) (copp (nth (half + j) row c0))) by ring. eapply Rle_trans; [apply cnorm_add |]. assert (E : cnorm (copp (nth (half + j) row c0)) = cnorm (nth (half + j) row c0)) by (unfold cnorm, copp; cbn [fst snd]; f_equal; ring). rewrite E. lra. }
  intros j Hj. destruct (Nat.lt_ge_cases j half) as [Lt | Ge]; [apply X; exact Lt |]. replace j with (half + (j - half))%nat by lia. apply X. lia.
Qed.
Lemma istage_norm L s v B : (s < L)%nat -> length v = (2 ^ L)%nat -> (forall j, (j < 2 ^ L)%nat -> cnorm (nth j v c0) <= B) -> forall j, (j < 2 ^ L)%nat -> cnorm (nth j (istage L s v) c0) <= 2 * B.
Proof.
  intros Hs HV H j Hj. pose proof (pow2_pos s). pose proof (block_count L s Hs) as BC. set (rs := inv_roots (4 * 2 ^ L) (2 * 2 ^ s) (rg_of L)).
  destruct (stage_nth (inv_row rs (2 ^ s)) (2 ^ (L - S s)) (2 * 2 ^ s) v) as [LV NV]; [rewrite HV; exact BC | lia | intros r Hr; apply inv_row_length; [exact Hr | apply ri_length; exact Hs] |].
  rewrite (Nat.div_mod j (2 * 2 ^ s)) by lia. rewrite (Nat.mul_comm (2 * 2 ^ s)). set (k := (j / (2 * 2 ^ s))%nat). set (i := (j mod (2 * 2 ^ s))%nat). assert (Hi : (i < 2 * 2 ^ s)%nat) by (apply Nat.mod_upper_bound; lia). assert (Hk : (k < 2 ^ (L - S s))%nat) by (apply Nat.div_lt_upper_bound; lia).
  unfold istage. fold rs. rewrite NV by assumption. apply inv_row_norm; [rewrite firstn_length, skipn_length, HV, BC; nia | apply ri_length; exact Hs | | | exact Hi].
  - intros x Hx. pose proof (roots_inverse L s Hs x Hx) as R. apply (f_equal cnorm) in R. rewrite cnorm_mul, fwd_roots_nth, cnorm_zeta, Rmult_1_r in R by assumption. unfold rs. unfold rg_of in *. rewrite R. unfold cnorm, c1. cbn [fst snd]. replace (1 * 1 + 0 * 0) with 1 by ring. apply sqrt_1.
  - intros x Hx. rewrite nth_firstn_lt by exact Hx. rewrite nth_skipn. apply H. rewrite BC. nia.
Qed.
Lemma iiter_norm L : forall s v B, (s <= L)%nat -> length v = (2 ^ L)%nat -> (forall j, (j < 2 ^ L)%nat -> cnorm (nth j v c0) <= B) -> forall j, (j < 2 ^ L)%nat -> cnorm (nth j (iiter L s v) c0) <= 2 ^ s * B.
Proof.
  induction s as [|s IH]; intros v B Hs HV H j Hj; cbn [iiter]; [cbn [pow]; rewrite Rmult_1_l; apply H; exact Hj |].
  replace (2 ^ S s * B) with (2 ^ s * (2 * B)) by (cbn [pow]; ring). apply IH; [lia | apply istage_length; [lia | exact HV] | | exact Hj]. intros i Hi. apply istage_norm; try assumption; lia.
Qed.
Lemma fft_inv_norm v L a B : length v = (2 ^ L)%nat -> fft_special_inv v (4 * 2 ^ L) = Some a -> (forall j, (j < 2 ^ L)%nat -> cnorm (nth j v c0) <= B) -> forall j, (j < 2 ^ L)%nat -> cnorm (nth j a c0) <= B.
Proof.
  intros HL E H j Hj. rewrite (fft_special_inv_is v L HL) in E. injection E as <-. assert (LI : length (iiter L L v) = (2 ^ L)%nat) by (apply iiter_length; [lia | exact HL]). rewrite (bit_reversal_array_spec c0 L) by (rewrite map_length; exact LI). rewrite nth_map_seq by exact Hj. rewrite nth_cscale.
  assert (P2 : 0 < 2 ^ L) by (apply pow_lt; lra). rewrite cnorm_scale by (rewrite INR_pow2; apply Rlt_le, Rdiv_lt_0_compat; lra). pose proof (iiter_norm L L v B (Nat.le_refl L) HL H (brev L j) (brev_lt L j)) as N. rewrite INR_pow2.
  replace B with (1 / 2 ^ L * (2 ^ L * B)) by (field; lra). apply Rmult_le_compat_l; [apply Rlt_le, Rdiv_lt_0_compat; lra | exact N].
Qed.

(** np.round is within one half *)
Lemma np_round_near x : Rabs (IZR (np_round x) - x) <= 1 / 2.
Proof.
  unfold np_round. destruct (archimed x) as [A1 A2]. set (f := (up x - 1)%Z). assert (F : IZR f = IZR (up x) - 1) by (unfold f; rewrite minus_IZR; reflexivity). assert (F1 : IZR (f + 1) = IZR f + 1) by (rewrite plus_IZR; reflexivity).
  destruct (Rlt_dec (x - IZR f) (1 / 2)) as [a | a]; [apply Rabs_le; lra |]. destruct (Rlt_dec (1 / 2) (x - IZR f)) as [b | b]; [apply Rabs_le; rewrite F1; lra |]. destruct (Z.even f); apply Rabs_le; [| rewrite F1]; lra.
Qed.

(** differences of slots *)
Lemma slot_sub a b j : length a = length b -> csub (slot a j) (slot b j) = csum (length a) (fun i => cmul (csub (nth i a c0) (nth i b c0)) (zeta (4 * length a) (5 ^ j * i))).
Proof. intros H. unfold slot. rewrite <- H, <- csum_sub. apply csum_ext. intros i _. ring. Qed.
Lemma slot_dist a b j e : length a = length b -> (forall i, (i < length a)%nat -> cdist (nth i a c0) (nth i b c0) <= e) -> cdist (slot a j) (slot b j) <= INR (length a) * e.
Proof.
  intros H E. unfold cdist. rewrite slot_sub by exact H. eapply Rle_trans; [apply cnorm_sum |]. rewrite <- rsum_const. apply rsum_le. intros i Hi. rewrite cnorm_mul, cnorm_zeta, Rmult_1_r. apply E. exact Hi.
Qed.
(** the complex coefficients are the two halves of the real ones *)
Lemma five_mod4 j : exists k, (5 ^ j = 4 * k + 1)%nat.
Proof. induction j as [|j (k & IH)]; [exists 0%nat; reflexivity |]. rewrite Nat.pow_succ_r', IH. exists (5 * k + 1)%nat. lia. Qed.
Lemma zeta_quarter n k : (0 < n)%nat -> zeta (4 * n) (n * (4 * k + 1)) = (0, 1).
Proof.
  intros Hn. replace (n * (4 * k + 1))%nat with (n + 4 * n * k)%nat by ring. rewrite zeta_period by lia. unfold zeta. replace (2 * PI * INR n / INR (4 * n)) with (PI / 2); [unfold cis; rewrite cos_PI2, sin_PI2; reflexivity |]. rewrite mult_INR. pose proof (INR_pos n Hn). replace (INR 4) with 4 by (cbn; ring). field. assumption.
Qed.
Lemma real_slot_halves a j : real_slot (map fst a ++ map snd a) j = slot a j.
Proof.
  destruct (Nat.eq_dec (length a) 0) as [Z0 | NZ]; [destruct a; [reflexivity | discriminate Z0] |]. unfold real_slot, slot. rewrite app_length, !map_length. set (n := length a) in *. rewrite csum_split, <- csum_add. apply csum_ext. intros i Hi. rewrite app_nth1 by (rewrite map_length; exact Hi). rewrite app_nth2 by (rewrite map_length; lia). rewrite map_length. replace (n + i - length a)%nat with i by (unfold n; lia).
  replace (2 * (n + n))%nat with (4 * n)%nat by lia. destruct (five_mod4 j) as (k & E). replace (5 ^ j * (n + i))%nat with (n * (4 * k + 1) + 5 ^ j * i)%nat by (rewrite <- E; ring). rewrite zeta_add, zeta_quarter by lia.
  rewrite (nth_map_lt _ _ _ _ c0) by exact Hi. rewrite (nth_map_lt _ _ _ _ c0) by exact Hi. change (length a) with n. apply cplx_eq; cbn [cadd cmul cscale fst snd]; ring.
Qed.
