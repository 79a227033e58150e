(** The carry loop: it ends on every input, and on inputs whose value fits it computes the digits of the value. *)
From Coq Require Import ZArith List Bool Lia.
From Verif Require Import Base.ZSum Base.Word Base.Bits Base.Lists.
From Verif Require Import Ec.Model_util Ec.Model_field Ec.Spec_chunks Ec.Proof_chunks.
Import ListNotations.
Local Open Scope Z_scope.

(** a loop whose body decreases a measure below 2^k is not cut off *)
Lemma while_run_spec {A} (cond : A -> bool) (body : A -> A) (m : A -> Z) (I : A -> Prop) :
  (forall x, I x -> cond x = true -> I (body x) /\ m (body x) <= m x - 1) ->
  forall k x, I x -> let '(stop, y) := while_run k cond body x in I y /\ if stop then cond y = false else m y <= m x - 2 ^ Z.of_nat k.
Proof.
  intros H. induction k as [|k IH]; intros x Ix; cbn [while_run].
  - destruct (cond x) eqn:C; [| split; assumption]. destruct (H x Ix C) as [Ib Mb]. split; [exact Ib |]. cbn. lia.
  - destruct (cond x) eqn:C; [| split; assumption]. pose proof (IH x Ix) as H1. destruct (while_run k cond body x) as [stop y]. destruct H1 as [Iy Hy]. destruct stop; [split; assumption |].
    pose proof (IH y Iy) as H2. destruct (while_run k cond body y) as [stop2 z]. destruct H2 as [Iz Hz]. split; [exact Iz |]. destruct stop2; [exact Hz |].
    rewrite Nat2Z.inj_succ, Z.pow_succ_r by lia. lia.
Qed.
Lemma while_loop_spec {A} (cond : A -> bool) (body : A -> A) (m : A -> Z) (I : A -> Prop) k x :
  (forall x, I x -> cond x = true -> I (body x) /\ m (body x) <= m x - 1) -> (forall x, I x -> 0 <= m x) -> I x -> m x < 2 ^ Z.of_nat k ->
  exists y, while_loop k cond body x = Some y /\ I y /\ cond y = false.
Proof.
  intros H P Ix Hm. unfold while_loop. pose proof (while_run_spec cond body m I H k x Ix) as S. destruct (while_run k cond body x) as [stop y]. destruct S as [Iy Hy]. destruct stop.
  - exists y. repeat split; assumption.
  - pose proof (P y Iy). lia.
Qed.

(** the sum of the chunks *)
Lemma lsum_nonneg l : Forall (fun v => 0 <= v) l -> 0 <= lsum l.
Proof. induction 1 as [|v l Hv _ IH]; cbn [lsum]; lia. Qed.
Lemma removelast_app1 {A} (l : list A) x : removelast (l ++ [x]) = l.
Proof. rewrite removelast_app by discriminate. cbn. apply app_nil_r. Qed.
Lemma roll_app {A} (l : list A) x d : roll (l ++ [x]) d = x :: l.
Proof. unfold roll. rewrite last_last, removelast_app1. reflexivity. Qed.
Lemma roll_length {A} (l : list A) d : l <> [] -> length (roll l d) = length l.
Proof. intros N. destruct (exists_last N) as (l' & x & ->). rewrite roll_app, app_length. cbn. lia. Qed.
Lemma lsum_roll l : l <> [] -> lsum (roll l 0) = lsum l.
Proof. intros N. destruct (exists_last N) as (l' & x & ->). rewrite roll_app, lsum_app. cbn [lsum]. lia. Qed.
Lemma Forall_roll {A} (P : A -> Prop) l d : l <> [] -> Forall P l -> Forall P (roll l d).
Proof. intros N F. destruct (exists_last N) as (l' & x & ->). rewrite roll_app. apply Forall_app in F. destruct F as [F1 F2]. inversion F2; subst. constructor; assumption. Qed.

Lemma lsum_map2_mod w a b : 0 <= w -> length a = length b -> Forall (fun v => 0 <= v) a -> Forall (fun v => 0 <= v) b -> lsum (map2 (fun l h => (l + h) mod 2 ^ w) a b) <= lsum a + lsum b.
Proof.
  intros Hw. revert b. induction a as [|x a IH]; intros [|y b] L Fa Fb; try discriminate L; [cbn; lia |]. rewrite Forall_cons_iff in Fa, Fb. destruct Fa as [Hx Fa], Fb as [Hy Fb]. cbn [map2 lsum].
  specialize (IH b ltac:(cbn in L; lia) Fa Fb). pose proof (Z.mod_le (x + y) (2 ^ w) ltac:(lia) (pow2_pos w Hw)). lia.
Qed.

Definition has_carry (s : Z) (row : list Z) : bool := existsb (fun v => negb (v / 2 ^ s =? 0)) row.
Lemma carry_row_length w mask s row : row <> [] -> length (carry_row w mask s row) = length row.
Proof. intros N. unfold carry_row. rewrite map2_length, roll_length by (destruct row; [contradiction | discriminate]). rewrite !map_length. lia. Qed.

Lemma carry_row_sum w s row : 0 <= w -> 1 <= s -> row <> [] -> Forall (fun v => 0 <= v) row ->
  lsum (carry_row w (2 ^ s - 1) s row) <= lsum row - (if has_carry s row then 1 else 0).
Proof.
  intros Hw Hs N F. unfold carry_row. pose proof (pow2_pos s ltac:(lia)) as P.
  eapply Z.le_trans; [apply lsum_map2_mod; [exact Hw | | |] |].
  - rewrite roll_length by (destruct row; [contradiction | discriminate]). rewrite !map_length. reflexivity.
  - apply Forall_map. eapply Forall_impl; [| exact F]. cbn beta. intros v Hv. rewrite land_mask by lia. apply Z.mod_pos_bound. exact P.
  - apply Forall_roll; [destruct row; [contradiction | discriminate] |]. apply Forall_map. apply Forall_forall. intros v _. apply Z.mod_pos_bound. reflexivity.
  - rewrite lsum_roll by (destruct row; [contradiction | discriminate]). clear N. unfold has_carry. induction F as [|v row Hv F IH]; [cbn; lia |]. cbn [map lsum existsb]. rewrite land_mask by lia.
    pose proof (Z.div_mod v (2 ^ s) ltac:(lia)) as DM. assert (D0 : 0 <= v / 2 ^ s) by (apply Z.div_pos; lia).
    assert (M1 : u16 (v / 2 ^ s) <= v / 2 ^ s) by (apply Z.mod_le; [lia | reflexivity]).
    assert (2 <= 2 ^ s) by (change 2 with (2 ^ 1) at 1; apply Z.pow_le_mono_r; lia).
    destruct (Z.eqb_spec (v / 2 ^ s) 0) as [E | E]; cbn [negb orb].
    + destruct (existsb _ row); nia.
    + destruct (existsb _ row); nia.
Qed.

Definition batch_sum (b : batch) : Z := lsum (map lsum b).
Definition batch_in (w : Z) (n : nat) (b : batch) : Prop := Forall (fun r => length r = n /\ Forall (fun v => 0 <= v < 2 ^ w) r) b.

Lemma carry_row_range w mask s row : 0 <= w -> Forall (fun v => 0 <= v < 2 ^ w) (carry_row w mask s row).
Proof.
  intros Hw. unfold carry_row. generalize (map (fun v => Z.land v mask) row) (roll (map (fun v => u16 (v / 2 ^ s)) row) 0). induction l as [|x l IH]; intros [|y r]; cbn [map2]; constructor; [| apply IH].
  apply Z.mod_pos_bound. apply pow2_pos. exact Hw.
Qed.

Lemma batch_step w s n b : 0 <= w -> 1 <= s -> (0 < n)%nat -> batch_in w n b -> check_any_chunk_with_carry s b = true ->
  batch_in w n (carry_propagation w (2 ^ s - 1) s b) /\ batch_sum (carry_propagation w (2 ^ s - 1) s b) <= batch_sum b - 1.
Proof.
  intros Hw Hs Hn F C. assert (NE : forall r : list Z, length r = n -> r <> []) by (intros [|? ?] E; [cbn in E; lia | discriminate]). split.
  - unfold carry_propagation, batch_in. apply Forall_map. eapply Forall_impl; [| exact F]. cbn beta. intros r [L _]. split; [rewrite carry_row_length; auto | apply carry_row_range; exact Hw].
  - unfold batch_sum, carry_propagation, check_any_chunk_with_carry in *.
    assert (G : forall b, Forall (fun r => length r = n /\ Forall (fun v => 0 <= v < 2 ^ w) r) b -> lsum (map lsum (map (carry_row w (2 ^ s - 1) s) b)) <= lsum (map lsum b) - (if existsb (existsb (fun v => negb (v / 2 ^ s =? 0))) b then 1 else 0)).
    { clear b F C. induction 1 as [|r b [L Fr] F IH]; [cbn; lia |]. cbn [map lsum existsb].
      pose proof (carry_row_sum w s r Hw Hs (NE r L) ltac:(eapply Forall_impl; [| exact Fr]; cbn beta; intros; lia)) as R. unfold has_carry in R.
      destruct (existsb (fun v => negb (v / 2 ^ s =? 0)) r); cbn [orb]; destruct (existsb _ b); lia. }
    specialize (G b F). rewrite C in G. lia.
Qed.

Lemma lsum_bound l B : Forall (fun v => 0 <= v < B) l -> 0 <= lsum l <= Z.of_nat (length l) * B.
Proof. induction 1 as [|v l Hv _ IH]; [cbn; lia |]. cbn [lsum length]. lia. Qed.
Lemma batch_sum_bound w n b : 0 <= w <= 64 -> batch_in w n b -> 0 <= batch_sum b < 2 ^ Z.of_nat (64 + length b + n).
Proof.
  intros Hw F. assert (B : 0 <= batch_sum b <= Z.of_nat (length b) * (Z.of_nat n * 2 ^ w)).
  { unfold batch_sum. assert (X : Forall (fun v => 0 <= v < Z.of_nat n * 2 ^ w + 1) (map lsum b)). { apply Forall_map. eapply Forall_impl; [| exact F]. cbn beta. intros r [L Fr]. pose proof (lsum_bound _ _ Fr). rewrite L in H. lia. }
    clear - X. induction b as [|r b IH]; [cbn; lia |]. cbn [map lsum length] in *. rewrite Forall_cons_iff in X. destruct X as [Hr X]. specialize (IH X). lia. }
  assert (GE : forall k : nat, Z.of_nat k < 2 ^ Z.of_nat k).
  { induction k as [|k IH]; [reflexivity |]. rewrite Nat2Z.inj_succ, Z.pow_succ_r by lia. lia. }
  pose proof (GE (length b)). pose proof (GE n). split; [lia |]. rewrite !Nat2Z.inj_add, !Z.pow_add_r by lia. change (Z.of_nat 64) with 64.
  assert (2 ^ w <= 2 ^ 64) by (apply Z.pow_le_mono_r; lia). pose proof (pow2_pos w ltac:(lia)).
  assert (P1 := pow2_pos (Z.of_nat (length b)) ltac:(lia)). assert (P2 := pow2_pos (Z.of_nat n) ltac:(lia)).
  apply Z.le_lt_trans with (Z.of_nat (length b) * (Z.of_nat n * 2 ^ w)); [lia |].
  apply Z.le_lt_trans with (Z.of_nat (length b) * (2 ^ Z.of_nat n * 2 ^ 64)); [apply Z.mul_le_mono_nonneg_l; [lia |]; apply Z.mul_le_mono_nonneg; lia |].
  replace (2 ^ 64 * 2 ^ Z.of_nat (length b) * 2 ^ Z.of_nat n) with (2 ^ Z.of_nat (length b) * (2 ^ Z.of_nat n * 2 ^ 64)) by ring. apply Z.mul_lt_mono_pos_r; [apply Z.mul_pos_pos; [lia | reflexivity] | lia].
Qed.

Lemma hd_length n (b : batch) : b <> [] -> Forall (fun r => length r = n) b -> length (hd [] b) = n.
Proof. intros N F. destruct b; [contradiction |]. inversion F; subst. reflexivity. Qed.
Lemma batch_in_length w n b : batch_in w n b -> Forall (fun r => length r = n) b.
Proof. intros F. eapply Forall_impl; [| exact F]. cbn beta. intros r [L _]. exact L. Qed.

(** termination on every input *)
Lemma carry_loop_ends w s n b : 0 <= w <= 64 -> 1 <= s -> (2 <= n)%nat -> b <> [] -> batch_in w n b ->
  exists c, carry_loop w (2 ^ s - 1) s b = Some c /\ batch_in w n c /\ check_any_chunk_with_carry s c = false /\ length c = length b.
Proof.
  intros Hw Hs Hn N F. unfold carry_loop. rewrite (hd_length n b N (batch_in_length _ _ _ F)). destruct (Nat.ltb_spec n 2); [lia |].
  destruct (while_loop_spec (check_any_chunk_with_carry s) (carry_propagation w (2 ^ s - 1) s) batch_sum (fun c => batch_in w n c /\ length c = length b) (64 + length b + n) b) as (y & E & [Iy Ly] & C).
  - intros x [Ix Lx] Cx. destruct (batch_step w s n x ltac:(lia) Hs ltac:(lia) Ix Cx) as [X1 X2]. split; [split; [exact X1 | unfold carry_propagation; rewrite map_length; exact Lx] | exact X2].
  - intros x [Ix _]. apply (batch_sum_bound w n x Hw Ix).
  - split; [exact F | reflexivity].
  - apply (batch_sum_bound w n b Hw F).
  - exists y. repeat split; assumption.
Qed.

(** one step on a row whose value fits *)
Lemma carry_row_value w s n row : 1 <= s -> s + 16 <= w -> length row = n -> (1 <= n)%nat -> Forall (fun v => 0 <= v < 2 ^ (s + 16)) row -> chunk_value s row < 2 ^ (s * Z.of_nat n) ->
  Forall (fun v => 0 <= v < 2 ^ (s + 16)) (carry_row w (2 ^ s - 1) s row) /\ chunk_value s (carry_row w (2 ^ s - 1) s row) = chunk_value s row.
Proof.
  intros Hs Hw L Hn F V. pose proof (pow2_pos s ltac:(lia)) as P.
  assert (N : row <> []) by (destruct row; [cbn in L; lia | discriminate]). destruct (exists_last N) as (r & t & ->). rewrite app_length in L. cbn [length] in L.
  apply Forall_app in F. destruct F as [Fr Ft]. inversion Ft as [|? ? Ht _]; subst. clear Ft N.
  rewrite value_app in V by lia. cbn [chunk_value] in V. rewrite Z.mul_0_r, Z.add_0_r in V.
  assert (VN : 0 <= chunk_value s r) by (apply value_nonneg; [lia |]; eapply Forall_impl; [| exact Fr]; cbn beta; intros; lia).
  assert (T : t < 2 ^ s).
  { replace (s * Z.of_nat (length r + 1)) with (s * Z.of_nat (length r) + s) in V by lia. rewrite Z.pow_add_r in V by nia. pose proof (pow2_pos (s * Z.of_nat (length r)) ltac:(nia)). nia. }
  assert (E16 : 2 ^ (s + 16) = 2 ^ s * 2 ^ 16) by (apply Z.pow_add_r; lia).
  assert (HI : forall v, 0 <= v < 2 ^ (s + 16) -> u16 (v / 2 ^ s) = v / 2 ^ s /\ 0 <= v / 2 ^ s < 2 ^ 16).
  { intros v Hv. assert (0 <= v / 2 ^ s < 2 ^ 16) by (split; [apply Z.div_pos; lia | apply Z.div_lt_upper_bound; lia]). split; [apply Z.mod_small; exact H | exact H]. }
  assert (W : 2 ^ (s + 16) <= 2 ^ w) by (apply Z.pow_le_mono_r; lia). assert (P16 : 2 ^ 16 = 65536) by reflexivity.
  assert (SZ : 2 ^ s - 1 + (2 ^ 16 - 1) < 2 ^ (s + 16)) by nia.
  unfold carry_row. rewrite !map_app. cbn [map]. rewrite roll_app.
  assert (T0 : u16 (t / 2 ^ s) = 0) by (rewrite Z.div_small by lia; reflexivity). rewrite T0.
  assert (G : forall r h, Forall (fun v => 0 <= v < 2 ^ (s + 16)) r -> 0 <= h < 2 ^ 16 ->
    Forall (fun v => 0 <= v < 2 ^ (s + 16)) (map2 (fun l h => (l + h) mod 2 ^ w) (map (fun v => Z.land v (2 ^ s - 1)) r ++ [Z.land t (2 ^ s - 1)]) (h :: map (fun v => u16 (v / 2 ^ s)) r)) /\
    chunk_value s (map2 (fun l h => (l + h) mod 2 ^ w) (map (fun v => Z.land v (2 ^ s - 1)) r ++ [Z.land t (2 ^ s - 1)]) (h :: map (fun v => u16 (v / 2 ^ s)) r)) = h + chunk_value s (r ++ [t])).
  { clear - Hs P P16 HI SZ W T Ht. induction r as [|v r IH]; intros h Fr Hh.
    - cbn [map app map2 chunk_value]. rewrite land_mask, (Z.mod_small t) by lia. rewrite (Z.mod_small (t + h)) by lia. split; [constructor; [lia | constructor] | lia].
    - rewrite Forall_cons_iff in Fr. destruct Fr as [Hv Fr]. destruct (HI v Hv) as [E B]. cbn [map app map2 chunk_value]. rewrite E. destruct (IH (v / 2 ^ s) Fr B) as [X1 X2]. rewrite X2.
      rewrite land_mask by lia. pose proof (Z.mod_pos_bound v (2 ^ s) P). rewrite (Z.mod_small (v mod 2 ^ s + h)) by lia. split; [constructor; [lia | exact X1] |]. pose proof (Z.div_mod v (2 ^ s) ltac:(lia)). lia. }
  destruct (G r 0 Fr ltac:(lia)) as [X1 X2]. split; [exact X1 | rewrite X2; apply Z.add_0_l].
Qed.

Lemma no_carry_digits s c : 0 <= s -> check_any_chunk_with_carry s c = false -> forall row v, In row c -> In v row -> 0 <= v -> v < 2 ^ s.
Proof.
  intros Hs C row v Hr Hv Pv. destruct (Z.lt_ge_cases v (2 ^ s)) as [X | X]; [exact X |]. exfalso. pose proof (pow2_pos s Hs). assert (check_any_chunk_with_carry s c = true); [| congruence].
  unfold check_any_chunk_with_carry. apply existsb_exists. exists row. split; [exact Hr |]. apply existsb_exists. exists v. split; [exact Hv |]. destruct (Z.eqb_spec (v / 2 ^ s) 0) as [E | E]; [| reflexivity].
  assert (1 <= v / 2 ^ s) by (apply Z.div_le_lower_bound; lia). lia.
Qed.

(** on rows whose values fit, the loop returns the digits of the values; other rows of the batch do not matter *)
Definition fits (s : Z) (n : nat) (r : list Z) : Prop := Forall (fun v => 0 <= v < 2 ^ (s + 16)) r /\ chunk_value s r < 2 ^ (s * Z.of_nat n).
Definition same_value (s : Z) (n : nat) (x y : list Z) : Prop := digits s n y /\ chunk_value s y = chunk_value s x.
Lemma carry_loop_rows w s n b : w <= 64 -> 1 <= s -> s + 16 <= w -> (2 <= n)%nat -> b <> [] -> batch_in w n b ->
  exists c, carry_loop w (2 ^ s - 1) s b = Some c /\ batch_in w n c /\ Forall2 (fun x y => fits s n x -> same_value s n x y) b c.
Proof.
  intros Hw Hs Hsw Hn N F0.
  unfold carry_loop. rewrite (hd_length n b N (batch_in_length _ _ _ F0)). destruct (Nat.ltb_spec n 2); [lia |].
  set (J := fun c : batch => batch_in w n c /\ Forall2 (fun x y => length y = n /\ (fits s n x -> Forall (fun v => 0 <= v < 2 ^ (s + 16)) y /\ chunk_value s y = chunk_value s x)) b c).
  destruct (while_loop_spec (check_any_chunk_with_carry s) (carry_propagation w (2 ^ s - 1) s) batch_sum J (64 + length b + n) b) as (y & E & [Iy Ry] & C).
  - intros x [Ix Rx] Cx. destruct (batch_step w s n x ltac:(lia) Hs ltac:(lia) Ix Cx) as [X1 X2]. split; [split; [exact X1 |] | exact X2].
    clear - Rx Hs Hsw Hn. unfold carry_propagation. induction Rx as [|p y b x (L & Fy) R IH]; [constructor |]. cbn [map]. constructor; [| apply IH; assumption].
    split; [rewrite carry_row_length; [exact L | destruct y; [cbn in L; lia | discriminate]] |]. intros Hf. destruct (Fy Hf) as [Y1 Y2].
    destruct (carry_row_value w s n y Hs Hsw L ltac:(lia) Y1) as [Z1 Z2]; [rewrite Y2; apply Hf |]. split; [exact Z1 | congruence].
  - intros x [Ix _]. apply (batch_sum_bound w n x ltac:(lia) Ix).
  - split; [exact F0 |]. clear - F0. induction F0 as [|r b (L & Fr) F IH]; constructor; auto. split; [exact L |]. intros [Hf _]. split; [exact Hf | reflexivity].
  - apply (batch_sum_bound w n b ltac:(lia) F0).
  - exists y. split; [exact E |]. split; [exact Iy |].
    assert (D : forall row, In row y -> Forall (fun v => 0 <= v) row -> Forall (fun v => 0 <= v < 2 ^ s) row).
    { intros row Hr Fr. apply Forall_forall. intros v Hv. rewrite Forall_forall in Fr. split; [apply Fr; exact Hv |]. apply (no_carry_digits s y ltac:(lia) C row v Hr Hv). apply Fr. exact Hv. }
    clear - Ry D. induction Ry as [|p r b y (L & Fr) R IH]; [constructor |]. constructor; [| apply IH; intros row Hr; apply D; right; exact Hr].
    intros Hf. destruct (Fr Hf) as [F1 V]. split; [split; [exact L |] | exact V]. apply D; [left; reflexivity |]. eapply Forall_impl; [| exact F1]. cbn beta. intros; lia.
Qed.

Lemma Forall2_nth_iff {A B} (R : A -> B -> Prop) a b da db : Forall2 R a b <-> length b = length a /\ forall i, (i < length a)%nat -> R (nth i a da) (nth i b db).
Proof.
  split.
  - induction 1 as [|x y a b H _ IH]; [split; [reflexivity | cbn; intros; lia] |]. destruct IH as [L IH]. split; [cbn; congruence |]. intros [|i] Hi; [exact H | apply IH; cbn in Hi; lia].
  - revert b. induction a as [|x a IH]; intros [|y b] [L H]; try discriminate L; constructor; [apply (H 0%nat); cbn; lia |]. apply IH. split; [cbn in L; lia |]. intros i Hi. apply (H (S i)). cbn. lia.
Qed.
