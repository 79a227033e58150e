(** Lemmas for the high-precision matrix products. *)
From Coq Require Import ZArith List Bool Lia.
From Verif Require Import Base.ZSum Base.Lists Base.Word Base.Modeq Ckks.Model_rns_utils Cggi.Model_matrix_utils Cggi.Model_hpmatmul Ec.Model_field Ec.Proof_carry.
Import ListNotations.
Local Open Scope Z_scope.

(** the value of a little-endian list of base 256 digits *)
Fixpoint bval (l : list Z) : Z := match l with [] => 0 | x :: l' => x + 256 * bval l' end.
Definition byte_list (l : list Z) : Prop := Forall (fun v => 0 <= v < 256) l.
Lemma bval_app a b : bval (a ++ b) = bval a + 256 ^ Z.of_nat (length a) * bval b.
Proof. induction a as [|x a IH]; [cbn [app bval length]; rewrite Z.pow_0_r; lia |]. cbn [app bval length]. rewrite IH, Nat2Z.inj_succ, Z.pow_succ_r by lia. ring. Qed.
Lemma bval_zeros n : bval (repeat 0 n) = 0.
Proof. induction n as [|n IH]; cbn [repeat bval]; lia. Qed.
Lemma bval_nonneg l : Forall (fun v => 0 <= v) l -> 0 <= bval l.
Proof. induction 1; cbn [bval]; lia. Qed.
Lemma bval_bytes l : byte_list l -> 0 <= bval l < 256 ^ Z.of_nat (length l).
Proof. induction 1 as [|x l Hx _ IH]; cbn [bval length]; [rewrite Z.pow_0_r; lia |]. rewrite Nat2Z.inj_succ, Z.pow_succ_r by lia. lia. Qed.
Lemma bval_add a b : length a = length b -> bval (map2 Z.add a b) = bval a + bval b.
Proof. revert b. induction a as [|x a IH]; intros [|y b] H; try discriminate H; [reflexivity |]. cbn [map2 bval]. rewrite IH by (cbn in H; lia). ring. Qed.

(** chunk_decomposition *)
Lemma chunks_spec fuel : forall x, 0 <= x < 2 ^ Z.of_nat fuel -> byte_list (chunks_loop fuel x 8) /\ bval (chunks_loop fuel x 8) = x /\ forall n, x < 256 ^ Z.of_nat n -> (length (chunks_loop fuel x 8) <= n)%nat.
Proof.
  induction fuel as [|fuel IH]; intros x Hx; cbn [chunks_loop].
  - rewrite Z.pow_0_r in Hx. split; [constructor |]. cbn. split; [lia |]. intros n _. lia.
  - destruct (Z.ltb_spec 0 x) as [P | P]; [| split; [constructor |]; cbn; split; [lia | intros; lia]].
    change (2 ^ 8 - 1) with (Z.ones 8). rewrite Z.land_ones by lia. rewrite Z.shiftr_div_pow2 by lia. change (2 ^ 8) with 256. pose proof (Z.mod_pos_bound x 256 ltac:(lia)) as M. pose proof (Z.div_mod x 256 ltac:(lia)) as D.
    rewrite Nat2Z.inj_succ, Z.pow_succ_r in Hx by lia. destruct (IH (x / 256)) as (B & V & L). { split; [apply Z.div_pos; lia |]. assert (x / 256 < x) by (apply Z.div_lt; lia). apply Z.div_lt_upper_bound; lia. }
    split; [constructor; [exact M | exact B] |]. cbn [bval length]. split; [lia |]. intros n Hn. destruct n as [|n]; [rewrite Z.pow_0_r in Hn; lia |]. apply le_n_S, L. rewrite Nat2Z.inj_succ, Z.pow_succ_r in Hn by lia. apply Z.div_lt_upper_bound; lia.
Qed.
Lemma chunk_decomposition_spec x : 0 <= x -> byte_list (chunk_decomposition x 8) /\ bval (chunk_decomposition x 8) = x /\ forall n, x < 256 ^ Z.of_nat n -> (length (chunk_decomposition x 8) <= n)%nat.
Proof.
  intros Hx. apply chunks_spec. split; [exact Hx |]. destruct (Z.eq_dec x 0) as [-> | NZ]; [cbn; lia |]. rewrite Nat2Z.inj_succ, Z2Nat.id by apply Z.log2_nonneg. apply Z.log2_spec. lia.
Qed.

(** the carry loop *)
Lemma land255 v : Z.land v 255 = v mod 256.
Proof. change 255 with (Z.ones 8). rewrite Z.land_ones by lia. reflexivity. Qed.
Lemma shr8 v : Z.shiftr v 8 = v / 256.
Proof. rewrite Z.shiftr_div_pow2 by lia. reflexivity. Qed.
Definition half_words (l : list Z) : Prop := Forall (fun v => 0 <= v < 2 ^ 16) l.
Lemma map2_u16_small a b : Forall (fun v => 0 <= v < 256) a -> Forall (fun v => 0 <= v < 256) b -> map2 (fun l h => u16 (l + h)) a b = map2 Z.add a b.
Proof.
  intros Fa. revert b. induction Fa as [|x a Hx _ IH]; intros b Fb; [reflexivity |]. destruct Fb as [|y b Hy Fb]; [reflexivity |]. cbn [map2]. rewrite IH by exact Fb. f_equal. unfold u16. apply Z.mod_small. change (2 ^ 16) with 65536. lia.
Qed.
Lemma low_bytes l : Forall (fun v => 0 <= v < 256) (map (fun v => Z.land v 255) l).
Proof. apply Forall_map, Forall_forall. intros v _. rewrite land255. apply Z.mod_pos_bound. lia. Qed.
Lemma high_bytes l : half_words l -> Forall (fun v => 0 <= v < 256) (map (fun v => Z.shiftr v 8) l).
Proof. intros F. apply Forall_map. eapply Forall_impl; [| exact F]. cbn beta. intros v Hv. change (2 ^ 16) with 65536 in Hv. rewrite shr8. split; [apply Z.div_pos; lia | apply Z.div_lt_upper_bound; lia]. Qed.
Lemma bval_split l : bval (map (fun v => Z.land v 255) l) + 256 * bval (map (fun v => Z.shiftr v 8) l) = bval l.
Proof. induction l as [|v l IH]; cbn [map bval]; [reflexivity |]. rewrite land255, shr8. pose proof (Z.div_mod v 256 ltac:(lia)). lia. Qed.
Lemma map2_add_range a b : Forall (fun v => 0 <= v < 256) a -> Forall (fun v => 0 <= v < 256) b -> Forall (fun v => 0 <= v <= 510) (map2 Z.add a b).
Proof. intros Fa. revert b. induction Fa as [|x a Hx _ IH]; intros b Fb; [constructor |]. destruct Fb as [|y b Hy Fb]; [constructor |]. cbn [map2]. constructor; [lia | apply IH; exact Fb]. Qed.
Lemma half_of_510 l : Forall (fun v => 0 <= v <= 510) l -> half_words l.
Proof. intros F. eapply Forall_impl; [| exact F]. cbn beta. intros v Hv. change (2 ^ 16) with 65536. lia. Qed.

Lemma map_nil_inv {A B} (f : A -> B) l : l <> [] -> map f l <> [].
Proof. destruct l; [contradiction | discriminate]. Qed.
Lemma rechunk_step_spec b n : length b = n -> (0 < n)%nat -> half_words b -> bval b < 256 ^ Z.of_nat n ->
  Forall (fun v => 0 <= v <= 510) (rechunk_step b) /\ length (rechunk_step b) = n /\ bval (rechunk_step b) = bval b.
Proof.
  intros L N F V. assert (NE : b <> []) by (destruct b; [cbn in L; lia | discriminate]). unfold rechunk_step.
  assert (FR : Forall (fun v => 0 <= v < 256) (Model_field.roll (map (fun v => Z.shiftr v 8) b) 0)) by (apply Forall_roll; [apply map_nil_inv; exact NE | apply high_bytes; exact F]).
  rewrite map2_u16_small by (try exact FR; apply low_bytes). assert (LR : length (Model_field.roll (map (fun v => Z.shiftr v 8) b) 0) = length b) by (rewrite roll_length by (apply map_nil_inv; exact NE); apply map_length).
  split; [apply map2_add_range; [apply low_bytes | exact FR] |]. split; [rewrite map2_length, LR, map_length; lia |]. rewrite bval_add by (rewrite LR, map_length; reflexivity).
  destruct (exists_last NE) as (l & x & ->). rewrite (map_app (fun v => Z.shiftr v 8)). cbn [map]. rewrite roll_app. cbn [bval]. rewrite <- (bval_split (l ++ [x])). rewrite !map_app. cbn [map]. rewrite (bval_app (map (fun v => Z.shiftr v 8) l)). cbn [bval].
  rewrite app_length in L. cbn [length] in L. apply Forall_app in F. destruct F as [Fl Fx]. inversion Fx as [|? ? Hx _]; subst. rewrite bval_app in V. cbn [bval] in V. assert (0 <= bval l) by (apply bval_nonneg; eapply Forall_impl; [| exact Fl]; cbn beta; intros; lia).
  replace (Z.of_nat (length l + 1)) with (Z.succ (Z.of_nat (length l))) in V by lia. rewrite Z.pow_succ_r in V by lia. assert (0 < 256 ^ Z.of_nat (length l)) by (apply Z.pow_pos_nonneg; lia). assert (x < 256) by nia. rewrite shr8, (Z.div_small x 256) by lia. lia.
Qed.
Lemma rechunk_step_sum b : b <> [] -> half_words b -> over_mask b = true -> lsum (rechunk_step b) <= lsum b - 1.
Proof.
  intros NE F O. unfold rechunk_step. rewrite map2_u16_small; [| apply low_bytes | apply Forall_roll; [apply map_nil_inv; exact NE | apply high_bytes; exact F]].
  assert (E : forall u v, length u = length v -> lsum (map2 Z.add u v) = lsum u + lsum v) by (induction u as [|p u IH]; intros [|r v] H; try discriminate H; cbn [map2 lsum]; [reflexivity |]; rewrite IH by (cbn in H; lia); ring).
  rewrite E by (rewrite roll_length by (apply map_nil_inv; exact NE); rewrite !map_length; reflexivity). rewrite lsum_roll by (apply map_nil_inv; exact NE). clear E NE. unfold over_mask in O. induction F as [|v l Hv Fl IH]; [discriminate O |]. cbn [forallb] in O. cbn [map lsum]. rewrite land255, shr8. pose proof (Z.div_mod v 256 ltac:(lia)) as D. assert (0 <= v / 256) by (apply Z.div_pos; lia).
  assert (G : lsum (map (fun v => Z.land v 255) l) + lsum (map (fun v => Z.shiftr v 8) l) <= lsum l). { clear - Fl. induction Fl as [|v l Hv _ IH]; cbn [map lsum]; [lia |]. rewrite land255, shr8. pose proof (Z.div_mod v 256 ltac:(lia)). assert (0 <= v / 256) by (apply Z.div_pos; lia). lia. }
  destruct (Z.leb_spec v 255) as [Le | Gt]; cbn [andb] in O; [specialize (IH O); lia |]. assert (1 <= v / 256) by (apply Z.div_le_lower_bound; lia). lia.
Qed.
Lemma over_mask_false b : Forall (fun v => 0 <= v) b -> over_mask b = false -> byte_list b.
Proof. unfold over_mask, byte_list. intros F O. apply negb_false_iff in O. rewrite forallb_forall in O. rewrite Forall_forall in *. intros v Hv. specialize (O v Hv). specialize (F v Hv). apply Z.leb_le in O. lia. Qed.

(** rechunkify: same value, proper bytes; one chunk more than half of the maximum is enough room *)
Lemma rechunkify_spec a n : length a = n -> (0 < n)%nat -> Z.of_nat n < 2 ^ 32 -> half_words a -> bval a < 256 ^ Z.of_nat n ->
  exists r, rechunkify_after_chunkwise_add a = Some r /\ length r = (n + 2)%nat /\ byte_list r /\ bval r = bval a.
Proof.
  intros L N NB F V. unfold rechunkify_after_chunkwise_add. set (b := map2 _ _ _).
  assert (F1 : Forall (fun v => 0 <= v < 256) (map (fun v => Z.land v 255) a ++ [0])) by (apply Forall_app; split; [apply low_bytes | repeat constructor; lia]).
  assert (F2 : Forall (fun v => 0 <= v < 256) (0 :: map (fun v => Z.shiftr v 8) a)) by (constructor; [lia | apply high_bytes; exact F]).
  assert (EB : b = map2 Z.add (map (fun v => Z.land v 255) a ++ [0]) (0 :: map (fun v => Z.shiftr v 8) a)) by (apply map2_u16_small; assumption).
  assert (LB : length b = S n) by (rewrite EB, map2_length, app_length; cbn [length]; rewrite !map_length; lia).
  assert (VB : bval b = bval a). { rewrite EB, bval_add by (rewrite app_length; cbn [length]; rewrite !map_length; lia). rewrite bval_app. cbn [bval]. rewrite <- (bval_split a). lia. }
  assert (RB : Forall (fun v => 0 <= v <= 510) b) by (rewrite EB; apply map2_add_range; assumption).
  set (I := fun b : list Z => Forall (fun v => 0 <= v <= 510) b /\ length b = S n /\ bval b = bval a).
  destruct (while_loop_spec over_mask rechunk_step (fun b => lsum b) I 64 b) as (y & E & (RY & LY & VY) & O).
  - intros c (RC & LC & VC) O. split.
    + destruct (rechunk_step_spec c (S n) LC ltac:(lia) (half_of_510 c RC)) as (R' & L' & V').
      { rewrite VC, Nat2Z.inj_succ, Z.pow_succ_r by lia. assert (0 < 256 ^ Z.of_nat n) by (apply Z.pow_pos_nonneg; lia). lia. }
      split; [exact R' |]. split; [exact L' | lia].
    + apply rechunk_step_sum; [destruct c; [cbn in LC; lia | discriminate] | apply half_of_510; exact RC | exact O].
  - intros c (RC & _). apply lsum_nonneg. eapply Forall_impl; [| exact RC]. cbn beta. intros. lia.
  - split; [exact RB |]. split; assumption.
  - assert (lsum b <= Z.of_nat (length b) * 511). { apply (lsum_bound b 511). eapply Forall_impl; [| exact RB]. cbn beta. intros. lia. } rewrite LB in H. change (2 ^ Z.of_nat 64) with 18446744073709551616. change (2 ^ 32) with 4294967296 in NB. lia.
  - rewrite E. assert (BY : byte_list y) by (apply over_mask_false; [eapply Forall_impl; [| exact RY]; cbn beta; intros; lia | exact O]). eexists. split; [reflexivity |].
    assert (NE : y <> []) by (destruct y; [cbn in LY; lia | discriminate]). destruct (exists_last NE) as (l & x & EY). rewrite EY in *. rewrite last_last, removelast_app1. apply Forall_app in BY. destruct BY as [BL BX]. inversion BX as [|? ? HX _]; subst. rewrite land255, shr8, Z.mod_small, Z.div_small by lia.
    rewrite app_length in *. cbn [length] in *. split; [lia |]. split; [apply Forall_app; split; [exact BL | repeat constructor; lia] |]. rewrite <- VY, !bval_app. cbn [bval]. lia.
Qed.

(** adding a prefix *)
Lemma add_prefix_spec r col B : (length r <= length col)%nat -> byte_list r -> Forall (fun v => 0 <= v <= B) col -> B + 255 < 2 ^ 16 ->
  length (add_prefix r col) = length col /\ bval (add_prefix r col) = bval r + bval col /\
  (forall k, (k < length r)%nat -> 0 <= nth k (add_prefix r col) 0 <= B + 255) /\ (forall k, (length r <= k)%nat -> nth k (add_prefix r col) 0 = nth k col 0).
Proof.
  intros LE BR. unfold add_prefix. revert col LE. induction BR as [|x r Hx _ IH]; intros col LE F HB; cbn [length firstn skipn map2 app].
  - split; [reflexivity |]. split; [cbn [bval]; lia |]. split; [intros; lia | reflexivity].
  - destruct col as [|y col]; [cbn in LE; lia |]. cbn [length firstn skipn map2 app] in *. inversion F as [|? ? Hy Fc]; subst. destruct (IH col ltac:(lia) Fc HB) as (L1 & V1 & R1 & Z1). cbn [length]. rewrite L1. split; [reflexivity |]. unfold u16 at 1. rewrite (Z.mod_small (x + y)) by lia. cbn [bval]. split; [lia |]. split.
    + intros [|k] Hk; cbn [nth]; [unfold u16; rewrite Z.mod_small; lia |]. apply R1. lia.
    + intros [|k] Hk; [lia |]. cbn [nth]. apply Z1. lia.
Qed.

(** columns with four entries in the upper block *)
Definition top (B : Z) (col : list Z) : Prop := exists t0 t1 t2 t3, col = [t0; t1; t2; t3; 0; 0; 0] /\ 0 <= t0 <= B /\ 0 <= t1 <= B /\ 0 <= t2 <= B /\ 0 <= t3 <= B.
Lemma explicit7 (l : list Z) : length l = 7%nat -> l = [nth 0 l 0; nth 1 l 0; nth 2 l 0; nth 3 l 0; nth 4 l 0; nth 5 l 0; nth 6 l 0].
Proof. do 7 (destruct l as [|? l]; [discriminate |]). destruct l; [reflexivity | discriminate]. Qed.
Lemma add_prefix_shape r col B d : byte_list r -> (length r <= 4)%nat -> (exists t0 t1 t2 t3, col = [t0; t1; t2; t3; d; 0; 0] /\ 0 <= t0 <= B /\ 0 <= t1 <= B /\ 0 <= t2 <= B /\ 0 <= t3 <= B) -> 0 <= d <= B -> B + 255 < 2 ^ 16 ->
  (exists t0 t1 t2 t3, add_prefix r col = [t0; t1; t2; t3; d; 0; 0] /\ 0 <= t0 <= B + 255 /\ 0 <= t1 <= B + 255 /\ 0 <= t2 <= B + 255 /\ 0 <= t3 <= B + 255) /\ bval (add_prefix r col) = bval r + bval col.
Proof.
  intros BR LR (t0 & t1 & t2 & t3 & -> & H0 & H1 & H2 & H3) Hd HB. assert (F : Forall (fun v => 0 <= v <= B) [t0; t1; t2; t3; d; 0; 0]) by (repeat constructor; lia).
  destruct (add_prefix_spec r [t0; t1; t2; t3; d; 0; 0] B ltac:(cbn; lia) BR F HB) as (L & V & R & Z). split; [| exact V]. set (c := add_prefix r _) in *. assert (X : forall k, (k < 4)%nat -> 0 <= nth k c 0 <= B + 255).
  { intros k Hk. destruct (Nat.lt_ge_cases k (length r)) as [Lt | Ge]; [apply R; exact Lt |]. rewrite Z by exact Ge. destruct k as [|[|[|[|k]]]]; cbn; lia. }
  exists (nth 0 c 0), (nth 1 c 0), (nth 2 c 0), (nth 3 c 0). split; [| repeat split; apply X; lia]. rewrite (explicit7 c L) at 1. rewrite (Z 4%nat), (Z 5%nat), (Z 6%nat) by lia. reflexivity.
Qed.
Lemma chunks_below_q y q : 0 <= y < q -> q <= 2 ^ 32 -> byte_list (chunk_decomposition y 8) /\ bval (chunk_decomposition y 8) = y /\ (length (chunk_decomposition y 8) <= 4)%nat.
Proof. intros Hy Hq. destruct (chunk_decomposition_spec y ltac:(lia)) as (B & V & L). split; [exact B |]. split; [exact V |]. apply L. change (256 ^ Z.of_nat 4) with (2 ^ 32). lia. Qed.
Lemma top_add B col q y : top B col -> 0 <= y < q -> q <= 2 ^ 32 -> 0 <= B -> B + 255 < 2 ^ 16 -> top (B + 255) (add_prefix (chunk_decomposition y 8) col) /\ bval (add_prefix (chunk_decomposition y 8) col) = bval col + y.
Proof.
  intros T Hy Hq B0 HB. destruct (chunks_below_q y q Hy Hq) as (B1 & V1 & L1). destruct (add_prefix_shape (chunk_decomposition y 8) col B 0 B1 L1) as [S E]; [exact T | lia | exact HB |]. split; [exact S | lia].
Qed.

(** one round on one column *)
Definition rechunk_if (col : list Z) : option (list Z) :=
  if negb (forallb (fun v => v <=? 255) col) then match rechunkify_after_chunkwise_add col with None => None | Some a => Some (firstn 7 a) end else Some col.
Definition proj (q : Z) (i : nat) (col : list Z) : list Z :=
  let data := nth (4 + i) col 0 in
  if 0 <? data then upd (4 + i) 0 (add_prefix (chunk_decomposition (Z.shiftl data (Z.of_nat ((4 + i) * 8)) mod q) 8) col) else col.
Definition mid (col : list Z) : Prop := exists r0 r1 r2 r3 d, col = [r0; r1; r2; r3; d; 0; 0] /\ 0 <= r0 < 256 /\ 0 <= r1 < 256 /\ 0 <= r2 < 256 /\ 0 <= r3 < 256 /\ 0 <= d < 256.

Lemma forallb_top t0 t1 t2 t3 : forallb (fun v => v <=? 255) [t0; t1; t2; t3; 0; 0; 0] = true -> t0 <= 255 /\ t1 <= 255 /\ t2 <= 255 /\ t3 <= 255.
Proof. cbn [forallb]. rewrite !andb_true_iff, !Z.leb_le. tauto. Qed.
Lemma rechunk_if_spec col : top 1020 col -> exists c, rechunk_if col = Some c /\ mid c /\ bval c = bval col /\ (forallb (fun v => v <=? 255) col = true -> c = col).
Proof.
  intros (t0 & t1 & t2 & t3 & -> & H0 & H1 & H2 & H3). unfold rechunk_if. destruct (forallb _ _) eqn:E; cbn [negb].
  - apply forallb_top in E. eexists. split; [reflexivity |]. split; [exists t0, t1, t2, t3, 0; split; [reflexivity |]; lia |]. split; [reflexivity | reflexivity].
  - assert (V : bval [t0; t1; t2; t3; 0; 0; 0] < 2 ^ 34) by (cbn [bval]; change (2 ^ 34) with 17179869184; lia).
    destruct (rechunkify_spec [t0; t1; t2; t3; 0; 0; 0] 7 eq_refl ltac:(lia) ltac:(cbn; lia)) as (r & ER & LR & BR & VR); [repeat constructor; lia | change (256 ^ Z.of_nat 7) with 72057594037927936; change (2 ^ 34) with 17179869184 in V; lia |].
    rewrite ER. eexists. split; [reflexivity |]. rewrite <- VR in V. do 9 (destruct r as [|? r]; [discriminate LR |]). destruct r; [| discriminate LR]. repeat match goal with H : byte_list (_ :: _) |- _ => inversion H; clear H; subst | H : Forall _ (_ :: _) |- _ => inversion H; clear H; subst end.
    cbn [bval] in V, VR. change (2 ^ 34) with 17179869184 in V. assert (z4 = 0) by lia. assert (z5 = 0) by lia. assert (z6 = 0) by lia. assert (z7 = 0) by lia. subst. cbn [firstn]. split; [exists z, z0, z1, z2, z3; split; [reflexivity |]; lia |]. split; [cbn [bval]; lia | discriminate].
Qed.
Lemma proj_skip q i col : nth (4 + i) col 0 = 0 -> proj q i col = col.
Proof. intros E. unfold proj. rewrite E. reflexivity. Qed.
Lemma proj0_spec q c : 0 < q -> q <= 2 ^ 32 -> mid c ->
  top 510 (proj q 0 c) /\ (let d := nth 4 c 0 in 0 <= d < 256 /\ 0 <= bval c - d * 2 ^ 32 < 2 ^ 32 /\ bval (proj q 0 c) = bval c - d * 2 ^ 32 + (d * 2 ^ 32) mod q /\ (d = 0 -> proj q 0 c = c)).
Proof.
  intros Q0 Q1 (r0 & r1 & r2 & r3 & d & -> & H0 & H1 & H2 & H3 & Hd). cbv zeta. cbn [nth]. assert (VB : 0 <= bval [r0; r1; r2; r3; d; 0; 0] - d * 2 ^ 32 < 2 ^ 32) by (cbn [bval]; change (2 ^ 32) with 4294967296; lia).
  unfold proj. cbn [Nat.add nth]. destruct (Z.ltb_spec 0 d) as [P | P].
  - change (Z.of_nat (4 * 8)) with 32. rewrite Z.shiftl_mul_pow2 by lia. pose proof (Z.mod_pos_bound (d * 2 ^ 32) q Q0) as M. set (y := (d * 2 ^ 32) mod q) in *. destruct (chunks_below_q y q M Q1) as (B1 & V1 & L1).
    destruct (add_prefix_shape (chunk_decomposition y 8) [r0; r1; r2; r3; d; 0; 0] 255 d B1 L1) as [(s0 & s1 & s2 & s3 & E & S0 & S1 & S2 & S3) VV]; [exists r0, r1, r2, r3; split; [reflexivity |]; lia | lia | cbn; lia |]. rewrite E in *. cbn [upd].
    split; [exists s0, s1, s2, s3; split; [reflexivity |]; lia |]. split; [lia |]. split; [exact VB |]. split; [| lia]. rewrite V1 in VV. cbn [bval] in VV |- *. change (2 ^ 32) with 4294967296. lia.
  - assert (d = 0) by lia. subst d. split; [exists r0, r1, r2, r3; split; [reflexivity |]; lia |]. split; [lia |]. split; [exact VB |]. split; [rewrite Z.mul_0_l, Zmod_0_l; lia | reflexivity].
Qed.
(** tiers *)
Definition tier (k : nat) (q : Z) (col : list Z) : Prop := top 1020 col /\
  match k with O => bval col < 2 ^ 34 | 1%nat => bval col < 2 ^ 32 + q | 2%nat => bval col < 2 ^ 32 | _ => top 255 col end.
Lemma top255_small col : top 255 col -> bval col < 2 ^ 32 /\ forallb (fun v => v <=? 255) col = true.
Proof. intros (t0 & t1 & t2 & t3 & -> & H0 & H1 & H2 & H3). split; [cbn [bval]; change (2 ^ 32) with 4294967296; lia |]. cbn [forallb]. rewrite !andb_true_iff, !Z.leb_le. repeat split; lia. Qed.
Lemma top_mono A B col : A <= B -> top A col -> top B col.
Proof. intros H (t0 & t1 & t2 & t3 & -> & H0 & H1 & H2 & H3). exists t0, t1, t2, t3. split; [reflexivity |]. lia. Qed.
Lemma tier3 q col : top 255 col -> tier 3 q col.
Proof. intros T. split; [apply (top_mono 255); [lia | exact T] | exact T]. Qed.
Lemma tier_up q col k : 0 < q -> q <= 2 ^ 32 -> tier 3 q col -> (k <= 3)%nat -> tier k q col.
Proof. intros Q0 Q1 [T T3] Hk. split; [exact T |]. cbv iota in T3. destruct (top255_small col T3) as [V _]. destruct k as [|[|[|[|k]]]]; try lia; exact T3. Qed.

Lemma step_spec q col k : 0 < q -> q <= 2 ^ 32 -> (k < 3)%nat -> tier k q col ->
  exists c, rechunk_if col = Some c /\ mid c /\ tier (S k) q (proj q 0 c) /\ bval (proj q 0 c) == bval col [mod q] /\ (tier 3 q col -> c = col /\ nth 4 c 0 = 0 /\ proj q 0 c = col).
Proof.
  intros Q0 Q1 Hk [T V]. destruct (rechunk_if_spec col T) as (c & E & M & VC & ID). exists c. split; [exact E |]. split; [exact M |]. destruct (proj0_spec q c Q0 Q1 M) as (T5 & D). cbv zeta in D. set (d := nth 4 c 0) in *. destruct D as (Hd & Hlow & VP & D0). rewrite VC in *.
  assert (MB := Z.mod_pos_bound (d * 2 ^ 32) q Q0). set (m := (d * 2 ^ 32) mod q) in *.
  assert (Cg : bval (proj q 0 c) == bval col [mod q]). { rewrite VP. unfold m. rewrite eqm_mod. apply eqm_eq. ring. }
  split; [| split; [exact Cg |]].
  - split; [apply (top_mono 510); [lia | exact T5] |]. destruct k as [|[|[|k]]]; [| | | lia]; cbv iota in V |- *.
    + change (2 ^ 32) with 4294967296 in *. lia.
    + change (2 ^ 32) with 4294967296 in *. assert (d = 0 \/ d = 1) as [D1 | D1] by lia.
      * rewrite VP. assert (m = 0) by (unfold m; rewrite D1; reflexivity). lia.
      * assert (m <= 4294967296 - q). { unfold m. rewrite D1. pose proof (Z.div_mod (1 * 4294967296) q ltac:(lia)) as DM. assert (1 <= 1 * 4294967296 / q) by (apply Z.div_le_lower_bound; lia). nia. } lia.
    + change (2 ^ 32) with 4294967296 in *. assert (D1 : d = 0) by lia. rewrite (D0 D1). unfold d in D1. destruct M as (r0 & r1 & r2 & r3 & d' & -> & H0 & H1 & H2 & H3 & Hd'). cbn in D1. subst d'. exists r0, r1, r2, r3. split; [reflexivity |]. lia.
  - intros [_ T3]. cbv iota in T3. destruct (top255_small col T3) as [_ F]. unfold d. rewrite (ID F). assert (nth 4 col 0 = 0) by (destruct T3 as (t0 & t1 & t2 & t3 & -> & _); reflexivity). split; [reflexivity |]. split; [assumption |]. apply proj_skip. assumption.
Qed.

(** one round on the four columns *)
Lemma bat_rechunk_cols k0 k1 k2 k3 c1 c2 c3 : rechunk_if k1 = Some c1 -> rechunk_if k2 = Some c2 -> rechunk_if k3 = Some c3 -> bat_rechunk [0; 1; 2]%nat [k0; k1; k2; k3] = Some [k0; c1; c2; c3].
Proof.
  unfold rechunk_if. intros E1 E2 E3. cbn [bat_rechunk]. change (4 - 1 - 0)%nat with 3%nat. change (4 - 1 - 1)%nat with 2%nat. change (4 - 1 - 2)%nat with 1%nat. cbn [nth].
  destruct (negb (forallb (fun v => v <=? 255) k3)); [destruct (rechunkify_after_chunkwise_add k3); [| discriminate E3] |]; injection E3 as <-; cbn [upd nth];
  (destruct (negb (forallb (fun v => v <=? 255) k2)); [destruct (rechunkify_after_chunkwise_add k2); [| discriminate E2] |]; injection E2 as <-; cbn [upd nth];
   (destruct (negb (forallb (fun v => v <=? 255) k1)); [destruct (rechunkify_after_chunkwise_add k1); [| discriminate E1] |]; injection E1 as <-; cbn [upd nth]; reflexivity)).
Qed.
Definition rstep (q : Z) (cols : list (list Z)) (ij : nat * nat) : list (list Z) :=
  let '(i, j) := ij in let c := (4 - 1 - j)%nat in upd c (proj q i (nth c cols [])) cols.
Lemma upd_same (c : nat) (cols : list (list Z)) : (c < length cols)%nat -> upd c (nth c cols []) cols = cols.
Proof. revert c. induction cols as [|x cols IH]; intros [|c] H; cbn in *; try lia; [reflexivity |]. rewrite IH by lia. reflexivity. Qed.
Lemma bat_reproject_steps q n cols : length cols = 4%nat -> bat_reproject q n cols = fold_left (rstep q) (bat_pairs n) cols.
Proof.
  unfold bat_reproject. generalize (bat_pairs n). intros l. revert cols. induction l as [|[i j] l IH]; intros cols L; [reflexivity |]. cbn [fold_left]. unfold rstep at 2. unfold proj. set (c := (4 - 1 - j)%nat). destruct (0 <? nth (4 + i) (nth c cols []) 0).
  - apply IH. rewrite upd_length. exact L.
  - rewrite upd_same by (unfold c; lia). apply IH. exact L.
Qed.
Lemma proj_top q i col B : top B col -> proj q i col = col.
Proof. intros (t0 & t1 & t2 & t3 & -> & _). apply proj_skip. destruct i as [|[|[|i]]]; cbn; try reflexivity. destruct i; reflexivity. Qed.
Lemma reproject_cols q n k0 k1 k2 k3 : (n <= 4)%nat -> 0 < q -> q <= 2 ^ 32 -> mid k0 -> mid k1 -> mid k2 -> mid k3 -> nth 4 k0 0 = 0 -> ((n < 4)%nat -> nth 4 k1 0 = 0) -> ((n < 3)%nat -> nth 4 k2 0 = 0) -> ((n < 2)%nat -> nth 4 k3 0 = 0) ->
  bat_reproject q n [k0; k1; k2; k3] = [proj q 0 k0; proj q 0 k1; proj q 0 k2; proj q 0 k3].
Proof.
  intros Hn Q0 Q1 M0 M1 M2 M3 Z0 Z1 Z2 Z3. rewrite bat_reproject_steps by reflexivity. rewrite (proj_skip q 0 k0 Z0).
  pose proof (fun i => proj_top q i _ 510 (proj1 (proj0_spec q k1 Q0 Q1 M1))) as P1. pose proof (fun i => proj_top q i _ 510 (proj1 (proj0_spec q k2 Q0 Q1 M2))) as P2. pose proof (fun i => proj_top q i _ 510 (proj1 (proj0_spec q k3 Q0 Q1 M3))) as P3.
  destruct n as [|[|[|[|[|n]]]]]; [| | | | | lia].
  - cbn [bat_pairs flat_map seq map Nat.sub app fold_left]. rewrite (proj_skip q 0 k1), (proj_skip q 0 k2), (proj_skip q 0 k3); [reflexivity | apply Z3; lia | apply Z2; lia | apply Z1; lia].
  - cbn [bat_pairs flat_map seq map Nat.sub app fold_left]. rewrite (proj_skip q 0 k1), (proj_skip q 0 k2), (proj_skip q 0 k3); [reflexivity | apply Z3; lia | apply Z2; lia | apply Z1; lia].
  - change (bat_pairs 2) with [(0, 0)]%nat. cbn [fold_left]. unfold rstep. cbn [Nat.sub nth upd]. rewrite (proj_skip q 0 k1), (proj_skip q 0 k2); [reflexivity | apply Z2; lia | apply Z1; lia].
  - change (bat_pairs 3) with [(0, 0); (0, 1); (1, 0)]%nat. cbn [fold_left]. unfold rstep. cbn [Nat.sub nth upd]. rewrite (proj_skip q 0 k1) by (apply Z1; lia). rewrite P3. reflexivity.
  - change (bat_pairs 4) with [(0, 0); (0, 1); (0, 2); (1, 0); (1, 1); (2, 0)]%nat. cbn [fold_left]. unfold rstep. cbn [Nat.sub nth upd]. rewrite !P3, !P2. reflexivity.
Qed.

Lemma top_bytes col : top 1020 col -> forallb (fun v => v <=? 255) col = true -> top 255 col.
Proof. intros (t0 & t1 & t2 & t3 & -> & H0 & H1 & H2 & H3) F. apply forallb_top in F. exists t0, t1, t2, t3. split; [reflexivity |]. lia. Qed.
Lemma top_bottom B col : top B col -> forallb (fun v => v =? 0) (skipn 4 col) = true.
Proof. intros (t0 & t1 & t2 & t3 & -> & _). reflexivity. Qed.
Lemma tier_top k q col : tier k q col -> top 1020 col.
Proof. intros [T _]. exact T. Qed.
Lemma tier_mid q col : tier 3 q col -> mid col /\ nth 4 col 0 = 0.
Proof. intros [_ T]. cbv iota in T. destruct T as (t0 & t1 & t2 & t3 & -> & H0 & H1 & H2 & H3). split; [| reflexivity]. exists t0, t1, t2, t3, 0. split; [reflexivity |]. lia. Qed.
Lemma bat_loop_spec q n : (n <= 4)%nat -> 0 < q -> q <= 2 ^ 32 -> forall m fuel t k0 k1 k2 k3, (m + t = 3)%nat -> (m <= fuel)%nat ->
  tier 3 q k0 -> tier t q k1 -> tier t q k2 -> tier t q k3 -> ((n < 4)%nat -> tier 3 q k1) -> ((n < 3)%nat -> tier 3 q k2) -> ((n < 2)%nat -> tier 3 q k3) ->
  exists c0 c1 c2 c3, bat_loop fuel q n [k0; k1; k2; k3] = Some [c0; c1; c2; c3] /\ top 255 c0 /\ top 255 c1 /\ top 255 c2 /\ top 255 c3 /\
    bval c0 == bval k0 [mod q] /\ bval c1 == bval k1 [mod q] /\ bval c2 == bval k2 [mod q] /\ bval c3 == bval k3 [mod q].
Proof.
  intros Hn Q0 Q1. induction m as [|m IH]; intros fuel t k0 k1 k2 k3 Ht Hf T0 T1 T2 T3 N1 N2 N3.
  - assert (t = 3%nat) by lia. subst t. destruct T0 as [_ T0], T1 as [_ T1], T2 as [_ T2], T3 as [_ T3]. cbv iota in T0, T1, T2, T3. assert (U : bat_unfinished [k0; k1; k2; k3] = false).
    { unfold bat_unfinished. cbn [forallb]. rewrite (proj2 (top255_small k0 T0)), (proj2 (top255_small k1 T1)), (proj2 (top255_small k2 T2)), (proj2 (top255_small k3 T3)), (top_bottom _ _ T0), (top_bottom _ _ T1), (top_bottom _ _ T2), (top_bottom _ _ T3). reflexivity. }
    exists k0, k1, k2, k3. split; [destruct fuel; cbn [bat_loop]; rewrite U; reflexivity |]. repeat (split; [assumption |]). repeat split; reflexivity.
  - destruct fuel as [|fuel]; [lia |]. cbn [bat_loop]. destruct (bat_unfinished [k0; k1; k2; k3]) eqn:U.
    + destruct (step_spec q k1 t Q0 Q1 ltac:(lia) T1) as (d1 & R1 & M1 & S1 & C1 & I1). destruct (step_spec q k2 t Q0 Q1 ltac:(lia) T2) as (d2 & R2 & M2 & S2 & C2 & I2). destruct (step_spec q k3 t Q0 Q1 ltac:(lia) T3) as (d3 & R3 & M3 & S3 & C3 & I3).
      rewrite (bat_rechunk_cols k0 k1 k2 k3 d1 d2 d3 R1 R2 R3). destruct (tier_mid q k0 T0) as [M0 Z0].
      rewrite (reproject_cols q n k0 d1 d2 d3 Hn Q0 Q1 M0 M1 M2 M3 Z0); [| intros H; apply (I1 (N1 H)) | intros H; apply (I2 (N2 H)) | intros H; apply (I3 (N3 H))]. rewrite (proj_skip q 0 k0 Z0).
      destruct (IH fuel (S t) k0 (proj q 0 d1) (proj q 0 d2) (proj q 0 d3)) as (c0 & c1 & c2 & c3 & E & P0 & P1 & P2 & P3 & V0 & V1 & V2 & V3); [lia | lia | exact T0 | exact S1 | exact S2 | exact S3 | | | |].
      * intros H. destruct (I1 (N1 H)) as (_ & _ & ->). exact (N1 H).
      * intros H. destruct (I2 (N2 H)) as (_ & _ & ->). exact (N2 H).
      * intros H. destruct (I3 (N3 H)) as (_ & _ & ->). exact (N3 H).
      * exists c0, c1, c2, c3. split; [exact E |]. do 4 (split; [assumption |]). split; [exact V0 |]. split; [rewrite V1; exact C1 |]. split; [rewrite V2; exact C2 | rewrite V3; exact C3].
    + unfold bat_unfinished in U. apply orb_false_iff in U. destruct U as [U _]. apply negb_false_iff in U. cbn [forallb] in U. rewrite !andb_true_iff in U. destruct U as (F0 & F1 & F2 & F3 & _).
      exists k0, k1, k2, k3. split; [reflexivity |]. split; [exact (top_bytes _ (tier_top _ _ _ T0) F0) |]. split; [exact (top_bytes _ (tier_top _ _ _ T1) F1) |]. split; [exact (top_bytes _ (tier_top _ _ _ T2) F2) |]. split; [exact (top_bytes _ (tier_top _ _ _ T3) F3) |]. repeat split; reflexivity.
Qed.

(** the projection of the lower block *)
Lemma top_value B col : top B col -> B <= 1020 -> bval col < 2 ^ 34.
Proof. intros (t0 & t1 & t2 & t3 & -> & H0 & H1 & H2 & H3) HB. cbn [bval]. change (2 ^ 34) with 17179869184. lia. Qed.
Lemma tier0 q col B : B <= 1020 -> top B col -> tier 0 q col.
Proof. intros HB T. split; [apply (top_mono B); assumption |]. apply (top_value B); assumption. Qed.
Definition padd (q y : Z) (i : nat) (col : list Z) : list Z := add_prefix (chunk_decomposition (Z.shiftl y (Z.of_nat ((4 + i) * 8)) mod q) 8) col.
Lemma padd_spec q y i B col : 0 < q -> q <= 2 ^ 32 -> 0 <= B <= 1020 -> top B col -> top (B + 255) (padd q y i col) /\ bval (padd q y i col) == bval col + y * 2 ^ Z.of_nat ((4 + i) * 8) [mod q].
Proof.
  intros Q0 Q1 HB T. unfold padd. rewrite Z.shiftl_mul_pow2 by lia. destruct (top_add B col q ((y * 2 ^ Z.of_nat ((4 + i) * 8)) mod q) T) as [A E]; [apply Z.mod_pos_bound; exact Q0 | exact Q1 | lia | lia |].
  split; [exact A |]. rewrite E. rewrite eqm_mod. reflexivity.
Qed.
Lemma smul_columns x q : 0 <= x < 2 ^ 32 -> 0 < q -> q <= 2 ^ 32 ->
  exists c0 c1 c2 c3, smul_as_dense_gemv_bat x q = Some [c0; c1; c2; c3] /\ Forall (fun c => length c = 4%nat /\ byte_list c) [c0; c1; c2; c3] /\
    bval c0 == x [mod q] /\ bval c1 == x * 256 [mod q] /\ bval c2 == x * 256 ^ 2 [mod q] /\ bval c3 == x * 256 ^ 3 [mod q].
Proof.
  intros Hx Q0 Q1. unfold smul_as_dense_gemv_bat. destruct (chunks_below_q x (2 ^ 32) Hx (Z.le_refl _)) as (BX & VX & LX). set (xs := chunk_decomposition x 8) in *. clearbody xs.
  assert (G : forall k0 k1 k2 k3, tier 3 q k0 -> tier 0 q k1 -> tier 0 q k2 -> tier 0 q k3 -> ((length xs < 4)%nat -> tier 3 q k1) -> ((length xs < 3)%nat -> tier 3 q k2) -> ((length xs < 2)%nat -> tier 3 q k3) ->
     bval k0 == x [mod q] -> bval k1 == x * 256 [mod q] -> bval k2 == x * 256 ^ 2 [mod q] -> bval k3 == x * 256 ^ 3 [mod q] -> bat_project q xs (bat_initial xs) = [k0; k1; k2; k3] ->
     exists c0 c1 c2 c3, match bat_loop 64 q (length xs) (bat_project q xs (bat_initial xs)) with None => None | Some cols => Some (map (fun col => map (fun v => v mod 256) (firstn 4 col)) cols) end = Some [c0; c1; c2; c3] /\
       Forall (fun c => length c = 4%nat /\ byte_list c) [c0; c1; c2; c3] /\ bval c0 == x [mod q] /\ bval c1 == x * 256 [mod q] /\ bval c2 == x * 256 ^ 2 [mod q] /\ bval c3 == x * 256 ^ 3 [mod q]).
  { intros k0 k1 k2 k3 T0 T1 T2 T3 N1 N2 N3 W0 W1 W2 W3 ->. destruct (bat_loop_spec q (length xs) LX Q0 Q1 3 64 0 k0 k1 k2 k3 ltac:(lia) ltac:(lia) T0 T1 T2 T3 N1 N2 N3) as (c0 & c1 & c2 & c3 & -> & P0 & P1 & P2 & P3 & V0 & V1 & V2 & V3).
    assert (X : forall c, top 255 c -> (length (map (fun v => v mod 256) (firstn 4 c)) = 4%nat /\ byte_list (map (fun v => v mod 256) (firstn 4 c))) /\ bval (map (fun v => v mod 256) (firstn 4 c)) = bval c).
    { intros c (t0 & t1 & t2 & t3 & -> & H0 & H1 & H2 & H3). cbn [firstn map length]. rewrite !Z.mod_small by lia. split; [split; [reflexivity |]; repeat constructor; lia |]. cbn [bval]. lia. }
    cbn [map]. do 4 eexists. split; [reflexivity |]. split; [repeat constructor; apply X; assumption |]. rewrite (proj2 (X c0 P0)), (proj2 (X c1 P1)), (proj2 (X c2 P2)), (proj2 (X c3 P3)). rewrite V0, V1, V2, V3. tauto. }
  destruct xs as [|x0 [|x1 [|x2 [|x3 [|x4 xs]]]]]; [| | | | | cbn in LX; lia]; repeat match goal with H : byte_list (_ :: _) |- _ => inversion H; clear H; subst | H : Forall _ (_ :: _) |- _ => inversion H; clear H; subst end; cbn [bval] in *.
  - assert (Z : tier 3 q [0; 0; 0; 0; 0; 0; 0]) by (apply tier3; exists 0, 0, 0, 0; split; [reflexivity | lia]). assert (Z0 : tier 0 q [0; 0; 0; 0; 0; 0; 0]) by (apply (tier0 q _ 255); [lia |]; exists 0, 0, 0, 0; split; [reflexivity | lia]).
    apply (G [0; 0; 0; 0; 0; 0; 0] [0; 0; 0; 0; 0; 0; 0] [0; 0; 0; 0; 0; 0; 0] [0; 0; 0; 0; 0; 0; 0]); try exact Z; try exact Z0; try (intros _; exact Z); try reflexivity; rewrite <- VX; reflexivity.
  - assert (T : forall t0 t1 t2 t3, 0 <= t0 < 256 -> 0 <= t1 < 256 -> 0 <= t2 < 256 -> 0 <= t3 < 256 -> tier 3 q [t0; t1; t2; t3; 0; 0; 0] /\ tier 0 q [t0; t1; t2; t3; 0; 0; 0]).
    { intros. assert (tier 3 q [t0; t1; t2; t3; 0; 0; 0]) by (apply tier3; exists t0, t1, t2, t3; split; [reflexivity | lia]). split; [assumption |]. apply tier_up; try assumption. lia. }
    apply (G [x0; 0; 0; 0; 0; 0; 0] [0; x0; 0; 0; 0; 0; 0] [0; 0; x0; 0; 0; 0; 0] [0; 0; 0; x0; 0; 0; 0]); try (apply T; lia); try (intros HL; exfalso; clear - HL; cbn in HL; lia); try (intros _; apply T; lia); try reflexivity; (apply eqm_eq; cbn [bval]; lia).
  - assert (T : forall t0 t1 t2 t3, 0 <= t0 < 256 -> 0 <= t1 < 256 -> 0 <= t2 < 256 -> 0 <= t3 < 256 -> tier 3 q [t0; t1; t2; t3; 0; 0; 0] /\ tier 0 q [t0; t1; t2; t3; 0; 0; 0]).
    { intros. assert (tier 3 q [t0; t1; t2; t3; 0; 0; 0]) by (apply tier3; exists t0, t1, t2, t3; split; [reflexivity | lia]). split; [assumption |]. apply tier_up; try assumption. lia. }
    destruct (padd_spec q x1 0 255 [0; 0; 0; x0; 0; 0; 0] Q0 Q1) as [A1 E1]; [lia | exists 0, 0, 0, x0; split; [reflexivity | lia] |].
    apply (G [x0; x1; 0; 0; 0; 0; 0] [0; x0; x1; 0; 0; 0; 0] [0; 0; x0; x1; 0; 0; 0] (padd q x1 0 [0; 0; 0; x0; 0; 0; 0])); try (apply T; lia); try (intros HL; exfalso; clear - HL; cbn in HL; lia); try (intros _; apply T; lia); try reflexivity; try (apply eqm_eq; cbn [bval]; lia).
    + apply (tier0 q _ 510); [lia | exact A1].
    + rewrite E1. apply eqm_eq. cbn [bval Nat.add Nat.mul]. change (2 ^ Z.of_nat 32) with 4294967296. lia.
  - assert (T : forall t0 t1 t2 t3, 0 <= t0 < 256 -> 0 <= t1 < 256 -> 0 <= t2 < 256 -> 0 <= t3 < 256 -> tier 3 q [t0; t1; t2; t3; 0; 0; 0] /\ tier 0 q [t0; t1; t2; t3; 0; 0; 0]).
    { intros. assert (tier 3 q [t0; t1; t2; t3; 0; 0; 0]) by (apply tier3; exists t0, t1, t2, t3; split; [reflexivity | lia]). split; [assumption |]. apply tier_up; try assumption. lia. }
    destruct (padd_spec q x2 0 255 [0; 0; x0; x1; 0; 0; 0] Q0 Q1) as [A2 E2]; [lia | exists 0, 0, x0, x1; split; [reflexivity | lia] |].
    destruct (padd_spec q x1 0 255 [0; 0; 0; x0; 0; 0; 0] Q0 Q1) as [A1 E1]; [lia | exists 0, 0, 0, x0; split; [reflexivity | lia] |].
    destruct (padd_spec q x2 1 510 _ Q0 Q1 ltac:(lia) A1) as [A3 E3].
    apply (G [x0; x1; x2; 0; 0; 0; 0] [0; x0; x1; x2; 0; 0; 0] (padd q x2 0 [0; 0; x0; x1; 0; 0; 0]) (padd q x2 1 (padd q x1 0 [0; 0; 0; x0; 0; 0; 0]))); try (apply T; lia); try (intros HL; exfalso; clear - HL; cbn in HL; lia); try (intros _; apply T; lia); try reflexivity; try (apply eqm_eq; cbn [bval]; lia).
    + apply (tier0 q _ 510); [lia | exact A2].
    + apply (tier0 q _ 765); [lia | exact A3].
    + rewrite E2. apply eqm_eq. cbn [bval Nat.add Nat.mul]. change (2 ^ Z.of_nat 32) with 4294967296. lia.
    + rewrite E3, E1. apply eqm_eq. cbn [bval Nat.add Nat.mul]. change (2 ^ Z.of_nat 32) with 4294967296. change (2 ^ Z.of_nat 40) with (256 * 4294967296). lia.
  - assert (T : forall t0 t1 t2 t3, 0 <= t0 < 256 -> 0 <= t1 < 256 -> 0 <= t2 < 256 -> 0 <= t3 < 256 -> tier 3 q [t0; t1; t2; t3; 0; 0; 0] /\ tier 0 q [t0; t1; t2; t3; 0; 0; 0]).
    { intros. assert (tier 3 q [t0; t1; t2; t3; 0; 0; 0]) by (apply tier3; exists t0, t1, t2, t3; split; [reflexivity | lia]). split; [assumption |]. apply tier_up; try assumption. lia. }
    destruct (padd_spec q x3 0 255 [0; x0; x1; x2; 0; 0; 0] Q0 Q1) as [A0 E0]; [lia | exists 0, x0, x1, x2; split; [reflexivity | lia] |].
    destruct (padd_spec q x2 0 255 [0; 0; x0; x1; 0; 0; 0] Q0 Q1) as [A1 E1]; [lia | exists 0, 0, x0, x1; split; [reflexivity | lia] |].
    destruct (padd_spec q x3 1 510 _ Q0 Q1 ltac:(lia) A1) as [A2 E2].
    destruct (padd_spec q x1 0 255 [0; 0; 0; x0; 0; 0; 0] Q0 Q1) as [A3 E3]; [lia | exists 0, 0, 0, x0; split; [reflexivity | lia] |].
    destruct (padd_spec q x2 1 510 _ Q0 Q1 ltac:(lia) A3) as [A4 E4]. destruct (padd_spec q x3 2 765 _ Q0 Q1 ltac:(lia) A4) as [A5 E5].
    apply (G [x0; x1; x2; x3; 0; 0; 0] (padd q x3 0 [0; x0; x1; x2; 0; 0; 0]) (padd q x3 1 (padd q x2 0 [0; 0; x0; x1; 0; 0; 0])) (padd q x3 2 (padd q x2 1 (padd q x1 0 [0; 0; 0; x0; 0; 0; 0])))); try (apply T; lia); try (intros HL; exfalso; clear - HL; cbn in HL; lia); try (intros _; apply T; lia); try reflexivity; try (apply eqm_eq; cbn [bval]; lia).
    + apply (tier0 q _ 510); [lia | exact A0].
    + apply (tier0 q _ 765); [lia | exact A2].
    + apply (tier0 q _ 1020); [lia | exact A5].
    + rewrite E0. apply eqm_eq. cbn [bval Nat.add Nat.mul]. change (2 ^ Z.of_nat 32) with 4294967296. lia.
    + rewrite E2, E1. apply eqm_eq. cbn [bval Nat.add Nat.mul]. change (2 ^ Z.of_nat 32) with 4294967296. change (2 ^ Z.of_nat 40) with (256 * 4294967296). lia.
    + rewrite E5, E4, E3. apply eqm_eq. cbn [bval Nat.add Nat.mul]. change (2 ^ Z.of_nat 32) with 4294967296. change (2 ^ Z.of_nat 40) with (256 * 4294967296). change (2 ^ Z.of_nat 48) with (65536 * 4294967296). lia.
Qed.
