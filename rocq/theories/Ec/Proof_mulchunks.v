(** Convolution, chunk merging and bit casts: chunked multiplication. *)
From Coq Require Import ZArith List Bool Lia.
From Verif Require Import Base.ZSum Base.Word Base.Bits Base.Lists.
From Verif Require Import Ckks.Model_rns_utils Ckks.Prop_crt Ec.Model_util Ec.Model_field Ec.Spec_chunks Ec.Proof_chunks Ec.Proof_carry Ec.Proof_arith.
Import ListNotations.
Local Open Scope Z_scope.

Lemma value_zsum base l : 0 <= base -> chunk_value base l = zsum (length l) (fun i => nth i l 0 * 2 ^ (base * Z.of_nat i)).
Proof.
  intros Hb. induction l as [|x l IH]; [reflexivity |]. cbn [chunk_value length]. rewrite zsum_S_l, IH. cbn [nth]. rewrite Z.mul_0_r. change (2 ^ 0) with 1. rewrite Z.mul_1_r. f_equal.
  rewrite <- zsum_mul_l. apply zsum_ext. intros i Hi. rewrite Nat2Z.inj_succ. replace (base * Z.succ (Z.of_nat i)) with (base + base * Z.of_nat i) by ring. rewrite Z.pow_add_r by nia. ring.
Qed.

Lemma even_pairs {A} (l : list A) m : length l = (2 * m)%nat -> length (pairs l) = m.
Proof. revert l. induction m as [|m IH]; intros l L; [destruct l; [reflexivity | discriminate] |]. destruct l as [|x [|y l]]; [discriminate | cbn in L; lia |]. cbn [pairs length]. rewrite IH; [reflexivity | cbn in L; lia]. Qed.

(** merging pairs of chunks *)
Lemma pairs_value base m l : 0 <= base -> length l = (2 * m)%nat -> chunk_value (2 * base) (map (fun p => fst p + 2 ^ base * snd p) (pairs l)) = chunk_value base l.
Proof.
  intros Hb. revert l. induction m as [|m IH]; intros l L; [destruct l; [reflexivity | discriminate] |]. destruct l as [|x [|y l]]; [discriminate | cbn in L; lia |]. cbn [pairs map chunk_value fst snd].
  rewrite IH by (cbn in L; lia). replace (2 * base) with (base + base) by ring. rewrite Z.pow_add_r by lia. ring.
Qed.
Lemma Forall_pairs (P : Z -> Prop) (Q : Z -> Prop) (f : Z * Z -> Z) m l : length l = (2 * m)%nat -> Forall P l -> (forall x y, P x -> P y -> Q (f (x, y))) -> Forall Q (map f (pairs l)).
Proof.
  intros L F H. revert l L F. induction m as [|m IH]; intros l L F; [destruct l; [constructor | discriminate] |]. destruct l as [|x [|y l]]; [discriminate | cbn in L; lia |]. rewrite !Forall_cons_iff in F. destruct F as (Hx & Hy & F). cbn [pairs map]. constructor; [apply H; assumption | apply IH; [cbn in L; lia | exact F]].
Qed.
Lemma map_pairs_ext (P : Z -> Prop) (f g : Z * Z -> Z) m l : length l = (2 * m)%nat -> Forall P l -> (forall x y, P x -> P y -> f (x, y) = g (x, y)) -> map f (pairs l) = map g (pairs l).
Proof.
  intros L F H. revert l L F. induction m as [|m IH]; intros l L F; [destruct l; [constructor | discriminate] |]. destruct l as [|x [|y l]]; [discriminate | cbn in L; lia |]. rewrite !Forall_cons_iff in F. destruct F as (Hx & Hy & F). cbn [pairs map]. rewrite (H x y Hx Hy), (IH l); [reflexivity | cbn in L; lia | exact F].
Qed.

(** splitting chunks *)
Lemma split_value base n l : 0 <= base -> digits (2 * base) n l -> digits base (2 * n) (flat_map (fun x => [x mod 2 ^ base; x / 2 ^ base]) l) /\ chunk_value base (flat_map (fun x => [x mod 2 ^ base; x / 2 ^ base]) l) = chunk_value (2 * base) l.
Proof.
  intros Hb [L F]. pose proof (pow2_pos base Hb) as P. assert (E2 : 2 ^ (2 * base) = 2 ^ base * 2 ^ base) by (replace (2 * base) with (base + base) by ring; apply Z.pow_add_r; lia).
  revert n L. induction F as [|x l Hx F IH]; intros n L; [cbn in L; subst n; cbn; repeat split; constructor |]. destruct n as [|n]; [discriminate |]. destruct (IH n ltac:(cbn in L; lia)) as [[D1 D2] V]. cbn [flat_map app chunk_value].
  pose proof (Z.mod_pos_bound x _ P). assert (0 <= x / 2 ^ base < 2 ^ base) by (split; [apply Z.div_pos; lia | apply Z.div_lt_upper_bound; lia]).
  split; [split; [cbn [length]; lia | constructor; [assumption | constructor; [assumption | exact D2]]] |]. rewrite V, E2. pose proof (Z.div_mod x (2 ^ base) ltac:(lia)). lia.
Qed.
Lemma bytes_ok n l : digits 16 n l -> digits 8 (2 * n) (bytes_of_u16 l) /\ chunk_value 8 (bytes_of_u16 l) = chunk_value 16 l.
Proof. intros D. exact (split_value 8 n l ltac:(lia) D). Qed.
Lemma u16_of_u32_ok n l : digits 32 n l -> digits 16 (2 * n) (u16_of_u32 l) /\ chunk_value 16 (u16_of_u32 l) = chunk_value 32 l.
Proof. intros D. exact (split_value 16 n l ltac:(lia) D). Qed.
Lemma u8_of_u32_ok n l : digits 32 n l -> digits 8 (4 * n) (u8_of_u32 l) /\ chunk_value 8 (u8_of_u32 l) = chunk_value 32 l.
Proof.
  intros D. destruct (u16_of_u32_ok n l D) as [D2 V2]. destruct (bytes_ok (2 * n) _ D2) as [D3 V3]. unfold u8_of_u32. replace (4 * n)%nat with (2 * (2 * n))%nat by lia. split; [exact D3 | congruence].
Qed.
Lemma u16_of_u8_ok m l : digits 8 (2 * m) l -> digits 16 m (u16_of_u8 l) /\ chunk_value 16 (u16_of_u8 l) = chunk_value 8 l.
Proof.
  intros [L F]. unfold u16_of_u8. split.
  - split; [rewrite map_length; apply even_pairs; exact L |]. apply (Forall_pairs (fun d => 0 <= d < 2 ^ 8) _ _ m l L F). intros x y Hx Hy. cbn [fst snd]. change (2 ^ 16) with (256 * 2 ^ 8). change 256 with (2 ^ 8). lia.
  - exact (pairs_value 8 m l ltac:(lia) L).
Qed.

Lemma digits_firstn base n k l : digits base n l -> (k <= n)%nat -> digits base k (firstn k l).
Proof. intros [L F] H. split; [rewrite firstn_length; lia |]. rewrite <- (firstn_skipn k l) in F. apply Forall_app in F. apply F. Qed.
Lemma digits_skipn base n k l : digits base n l -> digits base (n - k) (skipn k l).
Proof. intros [L F]. split; [rewrite skipn_length; lia |]. rewrite <- (firstn_skipn k l) in F. apply Forall_app in F. apply F. Qed.
Lemma value_split base n k l : 0 <= base -> digits base n l -> (k <= n)%nat -> chunk_value base (firstn k l) = chunk_value base l mod 2 ^ (base * Z.of_nat k) /\ chunk_value base (skipn k l) = chunk_value base l / 2 ^ (base * Z.of_nat k).
Proof.
  intros Hb D H. pose proof (value_bound base k _ Hb (digits_firstn base n k l D H)) as B. assert (E : chunk_value base l = chunk_value base (firstn k l) + 2 ^ (base * Z.of_nat k) * chunk_value base (skipn k l)).
  { rewrite <- (firstn_skipn k l) at 1. rewrite value_app by exact Hb. rewrite firstn_length, Nat.min_l by (destruct D; lia). reflexivity. }
  rewrite E. rewrite (Z.add_comm (chunk_value base (firstn k l))), (Z.mul_comm (2 ^ _)). split.
  - rewrite Z.add_comm, Z_mod_plus_full. symmetry. apply Z.mod_small. exact B.
  - rewrite Z.div_add_l by lia. rewrite Z.div_small by exact B. ring.
Qed.

(** the Cauchy product *)
Lemma zsum_cut n m f : (m <= n)%nat -> (forall i, (m <= i < n)%nat -> f i = 0) -> zsum n f = zsum m f.
Proof. intros H Z0. replace n with (m + (n - m))%nat by lia. rewrite zsum_split. rewrite (zsum_zero (n - m)); [ring |]. intros i Hi. apply Z0. lia. Qed.
Lemma cauchy_product (a b : list Z) (X : nat -> Z) : (forall i j, X (i + j)%nat = X i * X j) -> (0 < length b)%nat ->
  zsum (length a + length b - 1) (fun k => zsum (length a) (fun i => if (i <=? k)%nat then nth i a 0 * nth (k - i) b 0 else 0) * X k) =
  zsum (length a) (fun i => nth i a 0 * X i) * zsum (length b) (fun j => nth j b 0 * X j).
Proof.
  intros HX Hb. set (N := (length a + length b - 1)%nat).
  rewrite (zsum_ext N _ (fun k => zsum (length a) (fun i => if (i <=? k)%nat then nth i a 0 * nth (k - i) b 0 * X k else 0))).
  2: { intros k Hk. rewrite <- zsum_mul_r. apply zsum_ext. intros i Hi. destruct (i <=? k)%nat; ring. }
  rewrite zsum_swap. rewrite <- zsum_mul_r. apply zsum_ext. intros i Hi.
  replace N with (i + (N - i))%nat by (unfold N; lia). rewrite zsum_split. rewrite (zsum_zero i); [| intros k Hk; destruct (Nat.leb_spec i k); [lia | reflexivity]]. rewrite Z.add_0_l.
  rewrite (zsum_ext (N - i) _ (fun j => nth i a 0 * X i * (nth j b 0 * X j))). 2: { intros j Hj. destruct (Nat.leb_spec i (i + j)); [| lia]. rewrite HX. replace (i + j - i)%nat with j by lia. ring. }
  rewrite zsum_mul_l. f_equal. apply zsum_cut; [unfold N; lia |]. intros j Hj. rewrite nth_overflow by lia. ring.
Qed.

Lemma convolve_ok na nb a b : digits 8 na a -> digits 8 nb b -> (0 < nb)%nat -> (na <= 128)%nat ->
  length (convolve a b) = (na + nb - 1)%nat /\ Forall (fun v => 0 <= v < 2 ^ 23) (convolve a b) /\ chunk_value 8 (convolve a b) = chunk_value 8 a * chunk_value 8 b.
Proof.
  intros [La Fa] [Lb Fb] Hb Hn.
  assert (B : forall k, 0 <= zsum (length a) (fun i => if (i <=? k)%nat then nth i a 0 * nth (k - i) b 0 else 0) < 2 ^ 23).
  { intros k. assert (E : forall i, (i < length a)%nat -> 0 <= (if (i <=? k)%nat then nth i a 0 * nth (k - i) b 0 else 0) <= 65025).
    { intros i Hi. destruct (i <=? k)%nat; [| lia]. assert (0 <= nth i a 0 < 2 ^ 8) by (rewrite Forall_forall in Fa; apply Fa; apply nth_In; exact Hi).
      assert (0 <= nth (k - i) b 0 < 2 ^ 8). { destruct (Nat.lt_ge_cases (k - i) (length b)); [rewrite Forall_forall in Fb; apply Fb; apply nth_In; assumption | rewrite nth_overflow by assumption; lia]. }
      change (2 ^ 8) with 256 in *. nia. }
    split; [apply zsum_nonneg; intros i Hi; apply E; exact Hi |]. apply Z.le_lt_trans with (zsum (length a) (fun _ => 65025)); [apply zsum_le; intros i Hi; apply E; exact Hi |]. rewrite zsum_const. change (2 ^ 23) with 8388608. lia. }
  unfold convolve. split; [rewrite map_length, seq_length; lia |]. split.
  - apply Forall_map. apply Forall_forall. intros k _. unfold u32. rewrite Z.mod_small; [apply B |]. specialize (B k). change (2 ^ 32) with 4294967296. change (2 ^ 23) with 8388608 in B. lia.
  - rewrite value_zsum by lia. rewrite map_length, seq_length.
    rewrite (zsum_ext _ _ (fun k => zsum (length a) (fun i => if (i <=? k)%nat then nth i a 0 * nth (k - i) b 0 else 0) * 2 ^ (8 * Z.of_nat k))).
    + rewrite (cauchy_product a b (fun k => 2 ^ (8 * Z.of_nat k))); [rewrite !value_zsum by lia; reflexivity | | lia]. intros i j. rewrite Nat2Z.inj_add, Z.mul_add_distr_l, Z.pow_add_r by lia. reflexivity.
    + intros k Hk. rewrite nth_map_seq by exact Hk. f_equal. unfold u32. apply Z.mod_small. specialize (B k). change (2 ^ 32) with 4294967296. change (2 ^ 23) with 8388608 in B. lia.
Qed.

(** merging byte sums into 32-bit positions *)
Lemma rechunkify_ok m row : length row = (4 * m)%nat -> Forall (fun v => 0 <= v < 2 ^ 23) row ->
  exists r, rechunkify row (2 * m) m = Some r /\ length r = m /\ Forall (fun v => 0 <= v < 2 ^ (32 + 16)) r /\ chunk_value 32 r = chunk_value 8 row.
Proof.
  intros L F. unfold rechunkify. rewrite L. replace (4 * m =? 2 * (2 * m))%nat with true by (symmetry; apply Nat.eqb_eq; lia). rewrite Nat.eqb_refl. cbn [andb negb]. cbv zeta.
  assert (L2 : length row = (2 * (2 * m))%nat) by lia.
  assert (E1 : map (fun p => (fst p + u32 (snd p * 2 ^ 8)) mod 2 ^ 64) (pairs row) = map (fun p => fst p + 2 ^ 8 * snd p) (pairs row)).
  { apply (map_pairs_ext (fun v => 0 <= v < 2 ^ 23) _ _ (2 * m) row L2 F). intros x y Hx Hy. cbn [fst snd]. unfold u32. change (2 ^ 32) with 4294967296. change (2 ^ 23) with 8388608 in *. change (2 ^ 8) with 256. change (2 ^ 64) with 18446744073709551616. rewrite (Z.mod_small (y * 256)) by lia. rewrite Z.mod_small by lia. ring. }
  rewrite E1. set (c16 := map (fun p => fst p + 2 ^ 8 * snd p) (pairs row)).
  assert (Lc : length c16 = (2 * m)%nat) by (unfold c16; rewrite map_length; apply even_pairs; exact L2).
  assert (Fc : Forall (fun v => 0 <= v < 2200000000) c16).
  { apply (Forall_pairs (fun v => 0 <= v < 2 ^ 23) _ _ (2 * m) row L2 F). intros x y Hx Hy. cbn [fst snd]. change (2 ^ 23) with 8388608 in *. change (2 ^ 8) with 256. lia. }
  assert (E2 : map (fun p => (fst p + (snd p * 2 ^ 16) mod 2 ^ 64) mod 2 ^ 64) (pairs c16) = map (fun p => fst p + 2 ^ 16 * snd p) (pairs c16)).
  { apply (map_pairs_ext _ _ _ m c16 Lc Fc). intros x y Hx Hy. cbn [fst snd]. change (2 ^ 16) with 65536. change (2 ^ 64) with 18446744073709551616. rewrite (Z.mod_small (y * 65536)) by lia. rewrite Z.mod_small by lia. ring. }
  rewrite E2. eexists. split; [reflexivity |]. split; [rewrite map_length; apply even_pairs; exact Lc |]. split.
  - apply (Forall_pairs _ _ _ m c16 Lc Fc). intros x y Hx Hy. cbn [fst snd]. change (2 ^ 16) with 65536. change (2 ^ (32 + 16)) with 281474976710656. lia.
  - change 32 with (2 * 16). rewrite (pairs_value 16 m c16 ltac:(lia) Lc). unfold c16. change 16 with (2 * 8). apply (pairs_value 8 (2 * m) row ltac:(lia) L2).
Qed.

(** one product, before carrying *)
Lemma conv_row_ok na nb m a b : digits 16 na a -> digits 16 nb b -> (na + nb = 2 * m)%nat -> (0 < nb)%nat -> (na <= 64)%nat ->
  exists r, rechunkify (conv_1d_2u16xn a b ++ [0]) (2 * m) m = Some r /\ length r = m /\ Forall (fun v => 0 <= v < 2 ^ (32 + 16)) r /\ fits 32 m r /\ chunk_value 32 r = chunk_value 16 a * chunk_value 16 b.
Proof.
  intros Da Db E Hb Hn. destruct (bytes_ok na a Da) as [Da8 Va]. destruct (bytes_ok nb b Db) as [Db8 Vb]. unfold conv_1d_2u16xn.
  destruct (convolve_ok (2 * na) (2 * nb) _ _ Da8 Db8 ltac:(lia) ltac:(lia)) as (Lc & Fc & Vc).
  destruct (rechunkify_ok m (convolve (bytes_of_u16 a) (bytes_of_u16 b) ++ [0])) as (r & Er & Lr & Fr & Vr).
  - rewrite app_length, Lc. cbn [length]. lia.
  - apply Forall_app. split; [exact Fc |]. constructor; [lia | constructor].
  - assert (V : chunk_value 32 r = chunk_value 16 a * chunk_value 16 b). { rewrite Vr, value_app by lia. cbn [chunk_value]. rewrite Vc, Va, Vb. ring. }
    exists r. split; [exact Er |]. split; [exact Lr |]. split; [exact Fr |]. split; [| exact V]. split; [exact Fr |]. rewrite V.
    pose proof (value_bound 16 na a ltac:(lia) Da) as B1. pose proof (value_bound 16 nb b ltac:(lia) Db) as B2. replace (32 * Z.of_nat m) with (16 * Z.of_nat na + 16 * Z.of_nat nb) by lia. rewrite Z.pow_add_r by lia. nia.
Qed.

Lemma map_u32_id n l : digits 32 n l -> map u32 l = l.
Proof. intros [_ F]. clear n. induction F as [|d l Hd _ IH]; [reflexivity |]. cbn [map]. rewrite IH. f_equal. apply Z.mod_small. exact Hd. Qed.

Lemma batch_48_64 m r : Forall (fun x => length x = m /\ Forall (fun v => 0 <= v < 2 ^ (32 + 16)) x) r -> batch_in 64 m r.
Proof. intros F. eapply Forall_impl; [| exact F]. cbn beta. intros x [L Fx]. split; [exact L |]. eapply Forall_range; [| exact Fx]. cbn beta. intros v Hv. change (2 ^ 64) with (2 ^ (32 + 16) * 2 ^ 16). lia. Qed.

(** a batch of products, carried: the common part of mul_2u16 and mul_shift *)
Lemma product_rows na nb m a b : Forall (digits 16 na) a -> Forall (digits 16 nb) b -> length a = length b -> a <> [] -> (na + nb = 2 * m)%nat -> (2 <= m)%nat -> (0 < nb)%nat -> (na <= 64)%nat ->
  exists r c, sequence_opt (map2 (fun x y => rechunkify (conv_1d_2u16xn x y ++ [0]) (2 * m) m) a b) = Some r /\ carry_loop 64 U32_MASK 32 r = Some c /\ map (map u32) c = c /\
    length c = length a /\ Forall (digits 32 m) c /\ forall i, (i < length a)%nat -> chunk_value 32 (nth i c []) = row a i * row b i.
Proof.
  intros Da Db L N E Hm Hb Hn.
  assert (S : exists r, sequence_opt (map2 (fun x y => rechunkify (conv_1d_2u16xn x y ++ [0]) (2 * m) m) a b) = Some r /\ length r = length a /\ Forall (fun x => length x = m /\ Forall (fun v => 0 <= v < 2 ^ (32 + 16)) x) r /\ Forall (fits 32 m) r /\
    forall i, (i < length a)%nat -> chunk_value 32 (nth i r []) = row a i * row b i).
  { clear N. revert b L Db. induction Da as [|x a Hx Da IH]; intros [|y b] L Db; try discriminate L; [exists []; repeat split; try constructor; cbn; intros; lia |].
    rewrite Forall_cons_iff in Db. destruct Db as [Hy Db]. destruct (IH b ltac:(cbn in L; lia) Db) as (r & Er & Lr & Fr & Gr & Vr). destruct (conv_row_ok na nb m x y Hx Hy E Hb Hn) as (z & Ez & Lz & Fz & Gz & Vz).
    exists (z :: r). cbn [map2 sequence_opt]. rewrite Ez, Er. split; [reflexivity |]. split; [cbn; congruence |]. split; [constructor; [split; assumption | exact Fr] |]. split; [constructor; assumption |].
    intros [|i] Hi; [exact Vz | apply Vr; cbn in Hi; lia]. }
  destruct S as (r & Er & Lr & Fr & Gr & Vr).
  destruct (carry_loop_rows 64 32 m r) as (c & Ec & _ & R); try lia. { destruct r; [destruct a; [contradiction | discriminate Lr] | discriminate]. } { apply batch_48_64. exact Fr. }
  exists r, c. split; [exact Er |]. split; [exact Ec |]. apply (Forall2_nth_iff _ _ _ [] []) in R. destruct R as [Lc R].
  assert (D : forall i, (i < length a)%nat -> digits 32 m (nth i c []) /\ chunk_value 32 (nth i c []) = row a i * row b i).
  { intros i Hi. assert (Hir : (i < length r)%nat) by lia. destruct (R i Hir) as [D V]; [rewrite Forall_forall in Gr; apply Gr; apply nth_In; exact Hir |]. split; [exact D |]. rewrite V. apply Vr. exact Hi. }
  assert (FD : Forall (digits 32 m) c). { apply Forall_forall. intros x Hx. apply (In_nth _ _ []) in Hx. destruct Hx as (i & Hi & <-). apply D. lia. }
  split. { clear - FD. induction FD as [|x c Hx _ IH]; [reflexivity |]. cbn [map]. rewrite IH, (map_u32_id m x Hx). reflexivity. }
  split; [lia |]. split; [exact FD |]. intros i Hi. apply D. exact Hi.
Qed.

Lemma mul_2u16_rows n a b : (2 <= n <= 64)%nat -> chunked n a -> chunked n b -> length a = length b ->
  exists c, mul_2u16 a b n = Some c /\ length c = length a /\ chunked (2 * n) c /\ forall i, (i < length a)%nat -> row c i = row a i * row b i.
Proof.
  intros Hn Ca Cb L. destruct (product_rows n n n a b (proj2 Ca) (proj2 Cb) L (proj1 Ca)) as (r & c & Er & Ec & Eu & Lc & Dc & Vc); try lia. unfold mul_2u16, mul_u32. rewrite Er. cbn [bind]. rewrite Ec. cbn [bind]. rewrite Eu.
  eexists. split; [reflexivity |]. rewrite map_length. split; [exact Lc |].
  assert (H : forall x, digits 32 n x -> digits 16 (2 * n) (firstn (2 * n) (u16_of_u32 x)) /\ chunk_value 16 (firstn (2 * n) (u16_of_u32 x)) = chunk_value 32 x).
  { intros x Dx. destruct (u16_of_u32_ok n x Dx) as [D V]. rewrite firstn_all2 by (rewrite (proj1 D); lia). split; assumption. }
  split.
  - split; [destruct c; [destruct a; [destruct Ca; contradiction | discriminate Lc] | discriminate] |]. apply Forall_map. eapply Forall_impl; [| exact Dc]. cbn beta. intros x Dx. apply H. exact Dx.
  - intros i Hi. unfold row at 1. assert (Hc : (i < length c)%nat) by lia. rewrite (nth_map_lt _ c i [] [] Hc). rewrite Forall_forall in Dc. rewrite (proj2 (H _ (Dc _ (nth_In _ _ Hc)))). apply Vc. exact Hi.
Qed.

Lemma mul_u8_rows n a b : (2 <= n <= 64)%nat -> chunked n a -> chunked n b -> length a = length b ->
  exists c, mul_2u16_u8 a b n = Some c /\ length c = length a /\ Forall (digits 8 (4 * n)) c /\ forall i, (i < length a)%nat -> chunk_value 8 (nth i c []) = row a i * row b i.
Proof.
  intros Hn Ca Cb L. destruct (product_rows n n n a b (proj2 Ca) (proj2 Cb) L (proj1 Ca)) as (r & c & Er & Ec & Eu & Lc & Dc & Vc); try lia. unfold mul_2u16_u8, mul_u32. rewrite Er. cbn [bind]. rewrite Ec. cbn [bind]. rewrite Eu.
  eexists. split; [reflexivity |]. rewrite map_length. split; [exact Lc |].
  assert (H : forall x, digits 32 n x -> digits 8 (4 * n) (firstn (4 * n) (u8_of_u32 x)) /\ chunk_value 8 (firstn (4 * n) (u8_of_u32 x)) = chunk_value 32 x).
  { intros x Dx. destruct (u8_of_u32_ok n x Dx) as [D V]. rewrite firstn_all2 by (rewrite (proj1 D); lia). split; assumption. }
  split.
  - apply Forall_map. eapply Forall_impl; [| exact Dc]. cbn beta. intros x Dx. apply H. exact Dx.
  - intros i Hi. assert (Hc : (i < length c)%nat) by lia. rewrite (nth_map_lt _ c i [] [] Hc). rewrite Forall_forall in Dc. rewrite (proj2 (H _ (Dc _ (nth_In _ _ Hc)))). apply Vc. exact Hi.
Qed.

(** multiply and shift right by whole bytes; n is half the number of chunks of a *)
Lemma mul_shift_rows n h t a b : (1 <= h)%nat -> n = (2 * h)%nat -> (n <= 32)%nat -> (t <= 12 * h)%nat -> Nat.Even (12 * h - t + 1) -> (t <= 8 * h + 1)%nat -> chunked (2 * n) a -> digits 16 n b ->
  exists c, mul_shift_2u16x2x1 a b t n h = Some c /\ length c = length a /\ chunked n c /\
    forall i, (i < length a)%nat -> row c i = (row a i * chunk_value 16 b / 2 ^ (8 * Z.of_nat t)) mod 2 ^ (16 * Z.of_nat n).
Proof.
  intros Hh -> Hn Ht HE Ht2 Ca Db. unfold mul_shift_2u16x2x1.
  rewrite (map_map2_broadcast (fun x b => rechunkify (conv_1d_2u16xn x b ++ [0]) (2 * h * 3) (h * 3))). replace (2 * h * 3)%nat with (2 * (h * 3))%nat by lia.
  destruct (product_rows (2 * (2 * h)) (2 * h) (h * 3) a (broadcast a b) (proj2 Ca) (broadcast_digits _ a b Db)) as (r & c & Er & Ec & Eu & Lc & Dc & Vc); try lia; [symmetry; apply broadcast_length | apply Ca |].
  rewrite Er. cbn [bind]. rewrite Ec. cbn [bind]. eexists. split; [reflexivity |]. rewrite map_length. split; [exact Lc |].
  assert (EU : forall x, digits 32 (h * 3) x -> map u32 x = x) by (intros x Dx; apply (map_u32_id _ _ Dx)).
  assert (H : forall x, digits 32 (h * 3) x -> let y := firstn (2 * h) (u16_of_u8 (skipn t (u8_of_u32 (map u32 x)) ++ [0])) in
     digits 16 (2 * h) y /\ chunk_value 16 y = (chunk_value 32 x / 2 ^ (8 * Z.of_nat t)) mod 2 ^ (16 * Z.of_nat (2 * h))).
  { intros x Dx. cbv zeta. rewrite (EU x Dx). destruct (u8_of_u32_ok (h * 3) x Dx) as [D V]. pose proof (digits_skipn 8 _ t _ D) as DS. destruct HE as [k HE].
    assert (DA : digits 8 (2 * k) (skipn t (u8_of_u32 x) ++ [0])). { destruct DS as [LS FS]. split; [rewrite app_length, LS; cbn [length]; lia | apply Forall_app; split; [exact FS | constructor; [lia | constructor]]]. }
    destruct (u16_of_u8_ok k _ DA) as [D16 V16]. split; [apply (digits_firstn 16 k); [exact D16 | lia] |].
    rewrite (proj1 (value_split 16 k (2 * h) _ ltac:(lia) D16 ltac:(lia))), V16. rewrite value_app by lia. cbn [chunk_value]. rewrite (proj2 (value_split 8 (4 * (h * 3)) t _ ltac:(lia) D ltac:(lia))), V. f_equal. ring. }
  split.
  - split; [destruct c; [destruct a; [destruct Ca; contradiction | discriminate Lc] | discriminate] |]. apply Forall_map. eapply Forall_impl; [| exact Dc]. cbn beta. intros x Dx. apply H. exact Dx.
  - intros i Hi. assert (Hc : (i < length c)%nat) by lia. unfold row at 1. rewrite (nth_map_lt _ c i [] [] Hc). rewrite Forall_forall in Dc. destruct (H _ (Dc _ (nth_In c [] Hc))) as [_ V]. cbv zeta in V. rewrite V, (Vc i Hi). f_equal. f_equal. f_equal. unfold row. rewrite broadcast_nth by exact Hi. reflexivity.
Qed.
