(** Chunked addition, subtraction, comparison. *)
From Coq Require Import ZArith List Bool Lia.
From Verif Require Import Base.ZSum Base.Word Base.Bits Base.Lists.
From Verif Require Import Ckks.Model_rns_utils Ckks.Prop_crt Ec.Model_util Ec.Model_field Ec.Spec_chunks Ec.Proof_chunks Ec.Proof_carry.
Import ListNotations.
Local Open Scope Z_scope.

Lemma map_u16_id l : Forall (fun d => 0 <= d < 2 ^ 16) l -> map u16 l = l.
Proof. induction 1 as [|d l Hd _ IH]; [reflexivity |]. cbn [map]. rewrite IH. f_equal. apply Z.mod_small. exact Hd. Qed.

Lemma in_nth_list {A} (l : list A) i d : (i < length l)%nat -> In (nth i l d) l.
Proof. apply nth_In. Qed.

Lemma map2_mod32_row n (f : Z -> Z -> Z) a b : length a = n -> length b = n -> length (map2 (fun x y => f x y mod 2 ^ 32) a b) = n /\ Forall (fun v => 0 <= v < 2 ^ 32) (map2 (fun x y => f x y mod 2 ^ 32) a b).
Proof.
  intros La Lb. split; [rewrite map2_length; lia |]. clear La Lb. revert b. induction a as [|x a IH]; intros [|y b]; cbn [map2]; constructor; [| apply IH]. apply Z.mod_pos_bound. reflexivity.
Qed.
Lemma map2_mod32_add a b : length a = length b -> Forall (fun v => 0 <= v < 2 ^ 31) a -> Forall (fun v => 0 <= v < 2 ^ 31) b -> map2 (fun x y => (x + y) mod 2 ^ 32) a b = map2 Z.add a b.
Proof.
  revert b. induction a as [|x a IH]; intros [|y b] L Fa Fb; try discriminate L; [reflexivity |]. rewrite Forall_cons_iff in Fa, Fb. destruct Fa as [Hx Fa], Fb as [Hy Fb]. cbn [map2]. rewrite IH by (try assumption; cbn in L; lia). f_equal. apply Z.mod_small. lia.
Qed.
Lemma Forall_map2_add a b A B : Forall (fun v => 0 <= v < A) a -> Forall (fun v => 0 <= v < B) b -> Forall (fun v => 0 <= v < A + B) (map2 Z.add a b).
Proof. intros Fa. revert b. induction Fa as [|x a Hx Fa IH]; intros b Fb; [constructor |]. destruct Fb as [|y b Hy Fb]; [constructor |]. cbn [map2]. constructor; [lia | apply IH; exact Fb]. Qed.

Lemma Forall_range (P Q : Z -> Prop) l : (forall v, P v -> Q v) -> Forall P l -> Forall Q l.
Proof. intros H. apply Forall_impl. exact H. Qed.

Lemma chunked_nth n a i : chunked n a -> (i < length a)%nat -> digits 16 n (nth i a []).
Proof. intros [_ F] Hi. rewrite Forall_forall in F. apply F. apply nth_In. exact Hi. Qed.

(** the rows after the loop, cast to uint16 *)
Lemma finish_rows n b c : batch_in 32 n c -> Forall2 (fun x y => fits 16 n x -> same_value 16 n x y) b c -> length (map (map u16) c) = length b /\
  forall i, (i < length b)%nat -> digits 16 n (nth i (map (map u16) c) []) /\ (fits 16 n (nth i b []) -> row (map (map u16) c) i = chunk_value 16 (nth i b [])).
Proof.
  intros HB H. apply (Forall2_nth_iff _ _ _ [] []) in H. destruct H as [L H]. split; [rewrite map_length; exact L |]. intros i Hi.
  assert (Hic : (i < length c)%nat) by lia. pose proof (proj1 (Forall_forall _ _) HB (nth i c []) (nth_In _ _ Hic)) as [Lr Fr].
  unfold row. rewrite (nth_map_lt (map u16) c i [] [] Hic). split.
  - split; [rewrite map_length; exact Lr |]. apply Forall_map. apply Forall_forall. intros v _. apply Z.mod_pos_bound. reflexivity.
  - intros Hf. destruct (H i Hi Hf) as [[_ D] V]. rewrite map_u16_id by exact D. exact V.
Qed.

Lemma add_rows_batch n a b : length a = length b -> Forall (fun r => length r = n) a -> Forall (fun r => length r = n) b -> batch_in 32 n (map2 (map2 (fun x y => (x + y) mod 2 ^ 32)) a b).
Proof.
  revert b. induction a as [|x a IH]; intros [|y b] L Fa Fb; try discriminate L; [constructor |]. inversion Fa; inversion Fb; subst. cbn [map2]. constructor; [| apply IH; try assumption; cbn in L; lia].
  apply (map2_mod32_row (length x) Z.add); congruence.
Qed.
Lemma chunked_lengths n a : chunked n a -> Forall (fun r => length r = n) a.
Proof. intros [_ F]. eapply Forall_impl; [| exact F]. cbn beta. intros r [L _]. exact L. Qed.
Lemma map2_nil_not {A B C} (f : A -> B -> C) a b : a <> [] -> length a = length b -> map2 f a b <> [].
Proof. intros N L. destruct a; [contradiction |]. destruct b; [discriminate L |]. discriminate. Qed.

Lemma add_2u16_rows n a b : (2 <= n)%nat -> chunked n a -> chunked n b -> length a = length b ->
  exists c, add_2u16 a b = Some c /\ length c = length a /\ chunked n c /\ forall i, (i < length a)%nat -> row a i + row b i < 2 ^ (16 * Z.of_nat n) -> row c i = row a i + row b i.
Proof.
  intros Hn Ca Cb L. unfold add_2u16. set (s := map2 (map2 _) a b).
  destruct (carry_loop_rows 32 16 n s) as (c & E & BI & R); try lia. { apply map2_nil_not; [apply Ca | exact L]. } { apply add_rows_batch; [exact L | apply chunked_lengths; exact Ca | apply chunked_lengths; exact Cb]. }
  change U16_MASK with (2 ^ 16 - 1). rewrite E. cbn [bind]. exists (map (map u16) c). split; [reflexivity |].
  destruct (finish_rows n s c BI R) as [Ls H]. assert (Lc : length s = length a) by (unfold s; rewrite map2_length; lia). rewrite Lc in *. split; [exact Ls |]. split.
  - split; [destruct a as [|x a]; [destruct Ca; contradiction |]; intros X; rewrite X in Ls; discriminate Ls |]. apply Forall_forall. intros r Hr. apply (In_nth _ _ []) in Hr. destruct Hr as (i & Hi & <-). apply H. lia.
  - intros i Hi V. destruct (H i Hi) as [_ X]. assert (N : nth i s [] = map2 Z.add (nth i a []) (nth i b [])).
    { unfold s. rewrite (nth_map2 _ _ _ _ [] [] []) by lia. apply map2_mod32_add.
      - rewrite (proj1 (chunked_nth n a i Ca Hi)), (proj1 (chunked_nth n b i Cb ltac:(lia))). reflexivity.
      - eapply Forall_range; [| apply (chunked_nth n a i Ca Hi)]. cbn beta. intros. change (2 ^ 31) with (2 ^ 16 * 2 ^ 15). lia.
      - eapply Forall_range; [| apply (chunked_nth n b i Cb ltac:(lia))]. cbn beta. intros. change (2 ^ 31) with (2 ^ 16 * 2 ^ 15). lia. }
    rewrite N in X. rewrite X.
    + unfold row. apply value_map2_add. rewrite (proj1 (chunked_nth n a i Ca Hi)), (proj1 (chunked_nth n b i Cb ltac:(lia))). reflexivity.
    + split.
      * eapply Forall_range; [| apply Forall_map2_add; [apply (chunked_nth n a i Ca Hi) | apply (chunked_nth n b i Cb ltac:(lia))]]. cbn beta. intros. change (2 ^ (16 + 16)) with (2 ^ 16 * 2 ^ 16). lia.
      * rewrite value_map2_add by (rewrite (proj1 (chunked_nth n a i Ca Hi)), (proj1 (chunked_nth n b i Cb ltac:(lia))); reflexivity). exact V.
Qed.

Lemma map2_add_length (a b : list Z) n : length a = n -> length b = n -> length (map2 Z.add a b) = n.
Proof. intros. rewrite map2_length. lia. Qed.

Lemma add_3u16_rows n a b d : (2 <= n)%nat -> chunked n a -> chunked n b -> chunked n d -> length a = length b -> length a = length d ->
  exists c, add_3u16 a b d = Some c /\ length c = length a /\ chunked n c /\ forall i, (i < length a)%nat -> row a i + row b i + row d i < 2 ^ (16 * Z.of_nat n) -> row c i = row a i + row b i + row d i.
Proof.
  intros Hn Ca Cb Cd L L2. unfold add_3u16. set (s0 := map2 (map2 (fun x y => (x + y) mod 2 ^ 32)) a b). set (s := map2 (map2 _) s0 d).
  assert (B0 : batch_in 32 n s0) by (apply add_rows_batch; [exact L | apply chunked_lengths; exact Ca | apply chunked_lengths; exact Cb]).
  assert (L0 : length s0 = length a) by (unfold s0; rewrite map2_length; lia).
  destruct (carry_loop_rows 32 16 n s) as (c & E & BI & R); try lia. { apply map2_nil_not; [apply map2_nil_not; [apply Ca | exact L] | lia]. } { apply add_rows_batch; [lia | eapply batch_in_length; exact B0 | apply chunked_lengths; exact Cd]. }
  change U16_MASK with (2 ^ 16 - 1). rewrite E. cbn [bind]. exists (map (map u16) c). split; [reflexivity |].
  destruct (finish_rows n s c BI R) as [Ls H]. assert (Lc : length s = length a) by (unfold s; rewrite map2_length; lia). rewrite Lc in *. split; [exact Ls |]. split.
  - split; [destruct a as [|x a]; [destruct Ca; contradiction |]; intros X; rewrite X in Ls; discriminate Ls |]. apply Forall_forall. intros r Hr. apply (In_nth _ _ []) in Hr. destruct Hr as (i & Hi & <-). apply H. lia.
  - intros i Hi V. destruct (H i Hi) as [_ X]. destruct (chunked_nth n a i Ca Hi) as [La Fa]. destruct (chunked_nth n b i Cb ltac:(lia)) as [Lb Fb]. destruct (chunked_nth n d i Cd ltac:(lia)) as [Ld Fd].
    assert (F31 : forall l, Forall (fun v => 0 <= v < 2 ^ 16) l -> Forall (fun v => 0 <= v < 2 ^ 31) l) by (intros l; apply Forall_range; intros; change (2 ^ 31) with (2 ^ 16 * 2 ^ 15); lia).
    assert (N : nth i s [] = map2 Z.add (map2 Z.add (nth i a []) (nth i b [])) (nth i d [])).
    { unfold s. rewrite (nth_map2 _ _ _ _ [] [] []) by lia. unfold s0. rewrite (nth_map2 _ _ _ _ [] [] []) by lia. rewrite (map2_mod32_add (nth i a [])) by (try apply F31; try assumption; lia). apply map2_mod32_add; [rewrite map2_add_length with (n := n) by assumption; lia | | apply F31; exact Fd].
      eapply Forall_range; [| apply Forall_map2_add; [exact Fa | exact Fb]]. cbn beta. intros. change (2 ^ 31) with (2 ^ 16 * 2 ^ 15). lia. }
    rewrite N in X. assert (VE : chunk_value 16 (map2 Z.add (map2 Z.add (nth i a []) (nth i b [])) (nth i d [])) = row a i + row b i + row d i).
    { unfold row. rewrite !value_map2_add; [reflexivity | lia | rewrite map2_add_length with (n := n) by assumption; lia]. }
    rewrite X; [exact VE |]. split; [| lia].
    eapply Forall_range; [| apply Forall_map2_add; [apply Forall_map2_add; [exact Fa | exact Fb] | exact Fd]]. cbn beta. intros. change (2 ^ (16 + 16)) with (2 ^ 16 * 2 ^ 16). lia.
Qed.

(** comparison: the weighted sign sum has the sign of the difference *)
Lemma compare_sign a b : length a = length b -> Forall (fun v => 0 <= v < 2 ^ 16) a -> Forall (fun v => 0 <= v < 2 ^ 16) b ->
  forall k, exists t, dotZ (map2 (fun x y => Z.sgn (x - y)) a b) (map (fun i => 2 ^ Z.of_nat i) (seq k (length a))) = 2 ^ Z.of_nat k * t /\ Z.abs t < 2 ^ Z.of_nat (length a) /\ Z.sgn t = Z.sgn (chunk_value 16 a - chunk_value 16 b).
Proof.
  revert b. induction a as [|x a IH]; intros [|y b] L Fa Fb k; try discriminate L; [exists 0; cbn; repeat split; lia |].
  rewrite Forall_cons_iff in Fa, Fb. destruct Fa as [Hx Fa], Fb as [Hy Fb]. destruct (IH b ltac:(cbn in L; lia) Fa Fb (S k)) as (t & E & B & SG).
  cbn [map2 length seq map chunk_value]. rewrite dotZ_cons, E. exists (Z.sgn (x - y) + 2 * t). rewrite (Nat2Z.inj_succ k), (Nat2Z.inj_succ (length a)), !Z.pow_succ_r by lia. split; [ring |].
  set (A := chunk_value 16 a) in *. set (C := chunk_value 16 b) in *. change (2 ^ 16) with 65536 in *. split; [destruct (Z.sgn_spec (x - y)) as [(? & ->) | [(? & ->) | (? & ->)]]; lia |].
  destruct (Z.sgn_spec (A - C)) as [(H & S1) | [(H & S1) | (H & S1)]]; rewrite S1 in SG.
  - assert (0 < t) by (destruct t; cbn in SG; lia). rewrite !Z.sgn_pos; [reflexivity | lia |]. destruct (Z.sgn_spec (x - y)) as [(? & ->) | [(? & ->) | (? & ->)]]; lia.
  - assert (t = 0) by (destruct t; cbn in SG; lia). subst t. replace (x + 65536 * A - (y + 65536 * C)) with (x - y) by lia. rewrite Z.mul_0_r, Z.add_0_r. destruct (Z.sgn_spec (x - y)) as [(? & ->) | [(? & ->) | (? & ->)]]; reflexivity.
  - assert (t < 0) by (destruct t; cbn in SG; lia). rewrite !Z.sgn_neg; [reflexivity | lia |]. destruct (Z.sgn_spec (x - y)) as [(? & ->) | [(? & ->) | (? & ->)]]; lia.
Qed.
Lemma compare_ok n a b : (n <= 31)%nat -> digits 16 n a -> digits 16 n b -> exists c, compare_u16 a b n = Some c /\ Z.sgn c = Z.sgn (chunk_value 16 a - chunk_value 16 b).
Proof.
  intros Hn [La Fa] [Lb Fb]. unfold compare_u16. rewrite La, Lb, Nat.eqb_refl. replace (n <=? 31)%nat with true by (symmetry; apply Nat.leb_le; exact Hn). cbn [andb negb].
  destruct (compare_sign a b ltac:(lia) Fa Fb 0) as (t & E & _ & S). rewrite La in E. eexists. split; [reflexivity |]. rewrite E. change (2 ^ Z.of_nat 0) with 1. rewrite Z.mul_1_l. exact S.
Qed.

(** subtraction *)
Lemma ends_split (l : list Z) n : length l = n -> (2 <= n)%nat -> exists x m t, l = x :: m ++ [t] /\ length m = (n - 2)%nat.
Proof.
  intros L Hn. destruct l as [|x l]; [cbn in L; lia |]. assert (N : l <> []) by (destruct l; [cbn in L; lia | discriminate]). destruct (exists_last N) as (m & t & ->).
  exists x, m, t. split; [reflexivity |]. cbn [length] in L. rewrite app_length in L. cbn in L. lia.
Qed.
Lemma sub_middle : forall k am bm, length am = k -> length bm = k -> Forall (fun v => 0 <= v < 2 ^ 31) am -> Forall (fun v => 0 <= v < 2 ^ 16) bm ->
  let r := map2 (fun x y => (x - y) mod 2 ^ 32) (map2 (fun x y => (x - y) mod 2 ^ 32) (map2 (fun x y => (x + y) mod 2 ^ 32) am (repeat 65536 k)) bm) (repeat 1 k) in
  length r = k /\ Forall (fun v => 0 <= v < 2 ^ 32) r /\ chunk_value 16 r = chunk_value 16 am - chunk_value 16 bm + 2 ^ (16 * Z.of_nat k) - 1.
Proof.
  induction k as [|k IH]; intros am bm La Lb Fa Fb.
  - destruct am; [| discriminate]. destruct bm; [| discriminate]. cbn. repeat split; constructor.
  - destruct am as [|x am]; [discriminate |]. destruct bm as [|y bm]; [discriminate |]. rewrite Forall_cons_iff in Fa, Fb. destruct Fa as [Hx Fa], Fb as [Hy Fb]. cbn [repeat map2].
    destruct (IH am bm ltac:(cbn in La; lia) ltac:(cbn in Lb; lia) Fa Fb) as (R1 & R2 & R3). cbv zeta. change (2 ^ 32) with 4294967296 in *. change (2 ^ 31) with 2147483648 in *. change (2 ^ 16) with 65536 in *.
    rewrite (Z.mod_small (x + 65536)) by lia. rewrite (Z.mod_small (x + 65536 - y)) by lia. rewrite (Z.mod_small (x + 65536 - y - 1)) by lia. split; [cbn [length]; rewrite R1; reflexivity |]. split; [constructor; [lia | exact R2] |].
    cbn [chunk_value]. rewrite R3. change (2 ^ 16) with 65536. replace (16 * Z.of_nat (S k)) with (16 + 16 * Z.of_nat k) by lia. rewrite Z.pow_add_r by lia. change (2 ^ 16) with 65536. ring.
Qed.

Lemma sub_start_shape n a b : (2 <= n)%nat -> length a = n -> length b = n -> length (sub_start U16_MASK n a b) = n /\ Forall (fun v => 0 <= v < 2 ^ 32) (sub_start U16_MASK n a b).
Proof.
  intros Hn La Lb. unfold sub_start. apply (map2_mod32_row n Z.sub).
  - rewrite !map2_length, app_length, repeat_length. cbn [length]. lia.
  - rewrite !app_length, repeat_length. cbn [length]. lia.
Qed.
Lemma sub_start_value n a b : (2 <= n)%nat -> length a = n -> Forall (fun v => 0 <= v < 2 ^ 31) a -> digits 16 n b -> nth (n - 1) b 0 <= nth (n - 1) a 0 ->
  chunk_value 16 (sub_start U16_MASK n a b) = chunk_value 16 a - chunk_value 16 b + 2 ^ (16 * Z.of_nat (n - 1)).
Proof.
  intros Hn La Fa [Lb Fb] HT. destruct (ends_split a n La Hn) as (x & am & t & -> & Lam). destruct (ends_split b n Lb Hn) as (y & bm & u & -> & Lbm).
  assert (NT : forall z m v, length m = (n - 2)%nat -> nth (n - 1) (z :: m ++ [v]) 0 = v). { intros z m v Lm. replace (n - 1)%nat with (S (length m)) by lia. cbn [nth]. apply nth_middle. }
  rewrite !NT in HT by assumption. rewrite Forall_cons_iff, Forall_app in Fa, Fb. destruct Fa as (Hx & Fam & Ft), Fb as (Hy & Fbm & Fu). pose proof (Forall_inv Ft) as Ht. pose proof (Forall_inv Fu) as Hu. cbn beta in Ht, Hu.
  unfold sub_start. change (U16_MASK + 1) with 65536. replace (n - 1)%nat with (S (n - 2)) by lia. cbn [repeat app map2].
  destruct (sub_middle (n - 2) am bm Lam Lbm Fam Fbm) as (R1 & R2 & R3). cbv zeta in R1, R2, R3.
  rewrite !map2_app by (rewrite ?map2_length, ?repeat_length; lia). cbn [map2].
  change (2 ^ 32) with 4294967296 in *. change (2 ^ 31) with 2147483648 in *. change (2 ^ 16) with 65536 in *.
  rewrite (Z.mod_small (x + 65536)) by lia. rewrite (Z.mod_small (x + 65536 - y)) by lia. rewrite (Z.mod_small (x + 65536 - y - 0)) by lia.
  rewrite (Z.mod_small (t + 0)) by lia. rewrite (Z.mod_small (t + 0 - u)) by lia. rewrite (Z.mod_small (t + 0 - u - 0)) by lia.
  cbn [chunk_value]. rewrite !value_app by lia. cbn [chunk_value]. rewrite R3, R1, Lam, Lbm. change (2 ^ 16) with 65536.
  replace (16 * Z.of_nat (S (n - 2))) with (16 + 16 * Z.of_nat (n - 2)) by lia. rewrite Z.pow_add_r by lia. change (2 ^ 16) with 65536. ring.
Qed.

(** the decrement of the top chunk *)
Lemma top_decrement n c : (1 <= n)%nat -> digits 16 n c -> 2 ^ (16 * Z.of_nat (n - 1)) <= chunk_value 16 c ->
  digits 16 n (map u16 (upd (n - 1) ((nth (n - 1) c 0 - 1) mod 2 ^ 32) c)) /\ chunk_value 16 (map u16 (upd (n - 1) ((nth (n - 1) c 0 - 1) mod 2 ^ 32) c)) = chunk_value 16 c - 2 ^ (16 * Z.of_nat (n - 1)).
Proof.
  intros Hn [L F] V. assert (N : c <> []) by (destruct c; [cbn in L; lia | discriminate]). destruct (exists_last N) as (m & t & ->). rewrite app_length in L. cbn [length] in L.
  assert (En : (n - 1)%nat = length m) by lia. rewrite En in *. rewrite nth_middle. apply Forall_app in F. destruct F as [Fm Ft]. pose proof (Forall_inv Ft) as Ht. cbn beta in Ht.
  rewrite value_app in V by lia. cbn [chunk_value] in V. pose proof (value_bound 16 (length m) m ltac:(lia) (conj eq_refl Fm)) as B. pose proof (pow2_pos (16 * Z.of_nat (length m)) ltac:(lia)) as P.
  assert (T1 : 1 <= t) by (destruct (Z.le_gt_cases 1 t); [assumption | nia]). rewrite (Z.mod_small (t - 1)) by (change (2 ^ 32) with (2 ^ 16 * 2 ^ 16); lia).
  assert (U : forall (m : list Z) t v, upd (length m) v (m ++ [t]) = m ++ [v]) by (clear; induction m as [|x m IH]; intros t v; [reflexivity |]; cbn [length app upd]; rewrite IH; reflexivity).
  rewrite U. rewrite map_u16_id by (apply Forall_app; split; [exact Fm | constructor; [lia | constructor]]). split.
  - split; [rewrite app_length; cbn; lia | apply Forall_app; split; [exact Fm | constructor; [lia | constructor]]].
  - rewrite !value_app by lia. cbn [chunk_value]. ring.
Qed.

(** what a row needs for its difference to be exact *)
Definition sub_fits (n : nat) (a b : list Z) : Prop :=
  Forall (fun v => 0 <= v < 2 ^ 31) a /\ nth (n - 1) b 0 <= nth (n - 1) a 0 /\ 0 <= chunk_value 16 a - chunk_value 16 b < 2 ^ (16 * Z.of_nat n) - 2 ^ (16 * Z.of_nat (n - 1)).

Lemma sub_2u16_rows n a b : (2 <= n)%nat -> a <> [] -> length a = length b -> Forall (fun r => length r = n) a -> Forall (digits 16 n) b ->
  exists c, sub_2u16 a b U16_MASK n = Some c /\ length c = length a /\ chunked n c /\
    forall i, (i < length a)%nat -> sub_fits n (nth i a []) (nth i b []) -> row c i = row a i - row b i.
Proof.
  intros Hn N L Fa Db. assert (Fb : Forall (fun r => length r = n) b) by (eapply Forall_impl; [| exact Db]; cbn beta; intros r [X _]; exact X).
  unfold sub_2u16. rewrite (hd_length n a N Fa), (hd_length n b); [| destruct b; [destruct a; [contradiction | discriminate L] | discriminate] | exact Fb]. rewrite Nat.eqb_refl. cbn [andb negb].
  set (s := map2 (sub_start U16_MASK n) a b). assert (Ls : length s = length a) by (unfold s; rewrite map2_length; lia).
  assert (BI : batch_in 32 n s).
  { unfold s. clear - L Fa Fb Hn. revert b L Fb. induction Fa as [|x a Hx Fa IH]; intros [|y b] L Fb; try discriminate L; [constructor |]. inversion Fb; subst. cbn [map2]. constructor; [apply sub_start_shape; congruence || assumption | apply IH; [cbn in L; lia | assumption]]. }
  destruct (carry_loop_rows 32 16 n s) as (c & E & BC & R); try lia; [apply map2_nil_not; assumption | exact BI |].
  change U16_MASK with (2 ^ 16 - 1) at 1. rewrite E. cbn [bind]. eexists. split; [reflexivity |].
  apply (Forall2_nth_iff _ _ _ [] []) in R. destruct R as [Lc R]. rewrite map_length. split; [lia |].
  set (fin := fun row0 : list Z => map u16 (upd (n - 1) ((nth (n - 1) row0 0 - 1) mod 2 ^ 32) row0)).
  assert (DF : forall r, In r c -> digits 16 n (fin r)).
  { intros r Hr. pose proof (proj1 (Forall_forall _ _) BC r Hr) as [Lr Fr]. unfold fin. split; [rewrite map_length, upd_length; exact Lr |]. apply Forall_map. apply Forall_forall. intros v _. apply Z.mod_pos_bound. reflexivity. }
  split. { split; [destruct c; [destruct a; [contradiction | cbn in *; lia] | discriminate] |]. apply Forall_map. apply Forall_forall. exact DF. }
  intros i Hi (S1 & S2 & S3). assert (Hs : nth i s [] = sub_start U16_MASK n (nth i a []) (nth i b [])) by (unfold s; apply nth_map2; lia).
  assert (Lai : length (nth i a []) = n) by (rewrite Forall_forall in Fa; apply Fa; apply nth_In; lia). assert (Dbi : digits 16 n (nth i b [])) by (rewrite Forall_forall in Db; apply Db; apply nth_In; lia).
  pose proof (sub_start_value n _ _ Hn Lai S1 Dbi S2) as V. rewrite <- Hs in V. pose proof (pow2_pos (16 * Z.of_nat (n - 1)) ltac:(lia)) as P.
  destruct (R i ltac:(lia)) as [D VC].
  { split; [| lia]. change (16 + 16) with 32. assert (His : (i < length s)%nat) by lia. pose proof (proj1 (Forall_forall _ _) BI (nth i s []) (nth_In _ _ His)) as [_ X]. exact X. }
  unfold row. rewrite (nth_map_lt fin c i [] [] ltac:(lia)). unfold fin. assert (GE : 2 ^ (16 * Z.of_nat (n - 1)) <= chunk_value 16 (nth i c [])) by lia. rewrite (proj2 (top_decrement n (nth i c []) ltac:(lia) D GE)). lia.
Qed.

Lemma digits_top n a b : (1 <= n)%nat -> digits 16 n a -> digits 16 n b -> chunk_value 16 b <= chunk_value 16 a -> nth (n - 1) b 0 <= nth (n - 1) a 0.
Proof.
  intros Hn [La Fa] [Lb Fb] V. assert (Na : a <> []) by (destruct a; [cbn in La; lia | discriminate]). assert (Nb : b <> []) by (destruct b; [cbn in Lb; lia | discriminate]).
  destruct (exists_last Na) as (x & t & ->). destruct (exists_last Nb) as (y & u & ->). rewrite app_length in La, Lb. cbn [length] in La, Lb.
  replace (nth (n - 1) (y ++ [u]) 0) with u by (replace (n - 1)%nat with (length y) by lia; rewrite nth_middle; reflexivity). replace (nth (n - 1) (x ++ [t]) 0) with t by (replace (n - 1)%nat with (length x) by lia; rewrite nth_middle; reflexivity).
  apply Forall_app in Fa, Fb. destruct Fa as [Fx _], Fb as [Fy _]. rewrite !value_app in V by lia. cbn [chunk_value] in V. rewrite !Z.mul_0_r, !Z.add_0_r in V.
  pose proof (value_bound 16 (length x) x ltac:(lia) (conj eq_refl Fx)). pose proof (value_bound 16 (length y) y ltac:(lia) (conj eq_refl Fy)). replace (length y) with (length x) in * by lia. nia.
Qed.

Lemma digits_31 n l : digits 16 n l -> Forall (fun v => 0 <= v < 2 ^ 31) l.
Proof. intros [_ F]. eapply Forall_range; [| exact F]. cbn beta. intros. change (2 ^ 31) with (2 ^ 16 * 2 ^ 15). lia. Qed.

Lemma compare_all n a b : (n <= 31)%nat -> length a = length b -> Forall (digits 16 n) a -> Forall (digits 16 n) b ->
  exists cs, sequence_opt (map2 (fun x y => compare_u16 x y n) a b) = Some cs /\ length cs = length a /\ forall i, (i < length a)%nat -> Z.sgn (nth i cs 0) = Z.sgn (row a i - row b i).
Proof.
  intros Hn. revert b. induction a as [|x a IH]; intros [|y b] L Fa Fb; try discriminate L; [exists []; repeat split; cbn; intros; lia |].
  rewrite Forall_cons_iff in Fa, Fb. destruct Fa as [Hx Fa], Fb as [Hy Fb]. destruct (IH b ltac:(cbn in L; lia) Fa Fb) as (cs & E & Lc & H). destruct (compare_ok n x y Hn Hx Hy) as (c & Ec & Sc).
  exists (c :: cs). cbn [map2 sequence_opt]. rewrite Ec, E. split; [reflexivity |]. split; [cbn; congruence |]. intros [|i] Hi; [exact Sc | apply H; cbn in Hi; lia].
Qed.

Lemma broadcast_length a r : length (broadcast a r) = length a. Proof. apply map_length. Qed.
Lemma broadcast_nth a r i : (i < length a)%nat -> nth i (broadcast a r) [] = r.
Proof. intros Hi. unfold broadcast. rewrite (nth_map_lt (fun _ => r) a i [] [] Hi). reflexivity. Qed.
Lemma broadcast_digits n a r : digits 16 n r -> Forall (digits 16 n) (broadcast a r).
Proof. intros D. unfold broadcast. apply Forall_map. apply Forall_forall. intros ? _. exact D. Qed.
Lemma map_map2_broadcast {C} (f : list Z -> list Z -> C) a r : map (fun x => f x r) a = map2 f a (broadcast a r).
Proof. induction a as [|x a IH]; [reflexivity |]. cbn. f_equal. exact IH. Qed.

Lemma cond_sub_mod_rows n m a : (2 <= n <= 31)%nat -> chunked n a -> digits 16 n m ->
  exists c, cond_sub_mod_u16 a m n = Some c /\ length c = length a /\ chunked n c /\ forall i, (i < length a)%nat ->
    (row a i < chunk_value 16 m -> row c i = row a i) /\
    (chunk_value 16 m <= row a i -> row a i - chunk_value 16 m < 2 ^ (16 * Z.of_nat n) - 2 ^ (16 * Z.of_nat (n - 1)) -> row c i = row a i - chunk_value 16 m).
Proof.
  intros Hn [Na Fa] Dm. unfold cond_sub_mod_u16. rewrite (map_map2_broadcast (fun r m => compare_u16 r m n)).
  destruct (compare_all n a (broadcast a m)) as (cs & E & Lc & H); [lia | symmetry; apply broadcast_length | exact Fa | apply broadcast_digits; exact Dm |]. rewrite E. cbn [bind].
  destruct (sub_2u16_rows n a (broadcast a m)) as (b & Eb & Lb & Cb & Hb); [lia | exact Na | symmetry; apply broadcast_length | apply chunked_lengths; split; assumption | apply broadcast_digits; exact Dm |]. rewrite Eb. cbn [bind].
  eexists. split; [reflexivity |]. assert (LL : length (map2 (fun c (rows : list Z * list Z) => if 0 <=? c then snd rows else fst rows) cs (combine a b)) = length a) by (rewrite map2_length, combine_length; lia).
  assert (NN : forall i, (i < length a)%nat -> nth i (map2 (fun c (rows : list Z * list Z) => if 0 <=? c then snd rows else fst rows) cs (combine a b)) [] = if 0 <=? nth i cs 0 then nth i b [] else nth i a []).
  { intros i Hi. rewrite (nth_map2 _ _ _ _ 0 ([], []) []) by (rewrite ?combine_length; lia). rewrite combine_nth by lia. reflexivity. }
  split; [exact LL |]. split.
  - split; [destruct a; [contradiction |]; intros X; rewrite X in LL; discriminate LL |]. apply Forall_forall. intros r Hr. apply (In_nth _ _ []) in Hr. destruct Hr as (i & Hi & <-). rewrite LL in Hi. rewrite NN by exact Hi.
    destruct (0 <=? nth i cs 0); [apply chunked_nth; [exact Cb | lia] | apply chunked_nth; [split; assumption | exact Hi]].
  - intros i Hi. specialize (H i Hi). unfold row at 2 in H. rewrite broadcast_nth in H by exact Hi. split.
    + intros V. unfold row. rewrite NN by exact Hi. rewrite (Z.sgn_neg (row a i - _)) in H by (unfold row; unfold row in V; lia). destruct (Z.leb_spec 0 (nth i cs 0)); [| reflexivity]. destruct (nth i cs 0); cbn in H; lia.
    + intros V1 V2. unfold row at 1. rewrite NN by exact Hi. destruct (Z.leb_spec 0 (nth i cs 0)) as [C | C].
      * specialize (Hb i Hi). unfold row at 3 in Hb. rewrite broadcast_nth in Hb by exact Hi. apply Hb. assert (Da : digits 16 n (nth i a [])) by (apply chunked_nth; [split; assumption | exact Hi]).
        split; [eapply digits_31; exact Da |]. split; [apply digits_top; [lia | exact Da | exact Dm | exact V1] |]. unfold row in V1, V2. lia.
      * rewrite Z.sgn_neg in H by exact C. destruct (Z.sgn_spec (row a i - chunk_value 16 m)) as [(? & X) | [(? & X) | (? & X)]]; rewrite X in H; lia.
Qed.

Lemma cond_sub_2u16_rows n m a b : (2 <= n <= 31)%nat -> chunked n a -> chunked n b -> length a = length b -> digits 16 n m ->
  exists c, cond_sub_2u16 a b m n = Some c /\ length c = length a /\ chunked n c /\ forall i, (i < length a)%nat ->
    (row b i <= row a i -> row a i - row b i < 2 ^ (16 * Z.of_nat n) - 2 ^ (16 * Z.of_nat (n - 1)) -> row c i = row a i - row b i) /\
    (row a i < row b i -> nth (n - 1) (nth i b []) 0 <= nth (n - 1) m 0 -> 0 <= row a i + chunk_value 16 m - row b i < 2 ^ (16 * Z.of_nat n) - 2 ^ (16 * Z.of_nat (n - 1)) -> row c i = row a i + chunk_value 16 m - row b i).
Proof.
  intros Hn Ca Cb L Dm. unfold cond_sub_2u16. destruct (compare_all n a b) as (cs & E & Lc & H); [lia | exact L | apply Ca | apply Cb |]. rewrite E. cbn [bind].
  set (a' := map2 (fun c r => if 0 <=? c then r else map2 (fun x y => (x + y) mod 2 ^ 32) r m) cs a).
  assert (La' : length a' = length a) by (unfold a'; rewrite map2_length; lia).
  assert (NN : forall i, (i < length a)%nat -> nth i a' [] = if 0 <=? nth i cs 0 then nth i a [] else map2 Z.add (nth i a []) m).
  { intros i Hi. unfold a'. rewrite (nth_map2 _ _ _ _ 0 [] []) by lia. destruct (0 <=? nth i cs 0); [reflexivity |]. apply map2_mod32_add.
    - rewrite (proj1 (chunked_nth n a i Ca Hi)), (proj1 Dm). reflexivity.
    - eapply digits_31. apply (chunked_nth n a i Ca Hi).
    - eapply digits_31. exact Dm. }
  destruct (sub_2u16_rows n a' b) as (c & Ec & L' & Cc & Hc); [lia | | lia | | apply Cb |].
  { destruct a; [destruct Ca; contradiction |]. intros X. rewrite X in La'. discriminate La'. }
  { apply Forall_forall. intros r Hr. apply (In_nth _ _ []) in Hr. destruct Hr as (i & Hi & <-). rewrite La' in Hi. rewrite NN by exact Hi. destruct (0 <=? nth i cs 0); [apply (chunked_nth n a i Ca Hi) | apply map2_add_length; [apply (chunked_nth n a i Ca Hi) | apply Dm]]. }
  exists c. split; [exact Ec |]. split; [lia |]. split; [exact Cc |]. intros i Hi. specialize (Hc i ltac:(lia)). specialize (H i Hi). destruct (chunked_nth n a i Ca Hi) as [La Fa]. pose proof (chunked_nth n b i Cb ltac:(lia)) as Db.
  unfold row at 2 in Hc. rewrite NN in Hc by exact Hi. split.
  - intros V1 V2. destruct (Z.leb_spec 0 (nth i cs 0)) as [C | C].
    + apply Hc. split; [eapply digits_31; split; eassumption |]. split; [apply digits_top; [lia | split; assumption | exact Db | exact V1] |]. unfold row in V1, V2. lia.
    + rewrite Z.sgn_neg in H by exact C. destruct (Z.sgn_spec (row a i - row b i)) as [(? & X) | [(? & X) | (? & X)]]; rewrite X in H; lia.
  - intros V1 VT V2. destruct (Z.leb_spec 0 (nth i cs 0)) as [C | C].
    + rewrite (Z.sgn_neg (row a i - row b i)) in H by lia. destruct (nth i cs 0); cbn in H; lia.
    + assert (VE : chunk_value 16 (map2 Z.add (nth i a []) m) = row a i + chunk_value 16 m) by (apply value_map2_add; rewrite La; symmetry; apply Dm). rewrite VE in Hc. rewrite Hc; [reflexivity |]. split; [| split].
      * eapply Forall_range; [| apply Forall_map2_add; [exact Fa | apply Dm]]. cbn beta. intros. change (2 ^ 31) with (2 ^ 16 * 2 ^ 15). lia.
      * rewrite (nth_map2 _ _ _ _ 0 0 0) by (rewrite ?La, ?(proj1 Dm); lia). assert (0 <= nth (n - 1) (nth i a []) 0) by (rewrite Forall_forall in Fa; apply Fa; apply nth_In; lia). lia.
      * unfold row in V2, VE. unfold row. lia.
Qed.
