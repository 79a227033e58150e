(** The canonical embedding of Z[X]/(X^n + 1) is additive, multiplicative and bounded; automorphisms permute the slots. *)
From Coq Require Import Reals ZArith List Bool Lia Lra.
From Verif Require Import Base.Lists Base.Word Base.ZSum Base.Modeq Base.Nega Base.Cplx Ckks.Spec_fft Ckks.Spec_slots Ckks.Spec_poly Ckks.Proof_fft Ckks.Proof_auto.
Import ListNotations.
Local Open Scope R_scope.

(** sums *)
Lemma csum_mul_r n c f : csum n (fun i => cmul (f i) c) = cmul (csum n f) c.
Proof. induction n as [|n IH]; cbn [csum]; [ring |]. rewrite IH. ring. Qed.
Lemma csum_zero n : csum n (fun _ => c0) = c0.
Proof. induction n as [|n IH]; cbn [csum]; [reflexivity |]. rewrite IH. ring. Qed.
Lemma csum_swap n m f : csum n (fun i => csum m (fun j => f i j)) = csum m (fun j => csum n (fun i => f i j)).
Proof. induction n as [|n IH]; cbn [csum]; [symmetry; apply csum_zero |]. rewrite IH, csum_add. reflexivity. Qed.
Lemma csum_single n k f : (k < n)%nat -> (forall i, (i < n)%nat -> i <> k -> f i = c0) -> csum n f = f k.
Proof.
  intros Hk H. replace n with (k + (1 + (n - S k)))%nat by lia. rewrite csum_split, (csum_ext k f (fun _ => c0)), csum_zero by (intros i Hi; apply H; lia). rewrite csum_split.
  rewrite (csum_ext (n - S k) _ (fun _ => c0)), csum_zero by (intros i Hi; apply H; lia). cbn [csum]. rewrite Nat.add_0_r. ring.
Qed.
Lemma cscale_0 x : cscale 0 x = c0.
Proof. apply cplx_eq; cbn; ring. Qed.
Lemma cscale_plus r s x : cscale (r + s) x = cadd (cscale r x) (cscale s x).
Proof. apply cplx_eq; cbn; ring. Qed.
Lemma cscale_opp r x : cscale (- r) x = copp (cscale r x).
Proof. apply cplx_eq; cbn; ring. Qed.
Lemma cscale_zsum n f x : cscale (IZR (zsum n f)) x = csum n (fun i => cscale (IZR (f i)) x).
Proof. induction n as [|n IH]; cbn [zsum csum]; [apply cscale_0 |]. rewrite plus_IZR, cscale_plus, IH. reflexivity. Qed.

(** the value of the polynomial with coefficients a at e^(2 pi i u / 2n) *)
Definition zval (n u : nat) (a : nat -> Z) : cplx := csum n (fun i => cscale (IZR (a i)) (zeta (2 * n) (u * i))).
Lemma int_slot_zval p j : int_slot p j = zval (length p) (5 ^ j) (co p).
Proof. unfold int_slot, real_slot, zval. rewrite map_length. apply csum_ext. intros i Hi. rewrite (nth_map_lt _ _ _ _ 0%Z) by exact Hi. reflexivity. Qed.
Lemma zval_ext n u a b : (forall i, (i < n)%nat -> a i = b i) -> zval n u a = zval n u b.
Proof. intros H. apply csum_ext. intros i Hi. rewrite H by exact Hi. reflexivity. Qed.
Lemma odd_half n u : (0 < n)%nat -> Nat.Odd u -> zeta (2 * n) (u * n) = copp c1.
Proof. intros Hn (k & ->). rewrite (Nat.mul_comm (2 * k + 1) n). apply zeta_half_odd. exact Hn. Qed.

Lemma zval_nega n u a b : (0 < n)%nat -> Nat.Odd u -> zval n u (nega_coeff n a b) = cmul (zval n u a) (zval n u b).
Proof.
  intros Hn Hu. pose proof (odd_half n u Hn Hu) as HX. set (z := fun i => zeta (2 * n) (u * i)).
  assert (ZA : forall i j, z (i + j)%nat = cmul (z i) (z j)) by (intros; unfold z; rewrite Nat.mul_add_distr_l; apply zeta_add).
  unfold zval. fold z. rewrite <- csum_mul_r.
  transitivity (csum n (fun k => csum n (fun i => cscale (IZR (if (i <=? k)%nat then a i * b (k - i)%nat else - (a i * b (k + n - i)%nat))) (z k)))).
  { apply csum_ext. intros k Hk. fold (z k). unfold nega_coeff. rewrite cscale_zsum. apply csum_ext. intros i Hi. reflexivity. }
  rewrite csum_swap. apply csum_ext. intros i Hi. fold (z i). rewrite <- csum_mul.
  rewrite (csum_ext n (fun j => cmul (cscale (IZR (a i)) (z i)) (cscale (IZR (b j)) (zeta (2 * n) (u * j)))) (fun j => cscale (IZR (a i * b j)) (z (i + j)%nat))).
  2: { intros j Hj. fold (z j). rewrite ZA, mult_IZR. apply cplx_eq; cbn; ring. }
  set (F := fun k => cscale (IZR (if (i <=? k)%nat then a i * b (k - i)%nat else - (a i * b (k + n - i)%nat))) (z k)). set (G := fun j => cscale (IZR (a i * b j)) (z (i + j)%nat)).
  transitivity (csum (i + (n - i)) F); [f_equal; lia |]. transitivity (csum ((n - i) + i) G); [| f_equal; lia]. rewrite !csum_split. unfold F, G. clear F G.
  assert (E1 : csum i (fun k => cscale (IZR (if (i <=? k)%nat then a i * b (k - i)%nat else - (a i * b (k + n - i)%nat))) (z k)) = csum i (fun j => cscale (IZR (a i * b (n - i + j)%nat)) (z (i + (n - i + j))%nat))).
  { apply csum_ext. intros k Hk. destruct (Nat.leb_spec i k); [lia |]. replace (i + (n - i + k))%nat with (n + k)%nat by lia. rewrite ZA. unfold z at 2. rewrite HX. replace (k + n - i)%nat with (n - i + k)%nat by lia. rewrite opp_IZR. apply cplx_eq; cbn; ring. }
  assert (E2 : csum (n - i) (fun i0 => cscale (IZR (if (i <=? i + i0)%nat then a i * b (i + i0 - i)%nat else - (a i * b (i + i0 + n - i)%nat))) (z (i + i0)%nat)) = csum (n - i) (fun j => cscale (IZR (a i * b j)) (z (i + j)%nat))).
  { apply csum_ext. intros k Hk. destruct (Nat.leb_spec i (i + k)); [| lia]. replace (i + k - i)%nat with k by lia. reflexivity. }
  rewrite E1, E2. ring.
Qed.
Lemma zval_add n u a b : zval n u (fun i => (a i + b i)%Z) = cadd (zval n u a) (zval n u b).
Proof. unfold zval. rewrite <- csum_add. apply csum_ext. intros i Hi. rewrite plus_IZR. apply cscale_plus. Qed.
Lemma zval_opp n u a : zval n u (fun i => (- a i)%Z) = copp (zval n u a).
Proof. transitivity (cmul (copp c1) (zval n u a)); [| ring]. unfold zval. rewrite <- csum_mul. apply csum_ext. intros i Hi. rewrite opp_IZR. apply cplx_eq; cbn; ring. Qed.
Lemma zval_scale n u c a : zval n u (fun i => (c * a i)%Z) = cscale (IZR c) (zval n u a).
Proof. transitivity (cmul (IZR c, 0) (zval n u a)); [| apply cplx_eq; cbn; ring]. unfold zval. rewrite <- csum_mul. apply csum_ext. intros i Hi. rewrite mult_IZR. apply cplx_eq; cbn; ring. Qed.
Lemma five_Odd j : Nat.Odd (5 ^ j).
Proof. destruct (five_odd j) as (k & E). exists k. exact E. Qed.

Lemma int_slot_add a b j : length a = length b -> int_slot (poly_add a b) j = cadd (int_slot a j) (int_slot b j).
Proof.
  intros H. rewrite !int_slot_zval. rewrite <- H. unfold poly_add at 1. rewrite map_length, seq_length. rewrite <- zval_add. apply zval_ext. intros i Hi. unfold poly_add, co at 1. rewrite nth_map_seq by exact Hi. reflexivity.
Qed.
Lemma int_slot_sub a b j : length a = length b -> int_slot (poly_sub a b) j = csub (int_slot a j) (int_slot b j).
Proof.
  intros H. rewrite !int_slot_zval. rewrite <- H. unfold poly_sub at 1. rewrite map_length, seq_length. replace (csub (zval (length a) (5 ^ j) (co a)) (zval (length a) (5 ^ j) (co b))) with (cadd (zval (length a) (5 ^ j) (co a)) (copp (zval (length a) (5 ^ j) (co b)))) by ring.
  rewrite <- zval_opp, <- zval_add. apply zval_ext. intros i Hi. unfold poly_sub, co at 1. rewrite nth_map_seq by exact Hi. lia.
Qed.
Lemma int_slot_neg a j : int_slot (poly_neg a) j = copp (int_slot a j).
Proof. rewrite !int_slot_zval. unfold poly_neg at 1. rewrite map_length, <- zval_opp. apply zval_ext. intros i Hi. unfold poly_neg, co. rewrite (nth_map_lt _ _ _ _ 0%Z) by exact Hi. reflexivity. Qed.
Lemma int_slot_scale c a j : int_slot (poly_scale c a) j = cscale (IZR c) (int_slot a j).
Proof. rewrite !int_slot_zval. unfold poly_scale at 1. rewrite map_length, <- zval_scale. apply zval_ext. intros i Hi. unfold poly_scale, co. rewrite (nth_map_lt _ _ _ _ 0%Z) by exact Hi. reflexivity. Qed.
Lemma int_slot_mul a b j : (0 < length a)%nat -> length a = length b -> int_slot (poly_mul a b) j = cmul (int_slot a j) (int_slot b j).
Proof.
  intros H0 H. rewrite !int_slot_zval. rewrite <- H. unfold poly_mul at 1. rewrite map_length, seq_length. rewrite <- (zval_nega _ _ _ _ H0 (five_Odd j)). apply zval_ext. intros i Hi. unfold poly_mul, co at 1. rewrite nth_map_seq by exact Hi. reflexivity.
Qed.

(** automorphisms *)
Lemma zval_auto n u g g' a : (0 < n)%nat -> Nat.Odd u -> length a = n -> (Z.of_nat g' == g [mod 2 * Z.of_nat n])%Z -> zval n u (co (poly_auto g a)) = zval n (u * g') (co a).
Proof.
  intros Hn Hu La Hg. pose proof (odd_half n u Hn Hu) as HX. set (z := fun i => zeta (2 * n) (u * i)).
  assert (ZA : forall i j, z (i + j)%nat = cmul (z i) (z j)) by (intros; unfold z; rewrite Nat.mul_add_distr_l; apply zeta_add).
  unfold zval.
  transitivity (csum n (fun k => csum n (fun i => cscale (IZR (if ((Z.of_nat i * g) mod (2 * Z.of_nat n) =? Z.of_nat k)%Z then co a i else if ((Z.of_nat i * g) mod (2 * Z.of_nat n) =? Z.of_nat (k + n))%Z then (- co a i)%Z else 0%Z)) (z k)))).
  { apply csum_ext. intros k Hk. rewrite co_auto by lia. rewrite La, cscale_zsum. reflexivity. }
  rewrite csum_swap. apply csum_ext. intros i Hi.
  assert (R : ((Z.of_nat i * g) mod (2 * Z.of_nat n))%Z = Z.of_nat ((g' * i) mod (2 * n))).
  { rewrite Nat2Z.inj_mod. replace (Z.of_nat (2 * n)) with (2 * Z.of_nat n)%Z by lia. apply eqm_mod_iff; [lia |]. rewrite Nat2Z.inj_mul, <- Hg. apply eqm_eq. ring. }
  rewrite R. set (r := ((g' * i) mod (2 * n))%nat). assert (Hr : (r < 2 * n)%nat) by (apply Nat.mod_upper_bound; lia).
  assert (P : zeta (2 * n) (u * g' * i) = z r).
  { unfold z, r. rewrite <- (zeta_mod (2 * n) (u * g' * i)), <- (zeta_mod (2 * n) (u * _)) by lia. f_equal. rewrite Nat.mul_mod_idemp_r by lia. f_equal. ring. }
  rewrite P. destruct (Nat.lt_ge_cases r n) as [C | C].
  - rewrite (csum_single n r); [| exact C |].
    + rewrite Z.eqb_refl. reflexivity.
    + intros k Hk NE. destruct (Z.eqb_spec (Z.of_nat r) (Z.of_nat k)); [lia |]. destruct (Z.eqb_spec (Z.of_nat r) (Z.of_nat (k + n))); [lia |]. apply cscale_0.
  - rewrite (csum_single n (r - n)); [| lia |].
    + destruct (Z.eqb_spec (Z.of_nat r) (Z.of_nat (r - n))); [lia |]. destruct (Z.eqb_spec (Z.of_nat r) (Z.of_nat (r - n + n))); [| lia].
      transitivity (cscale (IZR (co a i)) (z (n + (r - n))%nat)); [| f_equal; f_equal; lia]. rewrite ZA. unfold z at 2. rewrite HX, opp_IZR. apply cplx_eq; cbn; ring.
    + intros k Hk NE. destruct (Z.eqb_spec (Z.of_nat r) (Z.of_nat k)); [lia |]. destruct (Z.eqb_spec (Z.of_nat r) (Z.of_nat (k + n))); [lia |]. apply cscale_0.
Qed.
Lemma int_slot_rotate a r j : (0 < length a)%nat -> int_slot (poly_auto (5 ^ Z.of_nat r) a) j = int_slot a (j + r).
Proof.
  intros H. rewrite !int_slot_zval, poly_auto_length. rewrite (zval_auto _ _ _ (5 ^ r) a H (five_Odd j) eq_refl), Nat.pow_add_r; [reflexivity |]. apply eqm_eq. rewrite Nat2Z.inj_pow. reflexivity.
Qed.
Lemma int_slot_period L a j : length a = (2 * 2 ^ L)%nat -> int_slot a (j mod 2 ^ L) = int_slot a j.
Proof.
  intros H. pose proof (pow2_pos L). rewrite (Nat.div_mod j (2 ^ L)) at 2 by lia. set (r := (j mod 2 ^ L)%nat). generalize (j / 2 ^ L)%nat. intros k. rewrite !int_slot_zval, H.
  induction k as [|k IH]; [rewrite Nat.mul_0_r; reflexivity |]. rewrite IH. apply csum_ext. intros i Hi. f_equal. replace (2 * (2 * 2 ^ L))%nat with (4 * 2 ^ L)%nat by ring. replace (2 ^ L * S k + r)%nat with (2 ^ L + (2 ^ L * k + r))%nat by ring. symmetry. apply zeta_turn_even.
Qed.
Lemma cconj_zeta m k : (0 < m)%nat -> cconj (zeta m k) = zeta m (k * (m - 1)).
Proof.
  intros H. assert (E : cmul (zeta m (k * (m - 1))) (zeta m k) = c1). { rewrite <- zeta_add. replace (k * (m - 1) + k)%nat with (0 + m * k)%nat by nia. rewrite zeta_period by exact H. apply zeta_0. }
  assert (C : cmul (zeta m k) (cconj (zeta m k)) = c1). { unfold zeta, cis, cconj. set (t := 2 * PI * INR k / INR m). pose proof (sin2_cos2 t) as S. unfold Rsqr in S. apply cplx_eq; cbn; lra. }
  transitivity (cmul c1 (cconj (zeta m k))); [ring |]. rewrite <- E. transitivity (cmul (zeta m (k * (m - 1))) (cmul (zeta m k) (cconj (zeta m k)))); [ring |]. rewrite C. ring.
Qed.
Lemma cconj_add x y : cconj (cadd x y) = cadd (cconj x) (cconj y).
Proof. apply cplx_eq; cbn; ring. Qed.
Lemma cconj_sub x y : cconj (csub x y) = csub (cconj x) (cconj y).
Proof. apply cplx_eq; cbn; ring. Qed.
Lemma cnorm_conj x : cnorm (cconj x) = cnorm x.
Proof. unfold cnorm, cconj. cbn. f_equal. ring. Qed.
Lemma cconj_sum n f : cconj (csum n f) = csum n (fun i => cconj (f i)).
Proof. induction n as [|n IH]; cbn [csum]; [apply cplx_eq; cbn; ring |]. rewrite cconj_add, IH. reflexivity. Qed.
Lemma int_slot_conj a j : (0 < length a)%nat -> int_slot (poly_auto (-1) a) j = cconj (int_slot a j).
Proof.
  intros H. rewrite !int_slot_zval, poly_auto_length. rewrite (zval_auto _ _ _ (2 * length a - 1) a H (five_Odd j) eq_refl).
  - unfold zval. rewrite cconj_sum. apply csum_ext. intros i Hi. transitivity (cscale (IZR (co a i)) (cconj (zeta (2 * length a) (5 ^ j * i)))); [| apply cplx_eq; cbn; ring]. rewrite cconj_zeta by lia. do 2 f_equal. ring.
  - exists 1%Z. lia.
Qed.

(** sizes *)
Lemma cnorm_opp x : cnorm (copp x) = cnorm x.
Proof. unfold cnorm. cbn. f_equal. ring. Qed.
Lemma cnorm_rscale r x : cnorm (cscale r x) = Rabs r * cnorm x.
Proof.
  destruct (Rle_dec 0 r) as [H | H]; [rewrite Rabs_right by lra; apply cnorm_scale; exact H |]. rewrite Rabs_left by lra. rewrite <- cnorm_scale by lra. rewrite cscale_opp, cnorm_opp. reflexivity.
Qed.
Lemma int_slot_bound B p j : poly_bound B p -> cnorm (int_slot p j) <= INR (length p) * IZR B.
Proof.
  intros H. rewrite int_slot_zval. unfold zval. eapply Rle_trans; [apply cnorm_sum |]. rewrite <- rsum_const. apply rsum_le. intros i Hi. rewrite cnorm_rscale, cnorm_zeta, Rmult_1_r, <- abs_IZR. apply IZR_le.
  unfold poly_bound in H. rewrite Forall_forall in H. apply H. apply nth_In. exact Hi.
Qed.
Lemma cdist_triangle x y z : cdist x z <= cdist x y + cdist y z.
Proof. unfold cdist. eapply Rle_trans; [| apply cnorm_add]. right. f_equal. ring. Qed.
Lemma cdist_sym x y : cdist x y = cdist y x.
Proof. unfold cdist. rewrite <- cnorm_opp. f_equal. ring. Qed.
Lemma cdist_add x y x' y' : cdist (cadd x y) (cadd x' y') <= cdist x x' + cdist y y'.
Proof. unfold cdist. eapply Rle_trans; [| apply cnorm_add]. right. f_equal. ring. Qed.
Lemma cdist_scale r x y : cdist (cscale r x) (cscale r y) = Rabs r * cdist x y.
Proof. unfold cdist. rewrite <- cscale_sub. apply cnorm_rscale. Qed.
Lemma cdist_conj x y : cdist (cconj x) (cconj y) = cdist x y.
Proof. unfold cdist. rewrite <- cconj_sub. apply cnorm_conj. Qed.
(** an approximate product *)
Lemma cdist_mul x y x' y' a b : cdist x x' <= a -> cdist y y' <= b -> cdist (cmul x y) (cmul x' y') <= cnorm x' * b + a * cnorm y' + a * b.
Proof.
  unfold cdist. intros H1 H2. replace (csub (cmul x y) (cmul x' y')) with (cadd (cadd (cmul x' (csub y y')) (cmul (csub x x') y')) (cmul (csub x x') (csub y y'))) by ring.
  eapply Rle_trans; [apply cnorm_add |]. eapply Rle_trans; [apply Rplus_le_compat_r, cnorm_add |]. rewrite !cnorm_mul. pose proof (cnorm_pos x'). pose proof (cnorm_pos y'). pose proof (cnorm_pos (csub x x')). pose proof (cnorm_pos (csub y y')). nra.
Qed.
