(** Complex numbers as pairs of reals: ring structure, finite sums, modulus, and the points e^(2 pi i k / m) of the unit circle. *)
From Coq Require Import Reals ZArith Lia Lra.
Local Open Scope R_scope.

Definition cplx : Type := (R * R)%type.
Definition c0 : cplx := (0, 0).
Definition c1 : cplx := (1, 0).
Definition cadd (x y : cplx) : cplx := (fst x + fst y, snd x + snd y).
Definition csub (x y : cplx) : cplx := (fst x - fst y, snd x - snd y).
Definition copp (x : cplx) : cplx := (- fst x, - snd x).
Definition cmul (x y : cplx) : cplx := (fst x * fst y - snd x * snd y, fst x * snd y + snd x * fst y).
(** a real multiple *)
Definition cscale (r : R) (x : cplx) : cplx := (r * fst x, r * snd x).
(** the modulus *)
Definition cnorm (x : cplx) : R := sqrt (fst x * fst x + snd x * snd x).
(** f 0 + ... + f (n-1) *)
Fixpoint csum (n : nat) (f : nat -> cplx) : cplx := match n with O => c0 | S k => cadd (csum k f) (f k) end.
Fixpoint rsum (n : nat) (f : nat -> R) : R := match n with O => 0 | S k => rsum k f + f k end.
(** the point of the unit circle at angle t, and the k-th power of e^(2 pi i / m) *)
Definition cis (t : R) : cplx := (cos t, sin t).
Definition zeta (m k : nat) : cplx := cis (2 * PI * INR k / INR m).

Lemma cplx_eq (x y : cplx) : fst x = fst y -> snd x = snd y -> x = y.
Proof. destruct x, y. cbn. congruence. Qed.
Lemma cplx_ring : ring_theory c0 c1 cadd cmul csub copp (@eq cplx).
Proof. constructor; intros; apply cplx_eq; cbn; ring. Qed.
Add Ring CPLX : cplx_ring.

Lemma cscale_mul r x y : cscale r (cmul x y) = cmul (cscale r x) y.
Proof. apply cplx_eq; cbn; ring. Qed.
Lemma cscale_add r x y : cscale r (cadd x y) = cadd (cscale r x) (cscale r y).
Proof. apply cplx_eq; cbn; ring. Qed.
Lemma cscale_sub r x y : cscale r (csub x y) = csub (cscale r x) (cscale r y).
Proof. apply cplx_eq; cbn; ring. Qed.
Lemma cscale_1 x : cscale 1 x = x.
Proof. apply cplx_eq; cbn; ring. Qed.
Lemma cscale_cscale r s x : cscale r (cscale s x) = cscale (r * s) x.
Proof. apply cplx_eq; cbn; ring. Qed.
Lemma cdouble x : cadd x x = cscale 2 x.
Proof. apply cplx_eq; cbn; ring. Qed.

Lemma csum_ext n f g : (forall i, (i < n)%nat -> f i = g i) -> csum n f = csum n g.
Proof. induction n as [|n IH]; intros H; cbn; [reflexivity |]. rewrite IH by (intros; apply H; lia). rewrite H by lia. reflexivity. Qed.
Lemma csum_add n f g : csum n (fun i => cadd (f i) (g i)) = cadd (csum n f) (csum n g).
Proof. induction n as [|n IH]; cbn [csum]; [ring |]. rewrite IH. ring. Qed.
Lemma csum_sub n f g : csum n (fun i => csub (f i) (g i)) = csub (csum n f) (csum n g).
Proof. induction n as [|n IH]; cbn [csum]; [ring |]. rewrite IH. ring. Qed.
Lemma csum_mul n c f : csum n (fun i => cmul c (f i)) = cmul c (csum n f).
Proof. induction n as [|n IH]; cbn [csum]; [ring |]. rewrite IH. ring. Qed.
Lemma csum_split n m f : csum (n + m) f = cadd (csum n f) (csum m (fun i => f (n + i)%nat)).
Proof. induction m as [|m IH]; [rewrite Nat.add_0_r; cbn [csum]; ring |]. rewrite Nat.add_succ_r. cbn [csum]. rewrite IH. ring. Qed.
Lemma csum_even_odd n f : csum (2 * n) f = cadd (csum n (fun i => f (2 * i)%nat)) (csum n (fun i => f (2 * i + 1)%nat)).
Proof. induction n as [|n IH]; [cbn [csum Nat.mul Nat.add]; ring |]. replace (2 * S n)%nat with (S (S (2 * n))) by lia. cbn [csum]. rewrite IH. replace (S (2 * n)) with (2 * n + 1)%nat by lia. ring. Qed.

Lemma cis_add a b : cis (a + b) = cmul (cis a) (cis b).
Proof. apply cplx_eq; cbn; [rewrite cos_plus; ring | rewrite sin_plus; ring]. Qed.
Lemma cis_0 : cis 0 = c1.
Proof. apply cplx_eq; cbn; [apply cos_0 | apply sin_0]. Qed.
Lemma cis_period t k : cis (t + 2 * INR k * PI) = cis t.
Proof. apply cplx_eq; cbn; [apply cos_period | apply sin_period]. Qed.
Lemma cis_PI : cis PI = copp c1.
Proof. apply cplx_eq; cbn; [apply cos_PI | rewrite sin_PI; ring]. Qed.
Lemma INR_pos m : (0 < m)%nat -> INR m <> 0.
Proof. intros H. apply not_0_INR. lia. Qed.
Lemma zeta_add m a b : zeta m (a + b) = cmul (zeta m a) (zeta m b).
Proof. unfold zeta. rewrite plus_INR. rewrite <- cis_add. f_equal. unfold Rdiv. ring. Qed.
Lemma zeta_0 m : zeta m 0 = c1.
Proof. unfold zeta. cbn [INR]. replace (2 * PI * 0 / INR m) with 0 by (unfold Rdiv; ring). apply cis_0. Qed.
Lemma zeta_period m a b : (0 < m)%nat -> zeta m (a + m * b) = zeta m a.
Proof. intros H. unfold zeta. rewrite plus_INR, mult_INR. rewrite <- (cis_period (2 * PI * INR a / INR m) b). f_equal. field. apply INR_pos. exact H. Qed.
Lemma zeta_full m : (0 < m)%nat -> zeta m m = c1.
Proof. intros H. pose proof (zeta_period m 0 1 H) as E. rewrite Nat.mul_1_r in E. cbn [Nat.add] in E. rewrite E. apply zeta_0. Qed.
Lemma zeta_mod m k : (0 < m)%nat -> zeta m (k mod m) = zeta m k.
Proof. intros H. rewrite (Nat.div_mod k m) at 2 by lia. rewrite Nat.add_comm, zeta_period by exact H. reflexivity. Qed.
Lemma zeta_scale m k s : (0 < m)%nat -> (0 < s)%nat -> zeta (m * s) (k * s) = zeta m k.
Proof. intros H1 H2. unfold zeta. f_equal. rewrite !mult_INR. field. split; apply INR_pos; assumption. Qed.
Lemma zeta_half h : (0 < h)%nat -> zeta (2 * h) h = copp c1.
Proof. intros H. unfold zeta. rewrite mult_INR. cbn [INR]. rewrite <- cis_PI. f_equal. field. apply INR_pos. exact H. Qed.
(** an odd multiple of half a turn *)
Lemma zeta_half_odd h k : (0 < h)%nat -> zeta (2 * h) (h * (2 * k + 1)) = copp c1.
Proof. intros H. replace (h * (2 * k + 1))%nat with (h + 2 * h * k)%nat by lia. rewrite zeta_period by lia. apply zeta_half. exact H. Qed.

(** modulus *)
Lemma norm_sq_pos (x : cplx) : 0 <= fst x * fst x + snd x * snd x.
Proof. nra. Qed.
Lemma cnorm_pos x : 0 <= cnorm x.
Proof. apply sqrt_pos. Qed.
Lemma cnorm_mul x y : cnorm (cmul x y) = cnorm x * cnorm y.
Proof. unfold cnorm. rewrite <- sqrt_mult by apply norm_sq_pos. f_equal. cbn. ring. Qed.
Lemma cnorm_cis t : cnorm (cis t) = 1.
Proof. unfold cnorm, cis. cbn. pose proof (sin2_cos2 t) as H. unfold Rsqr in H. replace (cos t * cos t + sin t * sin t) with 1 by lra. apply sqrt_1. Qed.
Lemma cnorm_zeta m k : cnorm (zeta m k) = 1.
Proof. apply cnorm_cis. Qed.
Lemma cnorm_0 : cnorm c0 = 0.
Proof. unfold cnorm. cbn. replace (0 * 0 + 0 * 0) with 0 by ring. apply sqrt_0. Qed.
Lemma cnorm_add x y : cnorm (cadd x y) <= cnorm x + cnorm y.
Proof.
  pose proof (cnorm_pos x) as Px. pose proof (cnorm_pos y) as Py. pose proof (norm_sq_pos x) as Qx. pose proof (norm_sq_pos y) as Qy.
  apply Rsqr_incr_0_var; [| lra]. unfold Rsqr. unfold cnorm at 1 2. rewrite sqrt_sqrt by apply norm_sq_pos. cbn [cadd fst snd].
  pose proof (sqrt_sqrt _ Qx) as Sx. pose proof (sqrt_sqrt _ Qy) as Sy. fold (cnorm x) in Sx. fold (cnorm y) in Sy.
  assert (C : fst x * fst y + snd x * snd y <= cnorm x * cnorm y).
  { apply Rsqr_incr_0_var; [| nra]. unfold Rsqr. replace (cnorm x * cnorm y * (cnorm x * cnorm y)) with ((cnorm x * cnorm x) * (cnorm y * cnorm y)) by ring. rewrite Sx, Sy.
    pose proof (Rle_0_sqr (fst x * snd y - snd x * fst y)) as Q. unfold Rsqr in Q. nra. }
  nra.
Qed.
Lemma cnorm_sum n f : cnorm (csum n f) <= rsum n (fun i => cnorm (f i)).
Proof. induction n as [|n IH]; cbn [csum rsum]; [rewrite cnorm_0; lra |]. pose proof (cnorm_add (csum n f) (f n)). lra. Qed.
Lemma rsum_le n f g : (forall i, (i < n)%nat -> f i <= g i) -> rsum n f <= rsum n g.
Proof. induction n as [|n IH]; intros H; cbn [rsum]; [lra |]. specialize (IH ltac:(intros; apply H; lia)). specialize (H n ltac:(lia)). lra. Qed.
Lemma rsum_ext n f g : (forall i, (i < n)%nat -> f i = g i) -> rsum n f = rsum n g.
Proof. induction n as [|n IH]; intros H; cbn [rsum]; [reflexivity |]. rewrite IH by (intros; apply H; lia). rewrite H by lia. reflexivity. Qed.
Lemma rsum_const n c : rsum n (fun _ => c) = INR n * c.
Proof. induction n as [|n IH]; [cbn; ring |]. cbn [rsum]. rewrite IH, S_INR. ring. Qed.
Lemma cnorm_fst (x : cplx) : Rabs (fst x) <= cnorm x.
Proof. rewrite <- sqrt_Rsqr_abs. apply sqrt_le_1_alt. unfold Rsqr. nra. Qed.
Lemma cnorm_snd (x : cplx) : Rabs (snd x) <= cnorm x.
Proof. rewrite <- sqrt_Rsqr_abs. apply sqrt_le_1_alt. unfold Rsqr. nra. Qed.
Lemma cnorm_scale r x : 0 <= r -> cnorm (cscale r x) = r * cnorm x.
Proof. intros H. unfold cnorm. cbn [cscale fst snd]. replace (r * fst x * (r * fst x) + r * snd x * (r * snd x)) with ((r * r) * (fst x * fst x + snd x * snd x)) by ring. rewrite sqrt_mult by (try apply norm_sq_pos; nra). rewrite sqrt_square by exact H. reflexivity. Qed.
