(** Stepping through the accelerated point formulas. *)
From Coq Require Import ZArith List Bool Lia.
From Verif Require Import Base.Word Base.Modeq Base.Fp Ec.Spec_chunks Ec.Model_util Ec.Model_field Ec.Proof_chunks Ec.Proof_arith Ec.Prop_arith Ec.Prop_barrett377 Ec.Prop_lazy377 Ec.Model_reffield Ec.Model_curve Ec.Spec_curve Ec.Proof_curve Ec.Prop_xyzz Ec.Model_accel Ec.Spec_accel.
Import ListNotations.
Local Open Scope Z_scope.

Add Ring FR : (Fp_ring p377).
Definition Mx : Z := MODULUS_377_INT * 2 ^ 16.
Lemma p377_val : Zpos p377 = MODULUS_377_INT. Proof. reflexivity. Qed.
Lemma s16_digits : digits 16 25 MODULUS_377_S16_INT_CHUNK.
Proof. split; [reflexivity |]. apply Forall_forall. assert (F : forallb (fun d => (0 <=? d) && (d <? 2 ^ 16)) MODULUS_377_S16_INT_CHUNK = true) by reflexivity. intros d Hd. rewrite forallb_forall in F. specialize (F d Hd). apply andb_true_iff in F. destruct F as [F1 F2]. apply Z.leb_le in F1. apply Z.ltb_lt in F2. lia. Qed.
Lemma s16_value : chunk_value 16 MODULUS_377_S16_INT_CHUNK = Mx. Proof. reflexivity. Qed.
Lemma twist_digits : digits 16 25 TWIST_D_INT_CHUNK.
Proof. split; [reflexivity |]. apply Forall_forall. assert (F : forallb (fun d => (0 <=? d) && (d <? 2 ^ 16)) TWIST_D_INT_CHUNK = true) by reflexivity. intros d Hd. rewrite forallb_forall in F. specialize (F d Hd). apply andb_true_iff in F. destruct F as [F1 F2]. apply Z.leb_le in F1. apply Z.ltb_lt in F2. lia. Qed.
Lemma twist_value : chunk_value 16 TWIST_D_INT_CHUNK = TWIST_D_INT. Proof. reflexivity. Qed.
Lemma Mx_bounds : 3 * 2 ^ 391 < Mx < 2 ^ 393. Proof. split; reflexivity. Qed.
Lemma Mx_zero : @of_Z p377 Mx = of_Z 0. Proof. apply of_Z_eq. exists (2 ^ 16). rewrite p377_val. unfold Mx. ring. Qed.

(** rows below B whose residues are f *)
Definition lane (k n : nat) (B : Z) (f : nat -> F377) (a : batch) : Prop :=
  chunked k a /\ length a = n /\ forall i, (i < n)%nat -> row a i < B /\ of_Z (row a i) = f i.
Lemma lane_within k n B a : within k n B a -> lane k n B (fun i => of_Z (row a i)) a.
Proof. intros (C & L & H). split; [exact C |]. split; [exact L |]. intros i Hi. split; [apply H; exact Hi | reflexivity]. Qed.
Lemma within_lane k n B f a : lane k n B f a -> within k n B a /\ forall i, (i < n)%nat -> of_Z (row a i) = f i.
Proof. intros (C & L & H). split; [split; [exact C |]; split; [exact L |]; intros i Hi; apply H; exact Hi |]. intros i Hi. apply H. exact Hi. Qed.
Lemma lane_mono k n B B' f a : B <= B' -> lane k n B f a -> lane k n B' f a.
Proof. intros HB (C & L & H). split; [exact C |]. split; [exact L |]. intros i Hi. destruct (H i Hi). split; [lia | assumption]. Qed.
Lemma lane_row_nonneg k n B f a i : lane k n B f a -> (i < n)%nat -> 0 <= row a i.
Proof. intros (C & L & H) Hi. pose proof (value_bound 16 k _ ltac:(lia) (chunked_nth k a i C ltac:(lia))) as B1. exact (proj1 B1). Qed.

Section Steps.
Variable k n : nat.
Hypothesis Hk : (2 <= k <= 31)%nat.
Notation cap := (2 ^ (16 * Z.of_nat k)).
Lemma add_step A B f g a b : lane k n A f a -> lane k n B g b -> A + B <= cap + 1 ->
  exists c, add_2u16 a b = Some c /\ lane k n (A + B - 1) (fun i => f_add (f i) (g i)) c.
Proof.
  intros (Ca & La & Ha) (Cb & Lb & Hb) HC. destruct (add_2u16_rows k a b ltac:(lia) Ca Cb ltac:(lia)) as (c & E & Lc & Cc & Hc). exists c. split; [exact E |]. split; [exact Cc |]. split; [lia |]. intros i Hi.
  destruct (Ha i Hi) as [A1 A2], (Hb i Hi) as [B1 B2]. rewrite Hc by lia. split; [lia |]. rewrite <- A2, <- B2. symmetry. apply of_Z_add.
Qed.
Lemma add3_step A B C f g h a b d : lane k n A f a -> lane k n B g b -> lane k n C h d -> A + B + C <= cap + 1 ->
  exists c, add_3u16 a b d = Some c /\ lane k n (A + B + C - 2) (fun i => f_add (f_add (f i) (g i)) (h i)) c.
Proof.
  intros (Ca & La & Ha) (Cb & Lb & Hb) (Cd & Ld & Hd) HC. destruct (add_3u16_rows k a b d ltac:(lia) Ca Cb Cd ltac:(lia) ltac:(lia)) as (c & E & Lc & Cc & Hc). exists c. split; [exact E |]. split; [exact Cc |]. split; [lia |]. intros i Hi.
  destruct (Ha i Hi) as [A1 A2], (Hb i Hi) as [B1 B2], (Hd i Hi) as [D1 D2]. rewrite Hc by lia. split; [lia |]. rewrite <- A2, <- B2, <- D2. rewrite !of_Z_add. reflexivity.
Qed.
Lemma broadcast_lane a : chunked k a -> length a = n -> forall r, digits 16 k r -> lane k n (chunk_value 16 r + 1) (fun _ => of_Z (chunk_value 16 r)) (broadcast a r).
Proof.
  intros [N _] La r Dr. split; [split; [destruct a; [contradiction | discriminate] | apply broadcast_digits; exact Dr] |]. split; [rewrite broadcast_length; exact La |]. intros i Hi. unfold row. rewrite broadcast_nth by lia. split; [lia | reflexivity].
Qed.
Variable m : list Z.
Hypothesis Dm : digits 16 k m.
Let M := chunk_value 16 m.
Hypothesis M0 : @of_Z p377 M = of_Z 0.
Notation low := (2 ^ (16 * Z.of_nat k) - 2 ^ (16 * Z.of_nat (k - 1))).

Lemma csm_step A C f a : lane k n A f a -> M <= C -> A - M <= C -> A - M <= low ->
  exists c, cond_sub_mod_u16 a m k = Some c /\ lane k n C f c.
Proof.
  intros (Ca & La & Ha) H1 H2 H3. destruct (cond_sub_mod_rows k m a ltac:(lia) Ca Dm) as (c & E & Lc & Cc & Hc). fold M in Hc. exists c. split; [exact E |]. split; [exact Cc |]. split; [lia |]. intros i Hi.
  destruct (Ha i Hi) as [A1 A2], (Hc i ltac:(lia)) as [C1 C2]. destruct (Z_lt_le_dec (row a i) M) as [L | L].
  - rewrite C1 by exact L. split; [lia | exact A2].
  - rewrite C2 by lia. split; [lia |]. rewrite <- of_Z_sub, M0, A2. rewrite <- (of_Z_val (f i)), of_Z_sub. f_equal. lia.
Qed.
Lemma csub_step A B C f g a b : lane k n A f a -> lane k n B g b -> B <= M -> A <= low -> M <= low -> A <= C -> M <= C ->
  exists c, cond_sub_2u16 a b m k = Some c /\ lane k n C (fun i => f_sub (f i) (g i)) c.
Proof.
  intros Fa Fb H1 H2 H3 H4 H5. pose proof Fa as (Ca & La & Ha). pose proof Fb as (Cb & Lb & Hb). destruct (cond_sub_2u16_rows k m a b ltac:(lia) Ca Cb ltac:(lia) Dm) as (c & E & Lc & Cc & Hc). fold M in Hc. exists c. split; [exact E |]. split; [exact Cc |]. split; [lia |]. intros i Hi.
  destruct (Ha i Hi) as [A1 A2], (Hb i Hi) as [B1 B2], (Hc i ltac:(lia)) as [C1 C2]. pose proof (lane_row_nonneg _ _ _ _ _ i Fa Hi) as Na. pose proof (lane_row_nonneg _ _ _ _ _ i Fb Hi) as Nb. destruct (Z_lt_le_dec (row a i) (row b i)) as [L | L].
  - assert (T : nth (k - 1) (nth i b []) 0 <= nth (k - 1) m 0). { apply digits_top; [lia | exact Dm | apply chunked_nth; [exact Cb | lia] |]. fold M. change (row b i <= M). lia. }
    rewrite C2 by (try exact T; lia). split; [lia |]. rewrite <- A2, <- B2, of_Z_sub. rewrite <- of_Z_sub, <- of_Z_add, M0, of_Z_add, of_Z_sub. f_equal. lia.
  - rewrite C1 by lia. split; [lia |]. rewrite <- A2, <- B2, of_Z_sub. reflexivity.
Qed.
Lemma sub_step A f a b : lane k n A f b -> A <= M + 1 -> M < low -> length a = n -> chunked k a ->
  exists c, sub_2u16 (broadcast a m) b U16_MASK k = Some c /\ lane k n (M + 1) (fun i => f_sub (of_Z 0) (f i)) c.
Proof.
  intros Fb H1 H2 La Ca. pose proof Fb as (Cb & Lb & Hb). destruct (broadcast_lane a Ca La m Dm) as (Cm & Lm & Hm).
  destruct (sub_2u16_rows k (broadcast a m) b ltac:(lia) (proj1 Cm) ltac:(lia) (chunked_lengths _ _ Cm) (proj2 Cb)) as (c & E & Lc & Cc & Hc). exists c. split; [exact E |]. split; [exact Cc |]. split; [lia |]. intros i Hi.
  destruct (Hb i Hi) as [B1 B2]. pose proof (lane_row_nonneg _ _ _ _ _ i Fb Hi) as Nb.
  assert (RM : row (broadcast a m) i = M) by (unfold row; rewrite broadcast_nth by lia; reflexivity).
  rewrite Hc; [| lia |].
  - rewrite RM. split; [lia |]. rewrite <- of_Z_sub, M0, B2. reflexivity.
  - rewrite broadcast_nth by lia. split; [apply (digits_31 k); exact Dm |]. split; [apply digits_top; [lia | exact Dm | apply chunked_nth; [exact Cb | lia] | change (row b i <= M); lia] |]. change (0 <= M - row b i < low). lia.
Qed.
End Steps.

Lemma lazy_mul_step n A B f g a b : lane 25 n A f a -> lane 25 n B g b -> exists c, mod_mul_lazy_377 a b = Some c /\ lane 25 n (2 ^ 391) (fun i => f_mul (f i) (g i)) c.
Proof.
  intros (Ca & La & Ha) (Cb & Lb & Hb). destruct (C46_mod_mul_lazy_377 a b Ca Cb ltac:(lia)) as (c & E & Lc & Cc & Hc). exists c. split; [exact E |]. split; [exact Cc |]. split; [lia |]. intros i Hi.
  destruct (Ha i Hi) as [A1 A2], (Hb i Hi) as [B1 B2], (Hc i ltac:(lia)) as [C1 C2]. split; [apply C2 |]. rewrite <- A2, <- B2, of_Z_mul. apply of_Z_eq. rewrite p377_val. apply eqm_mod_iff; [reflexivity | exact C1].
Qed.
Lemma barrett_mul_step n f g a b : lane 24 n MODULUS_377_INT f a -> lane 24 n MODULUS_377_INT g b -> exists c, mod_mul_barrett_2u16 a b = Some c /\ lane 24 n MODULUS_377_INT (fun i => f_mul (f i) (g i)) c.
Proof.
  intros (Ca & La & Ha) (Cb & Lb & Hb). destruct (C45_field_elements a b Ca Cb ltac:(lia)) as (c & E & Lc & Cc & Hc).
  { intros i Hi. split; [apply Ha | apply Hb]; lia. }
  exists c. split; [exact E |]. split; [exact Cc |]. split; [lia |]. intros i Hi.
  destruct (Ha i Hi) as [A1 A2], (Hb i Hi) as [B1 B2], (Hc i ltac:(lia)) as [C1 C2]. split; [apply C2 |]. rewrite <- A2, <- B2, of_Z_mul. apply of_Z_eq. rewrite C1, p377_val. apply eqm_mod.
Qed.

(** ** the XYZZ formulas, for either multiplication *)
Section Xyzz.
Variables (mul cs : batch -> batch -> option batch) (csm : batch -> option batch).
Definition padd_xyzz_with (p1 p2 : coords) : option coords :=
  let '(x1, y1, zz1, zzz1) := p1 in let '(x2, y2, zz2, zzz2) := p2 in
  do u1 <- mul x1 zz2; do u2 <- mul x2 zz1; do s1 <- mul y1 zzz2; do s2 <- mul y2 zzz1; do zz1_zz2 <- mul zz1 zz2; do zzz1_zzz2 <- mul zzz1 zzz2;
  do p <- cs u2 u1; do r <- cs s2 s1; do pp <- mul p p; do rr <- mul r r; do ppp <- mul pp p; do q <- mul u1 pp; do zz3 <- mul zz1_zz2 pp;
  do t <- add_3u16 ppp q q; do t <- csm t; do t <- csm t; do x3 <- cs rr t; do q_x3 <- cs q x3; do s1_ppp <- mul s1 ppp; do zzz3 <- mul zzz1_zzz2 ppp;
  do y3 <- mul r q_x3; do y3 <- cs y3 s1_ppp; Some (x3, y3, zz3, zzz3).
Definition pdul_xyzz_with (p1 : coords) : option coords :=
  let '(x1, y1, zz1, zzz1) := p1 in
  do u <- add_2u16 y1 y1; do u <- csm u; do x1x1 <- mul x1 x1; do v <- mul u u; do w <- mul u v; do s <- mul x1 v; do s_2 <- add_2u16 s s; do s_2 <- csm s_2;
  do m <- add_3u16 x1x1 x1x1 x1x1; do m <- csm m; do m <- csm m; do mm <- mul m m; do w_y1 <- mul w y1; do zz3 <- mul v zz1; do zzz3 <- mul w zzz1;
  do x3 <- cs mm s_2; do s_x3 <- cs s x3; do y3 <- mul m s_x3; do y3 <- cs y3 w_y1; Some (x3, y3, zz3, zzz3).
End Xyzz.
Lemma padd_lazy_with p1 p2 : padd_lazy_xyzz p1 p2 = padd_xyzz_with mod_mul_lazy_377 cond_sub_ext cond_sub_mod_ext p1 p2. Proof. reflexivity. Qed.
Lemma padd_barret_with p1 p2 : padd_barret_xyzz p1 p2 = padd_xyzz_with mod_mul_barrett_2u16 cond_sub_b cond_sub_mod_b p1 p2. Proof. reflexivity. Qed.
Lemma pdul_lazy_with p1 : pdul_lazy_xyzz p1 = pdul_xyzz_with mod_mul_lazy_377 cond_sub_ext cond_sub_mod_ext p1. Proof. reflexivity. Qed.
Lemma pdul_barret_with p1 : pdul_barret_xyzz p1 = pdul_xyzz_with mod_mul_barrett_2u16 cond_sub_b cond_sub_mod_b p1. Proof. reflexivity. Qed.

(** the reference point with the field elements c0..c3 as coordinates *)
Definition fpoint (k : kind) (c0 c1 c2 c3 : F377) : pt :=
  Pt false (Some [FE (val c0) MODULUS_377_INT; FE (val c1) MODULUS_377_INT; FE (val c2) MODULUS_377_INT; FE (val c3) MODULUS_377_INT]) k.
Lemma lane_point_f k (x y z t : batch) i (c0 c1 c2 c3 : F377) : of_Z (row x i) = c0 -> of_Z (row y i) = c1 -> of_Z (row z i) = c2 -> of_Z (row t i) = c3 -> lane_point k (x, y, z, t) i = fpoint k c0 c1 c2 c3.
Proof. intros <- <- <- <-. reflexivity. Qed.

Lemma pt4_eq (a b c d a' b' c' d' : F377) k : a = a' -> b = b' -> c = c' -> d = d' ->
  Some (Pt false (Some [FE (val a) (Zpos p377); FE (val b) (Zpos p377); FE (val c) (Zpos p377); FE (val d) (Zpos p377)]) k) = Some (Pt false (Some [FE (val a') (Zpos p377); FE (val b') (Zpos p377); FE (val c') (Zpos p377); FE (val d') (Zpos p377)]) k).
Proof. intros -> -> -> ->. reflexivity. Qed.
Section XyzzSteps.
Variables (k n : nat) (M : Z) (mul cs : batch -> batch -> option batch) (csm : batch -> option batch).
Hypothesis Hmul : forall f g a b, lane k n M f a -> lane k n M g b -> exists c, mul a b = Some c /\ lane k n M (fun i => f_mul (f i) (g i)) c.
Hypothesis Hcs : forall f g a b, lane k n M f a -> lane k n M g b -> exists c, cs a b = Some c /\ lane k n M (fun i => f_sub (f i) (g i)) c.
Hypothesis Hcsm2 : forall f a, lane k n (2 * M) f a -> exists c, csm a = Some c /\ lane k n M f c.
Hypothesis Hcsm3 : forall f a, lane k n (3 * M) f a -> exists c, csm a = Some c /\ lane k n (2 * M) f c.
Hypothesis Hadd2 : forall f g a b, lane k n M f a -> lane k n M g b -> exists c, add_2u16 a b = Some c /\ lane k n (2 * M) (fun i => f_add (f i) (g i)) c.
Hypothesis Hadd3 : forall f g h a b d, lane k n M f a -> lane k n M g b -> lane k n M h d -> exists c, add_3u16 a b d = Some c /\ lane k n (3 * M) (fun i => f_add (f_add (f i) (g i)) (h i)) c.

Ltac fin E c L := rewrite E; cbn [bind]; clear E.
Ltac st := match goal with
  | A : lane k n M _ ?a, B : lane k n M _ ?b |- context [bind (mul ?a ?b) _] => let c := fresh "c" in let E := fresh "E" in let L := fresh "L" in destruct (Hmul _ _ a b A B) as (c & E & L); fin E c L
  | A : lane k n M _ ?a |- context [bind (mul ?a ?a) _] => let c := fresh "c" in let E := fresh "E" in let L := fresh "L" in destruct (Hmul _ _ a a A A) as (c & E & L); fin E c L
  | A : lane k n M _ ?a, B : lane k n M _ ?b |- context [bind (cs ?a ?b) _] => let c := fresh "c" in let E := fresh "E" in let L := fresh "L" in destruct (Hcs _ _ a b A B) as (c & E & L); fin E c L
  | A : lane k n (2 * M) _ ?a |- context [bind (csm ?a) _] => let c := fresh "c" in let E := fresh "E" in let L := fresh "L" in destruct (Hcsm2 _ a A) as (c & E & L); fin E c L
  | A : lane k n (3 * M) _ ?a |- context [bind (csm ?a) _] => let c := fresh "c" in let E := fresh "E" in let L := fresh "L" in destruct (Hcsm3 _ a A) as (c & E & L); fin E c L
  | A : lane k n M _ ?a |- context [bind (add_2u16 ?a ?a) _] => let c := fresh "c" in let E := fresh "E" in let L := fresh "L" in destruct (Hadd2 _ _ a a A A) as (c & E & L); fin E c L
  | A : lane k n M _ ?a, B : lane k n M _ ?b |- context [bind (add_3u16 ?a ?b ?b) _] => let c := fresh "c" in let E := fresh "E" in let L := fresh "L" in destruct (Hadd3 _ _ _ a b b A B B) as (c & E & L); fin E c L
  | A : lane k n M _ ?a |- context [bind (add_3u16 ?a ?a ?a) _] => let c := fresh "c" in let E := fresh "E" in let L := fresh "L" in destruct (Hadd3 _ _ _ a a a A A A) as (c & E & L); fin E c L
  end.
Lemma padd_with_value p1 p2 : packed k n M p1 -> packed k n M p2 -> exists p3, padd_xyzz_with mul cs csm p1 p2 = Some p3 /\ packed k n M p3 /\
  forall s a b, wcs_new (Zpos p377) a b = Some s -> forall i, (i < n)%nat -> xyzz_add_general s (lane_point XYZZ p1 i) (lane_point XYZZ p2 i) = Some (lane_point XYZZ p3 i).
Proof.
  destruct p1 as [[[x1 y1] zz1] zzz1], p2 as [[[x2 y2] zz2] zzz2]. intros (X1 & Y1 & Z1 & T1) (X2 & Y2 & Z2 & T2). apply lane_within in X1, Y1, Z1, T1, X2, Y2, Z2, T2. unfold padd_xyzz_with.
  repeat st. eexists. split; [reflexivity |].
  repeat match goal with H : lane _ _ _ _ _ |- _ => apply within_lane in H; let W := fresh "W" in let V := fresh "V" in destruct H as [W V] end. split; [unfold packed; split; [assumption | split; [assumption | split; assumption]] |].
  intros s a b Hs i Hi. erewrite (lane_point_f XYZZ x1 y1 zz1 zzz1 i), (lane_point_f XYZZ x2 y2 zz2 zzz2 i) by reflexivity. unfold lane_point, residue. repeat match goal with |- context [row ?c i mod MODULUS_377_INT] => change (row c i mod MODULUS_377_INT) with (val (@of_Z p377 (row c i))) end. repeat match goal with V : forall j, _ -> of_Z (row ?c j) = _ |- context [FE (val (of_Z (row ?c i)))] => rewrite (V i Hi); clear V end.
  unfold xyzz_add_general, fpoint. cbn [pt_coords]. rewrite <- p377_val. fsteps. unfold new_xyzz, formal_xyzz. cbn [length Nat.eqb orb negb formal map].
  generalize (@of_Z p377 (row x1 i)), (@of_Z p377 (row y1 i)), (@of_Z p377 (row zz1 i)), (@of_Z p377 (row zzz1 i)), (@of_Z p377 (row x2 i)), (@of_Z p377 (row y2 i)), (@of_Z p377 (row zz2 i)), (@of_Z p377 (row zzz2 i)).
  intros. apply pt4_eq; ring.
Qed.
Lemma pdul_with_value p1 : packed k n M p1 -> exists p3, pdul_xyzz_with mul cs csm p1 = Some p3 /\ packed k n M p3 /\
  forall s b, wcs_new (Zpos p377) 0 b = Some s -> forall i, (i < n)%nat -> xyzz_double_general s (lane_point XYZZ p1 i) = Some (lane_point XYZZ p3 i).
Proof.
  destruct p1 as [[[x1 y1] zz1] zzz1]. intros (X1 & Y1 & Z1 & T1). apply lane_within in X1, Y1, Z1, T1. unfold pdul_xyzz_with.
  repeat st. eexists. split; [reflexivity |].
  repeat match goal with H : lane _ _ _ _ _ |- _ => apply within_lane in H; let W := fresh "W" in let V := fresh "V" in destruct H as [W V] end. split; [unfold packed; split; [assumption | split; [assumption | split; assumption]] |].
  intros s b Hs i Hi. erewrite (lane_point_f XYZZ x1 y1 zz1 zzz1 i) by reflexivity. unfold lane_point, residue. repeat match goal with |- context [row ?c i mod MODULUS_377_INT] => change (row c i mod MODULUS_377_INT) with (val (@of_Z p377 (row c i))) end. repeat match goal with V : forall j, _ -> of_Z (row ?c j) = _ |- context [FE (val (of_Z (row ?c i)))] => rewrite (V i Hi); clear V end.
  rewrite (wcs_shape _ _ _ _ Hs). unfold xyzz_double_general, fpoint. cbn [pt_coords w_a]. rewrite <- p377_val. fsteps. unfold new_xyzz, formal_xyzz. cbn [length Nat.eqb orb negb formal map].
  generalize (@of_Z p377 (row x1 i)), (@of_Z p377 (row y1 i)), (@of_Z p377 (row zz1 i)), (@of_Z p377 (row zzz1 i)).
  intros. apply pt4_eq; ring.
Qed.
End XyzzSteps.
