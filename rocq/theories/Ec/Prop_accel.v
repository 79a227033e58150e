(** C53: the batched point operations compute, lane by lane, the reference formulas on the residues of the coordinates, and keep
    every coordinate in the range the next operation needs. *)
From Coq Require Import ZArith List Bool Lia Znumtheory.
From Verif Require Import Base.Word Base.Modeq Base.Fp Ec.Spec_chunks Ec.Model_util Ec.Model_field Ec.Proof_chunks Ec.Proof_arith Ec.Prop_arith Ec.Prop_barrett377 Ec.Prop_lazy377 Ec.Model_reffield Ec.Model_curve Ec.Spec_curve Ec.Proof_curve Ec.Prop_xyzz Ec.Prop_edwards Ec.Model_accel Ec.Spec_accel Ec.Proof_accel Ec.Prime377.
Import ListNotations.
Local Open Scope Z_scope.
Add Ring FR : (Fp_ring p377).

(** ** Barrett multiplication: 24 chunks, canonical coordinates *)
Lemma b_digits : digits 16 24 MODULUS_377_INT_CHUNK. Proof. apply C45_constants. Qed.
Lemma b_value : chunk_value 16 MODULUS_377_INT_CHUNK = MODULUS_377_INT. Proof. apply C45_constants. Qed.
Lemma b_bounds : 0 < MODULUS_377_INT < 2 ^ 377. Proof. split; reflexivity. Qed.
Lemma b_zero : @of_Z p377 (chunk_value 16 MODULUS_377_INT_CHUNK) = of_Z 0. Proof. rewrite b_value. apply of_Z_eq. exists 1. rewrite p377_val. ring. Qed.
Lemma caps24 : 3 * 2 ^ 377 <= 2 ^ (16 * Z.of_nat 24) /\ 3 * 2 ^ 377 <= 2 ^ (16 * Z.of_nat 24) - 2 ^ (16 * Z.of_nat (24 - 1)). Proof. split; discriminate. Qed.
Lemma caps25 : 3 * 2 ^ 393 <= 2 ^ (16 * Z.of_nat 25) /\ 3 * 2 ^ 393 <= 2 ^ (16 * Z.of_nat 25) - 2 ^ (16 * Z.of_nat (25 - 1)). Proof. split; discriminate. Qed.

Theorem C53_padd_barrett_xyzz : forall n p1 p2, packed 24 n MODULUS_377_INT p1 -> packed 24 n MODULUS_377_INT p2 ->
  exists p3, padd_barret_xyzz p1 p2 = Some p3 /\ packed 24 n MODULUS_377_INT p3 /\
    forall s a b, wcs_new MODULUS_377_INT a b = Some s -> forall i, (i < n)%nat -> xyzz_add_general s (lane_point XYZZ p1 i) (lane_point XYZZ p2 i) = Some (lane_point XYZZ p3 i).
Proof.
  intros n p1 p2 H1 H2. rewrite padd_barret_with. pose proof b_bounds as B. pose proof caps24 as C. apply padd_with_value; try assumption.
  - intros. apply barrett_mul_step; assumption.
  - intros. apply (csub_step 24 n ltac:(lia) _ b_digits b_zero MODULUS_377_INT MODULUS_377_INT); try assumption; rewrite ?b_value; lia.
  - intros. apply (csm_step 24 n ltac:(lia) _ b_digits b_zero (2 * MODULUS_377_INT)); try assumption; rewrite ?b_value; lia.
  - intros. apply (csm_step 24 n ltac:(lia) _ b_digits b_zero (3 * MODULUS_377_INT)); try assumption; rewrite ?b_value; lia.
  - intros f g h a b d Ha Hb Hd. destruct (add3_step 24 n ltac:(lia) _ _ _ f g h a b d Ha Hb Hd ltac:(lia)) as (c & E & L). exists c. split; [exact E |]. eapply lane_mono; [| exact L]. lia.
Qed.
Print Assumptions C53_padd_barrett_xyzz.
Theorem C53_pdul_barrett_xyzz : forall n p1, packed 24 n MODULUS_377_INT p1 ->
  exists p3, pdul_barret_xyzz p1 = Some p3 /\ packed 24 n MODULUS_377_INT p3 /\
    forall s b, wcs_new MODULUS_377_INT 0 b = Some s -> forall i, (i < n)%nat -> xyzz_double_general s (lane_point XYZZ p1 i) = Some (lane_point XYZZ p3 i).
Proof.
  intros n p1 H1. rewrite pdul_barret_with. pose proof b_bounds as B. pose proof caps24 as C. apply pdul_with_value; try assumption.
  - intros. apply barrett_mul_step; assumption.
  - intros. apply (csub_step 24 n ltac:(lia) _ b_digits b_zero MODULUS_377_INT MODULUS_377_INT); try assumption; rewrite ?b_value; lia.
  - intros. apply (csm_step 24 n ltac:(lia) _ b_digits b_zero (2 * MODULUS_377_INT)); try assumption; rewrite ?b_value; lia.
  - intros. apply (csm_step 24 n ltac:(lia) _ b_digits b_zero (3 * MODULUS_377_INT)); try assumption; rewrite ?b_value; lia.
  - intros f g a b Ha Hb. destruct (add_step 24 n ltac:(lia) _ _ f g a b Ha Hb ltac:(lia)) as (c & E & L). exists c. split; [exact E |]. eapply lane_mono; [| exact L]. lia.
  - intros f g h a b d Ha Hb Hd. destruct (add3_step 24 n ltac:(lia) _ _ _ f g h a b d Ha Hb Hd ltac:(lia)) as (c & E & L). exists c. split; [exact E |]. eapply lane_mono; [| exact L]. lia.
Qed.
Print Assumptions C53_pdul_barrett_xyzz.

(** ** lazy multiplication: 25 chunks, coordinates below 2^16 times the modulus *)
Lemma x_zero : @of_Z p377 (chunk_value 16 MODULUS_377_S16_INT_CHUNK) = of_Z 0. Proof. rewrite s16_value. apply Mx_zero. Qed.
Theorem C53_padd_lazy_xyzz : forall n p1 p2, packed 25 n (MODULUS_377_INT * 2 ^ 16) p1 -> packed 25 n (MODULUS_377_INT * 2 ^ 16) p2 ->
  exists p3, padd_lazy_xyzz p1 p2 = Some p3 /\ packed 25 n (MODULUS_377_INT * 2 ^ 16) p3 /\
    forall s a b, wcs_new MODULUS_377_INT a b = Some s -> forall i, (i < n)%nat -> xyzz_add_general s (lane_point XYZZ p1 i) (lane_point XYZZ p2 i) = Some (lane_point XYZZ p3 i).
Proof.
  intros n p1 p2 H1 H2. rewrite padd_lazy_with. fold Mx in *. pose proof Mx_bounds as B. pose proof caps25 as C. apply padd_with_value; try assumption.
  - intros f g a b Ha Hb. destruct (lazy_mul_step n _ _ f g a b Ha Hb) as (c & E & L). exists c. split; [exact E |]. eapply lane_mono; [| exact L]. lia.
  - intros. apply (csub_step 25 n ltac:(lia) _ s16_digits x_zero Mx Mx); try assumption; rewrite ?s16_value; lia.
  - intros. apply (csm_step 25 n ltac:(lia) _ s16_digits x_zero (2 * Mx)); try assumption; rewrite ?s16_value; lia.
  - intros. apply (csm_step 25 n ltac:(lia) _ s16_digits x_zero (3 * Mx)); try assumption; rewrite ?s16_value; lia.
  - intros f g h a b d Ha Hb Hd. destruct (add3_step 25 n ltac:(lia) _ _ _ f g h a b d Ha Hb Hd ltac:(lia)) as (c & E & L). exists c. split; [exact E |]. eapply lane_mono; [| exact L]. lia.
Qed.
Print Assumptions C53_padd_lazy_xyzz.
Theorem C53_pdul_lazy_xyzz : forall n p1, packed 25 n (MODULUS_377_INT * 2 ^ 16) p1 ->
  exists p3, pdul_lazy_xyzz p1 = Some p3 /\ packed 25 n (MODULUS_377_INT * 2 ^ 16) p3 /\
    forall s b, wcs_new MODULUS_377_INT 0 b = Some s -> forall i, (i < n)%nat -> xyzz_double_general s (lane_point XYZZ p1 i) = Some (lane_point XYZZ p3 i).
Proof.
  intros n p1 H1. rewrite pdul_lazy_with. fold Mx in *. pose proof Mx_bounds as B. pose proof caps25 as C. apply pdul_with_value; try assumption.
  - intros f g a b Ha Hb. destruct (lazy_mul_step n _ _ f g a b Ha Hb) as (c & E & L). exists c. split; [exact E |]. eapply lane_mono; [| exact L]. lia.
  - intros. apply (csub_step 25 n ltac:(lia) _ s16_digits x_zero Mx Mx); try assumption; rewrite ?s16_value; lia.
  - intros. apply (csm_step 25 n ltac:(lia) _ s16_digits x_zero (2 * Mx)); try assumption; rewrite ?s16_value; lia.
  - intros. apply (csm_step 25 n ltac:(lia) _ s16_digits x_zero (3 * Mx)); try assumption; rewrite ?s16_value; lia.
  - intros f g a b Ha Hb. destruct (add_step 25 n ltac:(lia) _ _ f g a b Ha Hb ltac:(lia)) as (c & E & L). exists c. split; [exact E |]. eapply lane_mono; [| exact L]. lia.
  - intros f g h a b d Ha Hb Hd. destruct (add3_step 25 n ltac:(lia) _ _ _ f g h a b d Ha Hb Hd ltac:(lia)) as (c & E & L). exists c. split; [exact E |]. eapply lane_mono; [| exact L]. lia.
Qed.
Print Assumptions C53_pdul_lazy_xyzz.

(** ** twisted Edwards with lazy multiplication: coordinates at most 2^16 times the modulus *)
Notation cmax := (MODULUS_377_INT * 2 ^ 16 + 1).
Lemma csm_x n A C f a : lane 25 n A f a -> Mx <= C -> A - Mx <= C -> A <= 3 * 2 ^ 393 -> exists c, cond_sub_mod_ext a = Some c /\ lane 25 n C f c.
Proof. intros H H1 H2 H3. pose proof Mx_bounds as B. pose proof caps25 as D. apply (csm_step 25 n ltac:(lia) _ s16_digits x_zero A); try assumption; rewrite ?s16_value; lia. Qed.
Lemma csub_x n A B C f g a b : lane 25 n A f a -> lane 25 n B g b -> B <= Mx -> A <= 3 * 2 ^ 393 -> A <= C -> Mx <= C -> exists c, cond_sub_ext a b = Some c /\ lane 25 n C (fun i => f_sub (f i) (g i)) c.
Proof. intros Ha Hb H1 H2 H3 H4. pose proof Mx_bounds as BM. pose proof caps25 as D. apply (csub_step 25 n ltac:(lia) _ s16_digits x_zero A B); try assumption; rewrite ?s16_value; lia. Qed.
Lemma add_x n A B f g a b : lane 25 n A f a -> lane 25 n B g b -> A + B <= 3 * 2 ^ 393 -> exists c, add_2u16 a b = Some c /\ lane 25 n (A + B - 1) (fun i => f_add (f i) (g i)) c.
Proof. intros Ha Hb H1. pose proof caps25 as D. apply (add_step 25 n ltac:(lia)); try assumption. lia. Qed.
Section Twisted.
Variables (n : nat) (mul cs add : batch -> batch -> option batch) (csm : batch -> option batch) (td ms : batch -> batch).
Hypothesis Hmul : forall A B f g a b, lane 25 n A f a -> lane 25 n B g b -> exists c, mul a b = Some c /\ lane 25 n (2 ^ 391) (fun i => f_mul (f i) (g i)) c.
Hypothesis Hcsm : forall A C f a, lane 25 n A f a -> Mx <= C -> A - Mx <= C -> A <= 3 * 2 ^ 393 -> exists c, csm a = Some c /\ lane 25 n C f c.
Hypothesis Hcs : forall A B C f g a b, lane 25 n A f a -> lane 25 n B g b -> B <= Mx -> A <= 3 * 2 ^ 393 -> A <= C -> Mx <= C -> exists c, cs a b = Some c /\ lane 25 n C (fun i => f_sub (f i) (g i)) c.
Hypothesis Hadd : forall A B f g a b, lane 25 n A f a -> lane 25 n B g b -> A + B <= 3 * 2 ^ 393 -> exists c, add a b = Some c /\ lane 25 n (A + B - 1) (fun i => f_add (f i) (g i)) c.
Hypothesis Htd : forall a, chunked 25 a -> length a = n -> lane 25 n (TWIST_D_INT + 1) (fun _ => of_Z TWIST_D_INT) (td a).
Hypothesis Hms : forall a, chunked 25 a -> length a = n -> lane 25 n (Mx + 1) (fun _ => of_Z 0) (ms a).
Definition padd_twisted_with (p1 p2 : coords) : option coords :=
  let '(x1, y1, z1, t1) := p1 in let '(x2, y2, z2, t2) := p2 in
  do a <- mul x1 x2; do b <- mul y1 y2; do d <- mul z1 z2; do c <- mul t1 t2; do c <- mul c (td x1); do h <- add a b; do h <- csm h; do e1 <- add x1 y1; do e1 <- csm e1; do e2 <- add x2 y2; do e2 <- csm e2;
  do e <- mul e1 e2; do e <- cs e h; do f <- cs d c; do g <- add d c; do g <- csm g; do x3 <- mul e f; do y3 <- mul g h; do z3 <- mul f g; do t3 <- mul e h; Some (x3, y3, z3, t3).
Definition pdul_twisted_with (p1 : coords) : option coords :=
  let '(x1, y1, z1, t1) := p1 in
  do a <- mul x1 x1; do b <- mul y1 y1; do ct <- mul z1 z1; do ct2 <- add ct ct; do ct2 <- csm ct2; do h <- add a b; do h <- cs (ms h) h; do et <- add x1 y1; do et <- csm et; do e <- mul et et; do e <- add e h; do e <- csm e;
  do g <- cs b a; do f <- cs g ct2; do x3 <- mul e f; do y3 <- mul g h; do z3 <- mul f g; do t3 <- mul e h; Some (x3, y3, z3, t3).
Ltac fin E := rewrite E; cbn [bind]; clear E.
Ltac mul_st := match goal with
  | A : lane 25 n _ _ ?a, B : lane 25 n _ _ ?b |- exists _, bind (mul ?a ?b) _ = _ /\ _ => let c := fresh "c" in let E := fresh "E" in let L := fresh "L" in destruct (Hmul _ _ _ _ a b A B) as (c & E & L); fin E
  | A : lane 25 n _ _ ?a |- exists _, bind (mul ?a ?a) _ = _ /\ _ => let c := fresh "c" in let E := fresh "E" in let L := fresh "L" in destruct (Hmul _ _ _ _ a a A A) as (c & E & L); fin E
  end.
Ltac csm_st C0 := lazymatch goal with
  | A : lane 25 n ?BA _ ?a |- exists _, bind (csm ?a) _ = _ /\ _ => let c := fresh "c" in let E := fresh "E" in let L := fresh "L" in destruct (Hcsm BA C0 _ a A ltac:(lia) ltac:(lia) ltac:(lia)) as (c & E & L); fin E
  end.
Ltac add_st := match goal with
  | A : lane 25 n _ _ ?a, B : lane 25 n _ _ ?b |- exists _, bind (add ?a ?b) _ = _ /\ _ => let c := fresh "c" in let E := fresh "E" in let L := fresh "L" in destruct (Hadd _ _ _ _ a b A B ltac:(lia)) as (c & E & L); fin E
  | A : lane 25 n _ _ ?a |- exists _, bind (add ?a ?a) _ = _ /\ _ => let c := fresh "c" in let E := fresh "E" in let L := fresh "L" in destruct (Hadd _ _ _ _ a a A A ltac:(lia)) as (c & E & L); fin E
  end.
Ltac csub_st C0 := lazymatch goal with
  | A : lane 25 n ?BA _ ?a, B : lane 25 n ?BB _ ?b |- exists _, bind (cs ?a ?b) _ = _ /\ _ => let c := fresh "c" in let E := fresh "E" in let L := fresh "L" in destruct (Hcs BA BB C0 _ _ a b A B ltac:(lia) ltac:(lia) ltac:(lia) ltac:(lia)) as (c & E & L); fin E
  end.
Ltac lanes := repeat match goal with H : lane _ _ _ _ _ |- _ => apply within_lane in H; let W := fresh "W" in let V := fresh "V" in destruct H as [W V] end.
Ltac residues i Hi := unfold lane_point, residue; repeat match goal with |- context [row ?c i mod MODULUS_377_INT] => change (row c i mod MODULUS_377_INT) with (val (@of_Z p377 (row c i))) end; repeat match goal with V : forall j, _ -> of_Z (row ?c j) = _ |- context [FE (val (of_Z (row ?c i)))] => rewrite (V i Hi); clear V end.
Lemma padd_twisted_value p1 p2 : packed 25 n cmax p1 -> packed 25 n cmax p2 ->
  exists p3, padd_twisted_with p1 p2 = Some p3 /\ packed 25 n (2 ^ 391) p3 /\
    forall s a alpha sc ma mb t, tcs_new MODULUS_377_INT a TWIST_D_INT alpha sc ma mb t = Some s -> forall i, (i < n)%nat ->
      twisted_point_add s (lane_point PROJECTIVE p1 i) (lane_point PROJECTIVE p2 i) = Some (lane_point PROJECTIVE p3 i).
Proof.
  revert p1 p2. intros [[[x1 y1] z1] t1] [[[x2 y2] z2] t2] (X1 & Y1 & Z1 & T1) (X2 & Y2 & Z2 & T2). fold Mx in *. pose proof Mx_bounds as B. pose proof caps25 as C. pose proof (Htd x1 (proj1 X1) (proj1 (proj2 X1))) as TD.
  apply lane_within in X1, Y1, Z1, T1, X2, Y2, Z2, T2. unfold padd_twisted_with.
  do 5 mul_st. add_st. csm_st Mx. add_st. csm_st (Mx + 1). add_st. csm_st (Mx + 1). mul_st. csub_st Mx. csub_st Mx. add_st. csm_st Mx. do 4 mul_st.
  eexists. split; [reflexivity |]. lanes. split; [unfold packed; split; [assumption | split; [assumption | split; assumption]] |].
  intros s a alpha sc ma mb t Hs i Hi. rewrite <- p377_val in Hs. destruct (tcs_shape _ _ _ _ _ _ _ _ _ Hs) as (k & ->). residues i Hi. unfold twisted_point_add. cbn [pt_coords t_d]. rewrite <- p377_val. fsteps. rewrite new_twisted_el.
  generalize (@of_Z p377 (row x1 i)), (@of_Z p377 (row y1 i)), (@of_Z p377 (row z1 i)), (@of_Z p377 (row t1 i)), (@of_Z p377 (row x2 i)), (@of_Z p377 (row y2 i)), (@of_Z p377 (row z2 i)), (@of_Z p377 (row t2 i)), (@of_Z p377 TWIST_D_INT).
  intros. apply pt4_eq; ring.
Qed.
Lemma pdul_twisted_value p1 : packed 25 n cmax p1 ->
  exists p3, pdul_twisted_with p1 = Some p3 /\ packed 25 n (2 ^ 391) p3 /\
    forall s a d alpha sc ma mb t, tcs_new MODULUS_377_INT a d alpha sc ma mb t = Some s -> forall i, (i < n)%nat ->
      twisted_double_general s (lane_point PROJECTIVE p1 i) = Some (lane_point PROJECTIVE p3 i).
Proof.
  revert p1. intros [[[x1 y1] z1] t1] (X1 & Y1 & Z1 & T1). fold Mx in *. pose proof Mx_bounds as B. pose proof caps25 as C.
  apply lane_within in X1, Y1, Z1, T1. unfold pdul_twisted_with.
  do 3 mul_st. add_st. csm_st Mx. add_st. pose proof L4 as (CL & LL & _). pose proof (Hms _ CL LL) as TD. csub_st (Mx + 1). add_st. csm_st (Mx + 1). mul_st. add_st. csm_st Mx. csub_st Mx. csub_st Mx. do 4 mul_st.
  eexists. split; [reflexivity |]. lanes. split; [unfold packed; split; [assumption | split; [assumption | split; assumption]] |].
  intros s a d alpha sc ma mb t Hs i Hi. rewrite <- p377_val in Hs. destruct (tcs_shape _ _ _ _ _ _ _ _ _ Hs) as (k & ->). residues i Hi. unfold twisted_double_general. cbn [pt_coords t_d t_zero]. rewrite <- p377_val. fsteps. rewrite new_twisted_el.
  generalize (@of_Z p377 (row x1 i)), (@of_Z p377 (row y1 i)), (@of_Z p377 (row z1 i)), (@of_Z p377 (row t1 i)).
  intros. apply pt4_eq; ring.
Qed.
End Twisted.
Lemma td_x n a : chunked 25 a -> length a = n -> lane 25 n (TWIST_D_INT + 1) (fun _ => of_Z TWIST_D_INT) (broadcast a TWIST_D_INT_CHUNK).
Proof. intros H L. pose proof (broadcast_lane 25 n ltac:(lia) a H L _ twist_digits) as T. rewrite twist_value in T. exact T. Qed.
Lemma ms_x n a : chunked 25 a -> length a = n -> lane 25 n (Mx + 1) (fun _ => of_Z 0) (broadcast a MODULUS_377_S16_INT_CHUNK).
Proof. intros H L. pose proof (broadcast_lane 25 n ltac:(lia) a H L _ s16_digits) as T. rewrite x_zero, s16_value in T. exact T. Qed.
Lemma padd_twisted_eq p1 p2 : padd_lazy_twisted p1 p2 = padd_twisted_with mod_mul_lazy_377 cond_sub_ext add_2u16 cond_sub_mod_ext (fun a => broadcast a TWIST_D_INT_CHUNK) p1 p2. Proof. reflexivity. Qed.
Lemma pdul_twisted_eq p1 : pdul_lazy_twisted p1 = pdul_twisted_with mod_mul_lazy_377 cond_sub_ext add_2u16 cond_sub_mod_ext (fun a => broadcast a MODULUS_377_S16_INT_CHUNK) p1. Proof. reflexivity. Qed.
Theorem C53_padd_lazy_twisted : forall n p1 p2, packed 25 n cmax p1 -> packed 25 n cmax p2 ->
  exists p3, padd_lazy_twisted p1 p2 = Some p3 /\ packed 25 n (2 ^ 391) p3 /\
    forall s a alpha sc ma mb t, tcs_new MODULUS_377_INT a TWIST_D_INT alpha sc ma mb t = Some s -> forall i, (i < n)%nat ->
      twisted_point_add s (lane_point PROJECTIVE p1 i) (lane_point PROJECTIVE p2 i) = Some (lane_point PROJECTIVE p3 i).
Proof. intros n p1 p2 H1 H2. rewrite padd_twisted_eq. apply padd_twisted_value; try assumption; [apply lazy_mul_step | apply csm_x | apply csub_x | apply add_x | apply td_x]. Qed.
Print Assumptions C53_padd_lazy_twisted.
Theorem C53_pdul_lazy_twisted : forall n p1, packed 25 n cmax p1 ->
  exists p3, pdul_lazy_twisted p1 = Some p3 /\ packed 25 n (2 ^ 391) p3 /\
    forall s a d alpha sc ma mb t, tcs_new MODULUS_377_INT a d alpha sc ma mb t = Some s -> forall i, (i < n)%nat ->
      twisted_double_general s (lane_point PROJECTIVE p1 i) = Some (lane_point PROJECTIVE p3 i).
Proof. intros n p1 H1. rewrite pdul_twisted_eq. apply pdul_twisted_value; try assumption; [apply lazy_mul_step | apply csm_x | apply csub_x | apply add_x | apply ms_x]. Qed.
Print Assumptions C53_pdul_lazy_twisted.

(** negation: x and t change sign modulo the prime; y and z are returned unchanged *)
Theorem C53_pneg_lazy_twisted : forall n x y z t, packed 25 n cmax (x, y, z, t) ->
  exists x3 t3, pneg_lazy_twisted (x, y, z, t) = Some (x3, y, z, t3) /\ packed 25 n cmax (x3, y, z, t3) /\
    forall i, (i < n)%nat -> row x3 i mod MODULUS_377_INT = (- row x i) mod MODULUS_377_INT /\ row t3 i mod MODULUS_377_INT = (- row t i) mod MODULUS_377_INT.
Proof.
  intros n x y z t (X1 & Y1 & Z1 & T1). fold Mx in *. pose proof Mx_bounds as B. pose proof caps25 as C. pose proof X1 as (CX & LX & _). pose proof T1 as (CT & LT & _). apply lane_within in X1, T1. unfold pneg_lazy_twisted.
  destruct (sub_step 25 n ltac:(lia) _ s16_digits x_zero (Mx + 1) _ x x X1 ltac:(rewrite ?s16_value; lia) ltac:(rewrite ?s16_value; lia) LX CX) as (x3 & E1 & L1). destruct (sub_step 25 n ltac:(lia) _ s16_digits x_zero (Mx + 1) _ t t T1 ltac:(rewrite ?s16_value; lia) ltac:(rewrite ?s16_value; lia) LT CT) as (t3 & E2 & L2).
  change U16_EXT_CHUNK_NUM with 25%nat. rewrite E1. cbn [bind]. rewrite E2. cbn [bind]. exists x3, t3. split; [reflexivity |]. rewrite s16_value in L1, L2. apply within_lane in L1, L2. destruct L1 as [W1 V1], L2 as [W2 V2]. split; [exact (conj W1 (conj Y1 (conj Z1 W2))) |].
  intros i Hi. specialize (V1 i Hi). specialize (V2 i Hi). rewrite of_Z_sub in V1, V2. apply of_Z_eq in V1, V2. rewrite p377_val in V1, V2. split; apply eqm_mod_iff; try reflexivity; assumption.
Qed.
Print Assumptions C53_pneg_lazy_twisted.

(** ** the group laws, lane by lane *)
(** every lane of a batch stands for a point of the twisted Edwards curve *)
Definition edwards_lanes (n : nat) (c : coords) (P : nat -> F377 * F377) : Prop := packed 25 n cmax c /\ forall i, (i < n)%nat -> extended_point (P i) (lane_point PROJECTIVE c i).
Definition xyzz_lanes (k n : nat) (bound : Z) (c : coords) (P : nat -> F377 * F377) : Prop := packed k n bound c /\ forall i, (i < n)%nat -> exists l, pt_coords (lane_point XYZZ c i) = Some l /\ xyzz (P i) l.
Lemma tcs_exists : exists s, tcs_new MODULUS_377_INT 0 TWIST_D_INT 0 0 0 0 0 = Some s.
Proof. destruct (tcs_new MODULUS_377_INT 0 TWIST_D_INT 0 0 0 0 0) as [s |] eqn:E; [exists s; reflexivity |]. exfalso. vm_compute in E. discriminate E. Qed.
Lemma wcs_exists : exists s, wcs_new MODULUS_377_INT 0 1 = Some s.
Proof. destruct (wcs_new MODULUS_377_INT 0 1) as [s |] eqn:E; [exists s; reflexivity |]. exfalso. vm_compute in E. discriminate E. Qed.
Lemma packed_391 n c : packed 25 n (2 ^ 391) c -> packed 25 n cmax c.
Proof.
  destruct c as [[[x y] z] t]. assert (W : forall a, within 25 n (2 ^ 391) a -> within 25 n cmax a). { intros a (C & L & H). split; [exact C |]. split; [exact L |]. intros i Hi. specialize (H i Hi). pose proof Mx_bounds. fold Mx. lia. }
  intros (A & B & C & D). unfold packed. auto.
Qed.
Theorem C53_edwards_addition : forall n c1 c2 P Q R, edwards_lanes n c1 P -> edwards_lanes n c2 Q -> (forall i, (i < n)%nat -> edwards_add (of_Z TWIST_D_INT) (P i) (Q i) (R i)) ->
  exists c3, padd_lazy_twisted c1 c2 = Some c3 /\ edwards_lanes n c3 R.
Proof.
  pose proof prime_377 as Hp.
  intros n c1 c2 P Q R [K1 H1] [K2 H2] H. destruct (C53_padd_lazy_twisted n c1 c2 K1 K2) as (c3 & E & K3 & V). exists c3. split; [exact E |]. split; [apply packed_391; exact K3 |]. intros i Hi.
  destruct tcs_exists as [s Hs]. specialize (V s _ _ _ _ _ _ Hs i Hi). rewrite <- p377_val in Hs, Hp. destruct (C52_point_add p377 Hp _ _ _ _ _ _ _ s Hs (P i) (Q i) (R i) _ _ (H1 i Hi) (H2 i Hi) (H i Hi)) as (o & E' & X). rewrite V in E'. injection E' as <-. exact X.
Qed.
Theorem C53_edwards_doubling : forall n c P R, edwards_lanes n c P -> (forall i, (i < n)%nat -> on_edwards (of_Z TWIST_D_INT) (P i) /\ edwards_add (of_Z TWIST_D_INT) (P i) (P i) (R i)) ->
  exists c3, pdul_lazy_twisted c = Some c3 /\ edwards_lanes n c3 R.
Proof.
  pose proof prime_377 as Hp.
  intros n c P R [K1 H1] H. destruct (C53_pdul_lazy_twisted n c K1) as (c3 & E & K3 & V). exists c3. split; [exact E |]. split; [apply packed_391; exact K3 |]. intros i Hi.
  destruct tcs_exists as [s Hs]. specialize (V s _ _ _ _ _ _ _ Hs i Hi). rewrite <- p377_val in Hs, Hp. destruct (H i Hi) as [O A]. destruct (C52_double p377 Hp _ _ _ _ _ _ _ s Hs (P i) (R i) _ (H1 i Hi) O A) as (o & E' & X). rewrite V in E'. injection E' as <-. exact X.
Qed.
Theorem C53_edwards_negation : forall n c P, edwards_lanes n c P -> exists c3, pneg_lazy_twisted c = Some c3 /\ edwards_lanes n c3 (fun i => (f_opp (fst (P i)), snd (P i))).
Proof.
  intros n [[[x y] z] t] P [K1 H1]. destruct (C53_pneg_lazy_twisted n x y z t K1) as (x3 & t3 & E & K3 & V). eexists. split; [exact E |]. split; [exact K3 |]. intros i Hi. destruct (V i Hi) as [VX VT]. destruct (H1 i Hi) as (l & EL & X). injection EL as <-. eexists. split; [reflexivity |]. cbn [fst snd].
  destruct X as (X & Y & Z & T & F & N & EX & EY & ET). assert (V1 : X = of_Z (row x i) /\ Y = of_Z (row y i) /\ Z = of_Z (row z i) /\ T = of_Z (row t i)).
  { assert (RS : forall (u : F377) a, elem u (residue a i) -> u = of_Z (row a i)). { intros u a [_ <-]. cbn [residue fe_value]. apply of_Z_eq. rewrite p377_val. apply eqm_mod. }
    inversion F as [| ? ? ? ? G1 F1]; subst. inversion F1 as [| ? ? ? ? G2 F2]; subst. inversion F2 as [| ? ? ? ? G3 F3]; subst. inversion F3 as [| ? ? ? ? G4 F4]; subst. auto. }
  destruct V1 as (-> & -> & -> & ->). exists (of_Z (- row x i)), (of_Z (row y i)), (of_Z (row z i)), (of_Z (- row t i)).
  assert (RS : forall a v, row a i mod MODULUS_377_INT = v mod MODULUS_377_INT -> @elem p377 (of_Z v) (residue a i)). { intros a v HV. split; [reflexivity |]. cbn [residue fe_value]. rewrite HV. apply of_Z_eq. rewrite p377_val. apply eqm_mod. }
  split; [constructor; [apply RS; exact VX | constructor; [apply RS; reflexivity | constructor; [apply RS; reflexivity | constructor; [apply RS; exact VT | constructor]]]] |].
  split; [exact N |]. rewrite <- !of_Z_opp. cbn [fst snd]. split; [rewrite <- EX; ring |]. split; [exact EY |]. transitivity (f_opp (f_mul (@of_Z p377 (row t i)) (of_Z (row z i)))); [ring | rewrite ET; ring].
Qed.
Theorem C53_xyzz_addition : forall n c1 c2 P Q, (forall i, (i < n)%nat -> fst (P i) <> fst (Q i)) ->
  (xyzz_lanes 25 n (MODULUS_377_INT * 2 ^ 16) c1 P -> xyzz_lanes 25 n (MODULUS_377_INT * 2 ^ 16) c2 Q -> exists c3 R, padd_lazy_xyzz c1 c2 = Some c3 /\ xyzz_lanes 25 n (MODULUS_377_INT * 2 ^ 16) c3 R /\ forall i, (i < n)%nat -> chord_tangent (of_Z 0) (Some (P i)) (Some (Q i)) (Some (R i))) /\
  (xyzz_lanes 24 n MODULUS_377_INT c1 P -> xyzz_lanes 24 n MODULUS_377_INT c2 Q -> exists c3 R, padd_barret_xyzz c1 c2 = Some c3 /\ xyzz_lanes 24 n MODULUS_377_INT c3 R /\ forall i, (i < n)%nat -> chord_tangent (of_Z 0) (Some (P i)) (Some (Q i)) (Some (R i))).
Proof.
  pose proof prime_377 as Hp.
  intros n c1 c2 P Q H.
  assert (G : forall c3, (forall i, (i < n)%nat -> exists l, pt_coords (lane_point XYZZ c1 i) = Some l /\ xyzz (P i) l) -> (forall i, (i < n)%nat -> exists l, pt_coords (lane_point XYZZ c2 i) = Some l /\ xyzz (Q i) l) ->
    (forall s a b, wcs_new MODULUS_377_INT a b = Some s -> forall i, (i < n)%nat -> xyzz_add_general s (lane_point XYZZ c1 i) (lane_point XYZZ c2 i) = Some (lane_point XYZZ c3 i)) ->
    exists R, (forall i, (i < n)%nat -> exists l, pt_coords (lane_point XYZZ c3 i) = Some l /\ xyzz (R i) l) /\ forall i, (i < n)%nat -> chord_tangent (of_Z 0) (Some (P i)) (Some (Q i)) (Some (R i))).
  { intros c3 H1 H2 V. destruct wcs_exists as [s Hs]. specialize (V s _ _ Hs). rewrite <- p377_val in Hs, Hp.
    assert (K : forall i, (i < n)%nat -> exists R, (exists l, pt_coords (lane_point XYZZ c3 i) = Some l /\ xyzz R l) /\ chord_tangent (of_Z 0) (Some (P i)) (Some (Q i)) (Some R)).
    { intros i Hi. destruct (H1 i Hi) as (l1 & E1 & X1), (H2 i Hi) as (l2 & E2 & X2). destruct (C50_add_general p377 Hp 0 s XYZZ XYZZ (P i) (Q i) l1 l2 X1 X2 (H i Hi)) as (l3 & R & E3 & CT & X3).
      exists R. split; [| exact CT]. specialize (V i Hi). destruct c1 as [[[? ?] ?] ?], c2 as [[[? ?] ?] ?]. cbn [lane_point pt_coords] in E1, E2. injection E1 as <-. injection E2 as <-. cbn [lane_point] in V. rewrite V in E3. destruct c3 as [[[? ?] ?] ?]. cbn [lane_point] in E3 |- *. injection E3 as <-. eexists. split; [reflexivity | exact X3]. }
    clear - K. induction n as [| m IH]; [exists (fun _ => (of_Z 0, of_Z 0)); split; intros; lia |]. destruct IH as (R & A & B); [intros; apply K; lia |]. destruct (K m ltac:(lia)) as (r & C & D). exists (fun i => if Nat.eqb i m then r else R i).
    split; intros i Hi; destruct (Nat.eqb_spec i m) as [-> | NE]; try assumption; [apply A | apply B]; lia. }
  split; intros [K1 H1] [K2 H2].
  - destruct (C53_padd_lazy_xyzz n c1 c2 K1 K2) as (c3 & E & K3 & V). destruct (G c3 H1 H2 V) as (R & A & B). exists c3, R. repeat split; assumption.
  - destruct (C53_padd_barrett_xyzz n c1 c2 K1 K2) as (c3 & E & K3 & V). destruct (G c3 H1 H2 V) as (R & A & B). exists c3, R. repeat split; assumption.
Qed.
Theorem C53_xyzz_doubling : forall n c P, (forall i, (i < n)%nat -> f_add (snd (P i)) (snd (P i)) <> of_Z 0) ->
  (xyzz_lanes 25 n (MODULUS_377_INT * 2 ^ 16) c P -> exists c3 R, pdul_lazy_xyzz c = Some c3 /\ xyzz_lanes 25 n (MODULUS_377_INT * 2 ^ 16) c3 R /\ forall i, (i < n)%nat -> chord_tangent (of_Z 0) (Some (P i)) (Some (P i)) (Some (R i))) /\
  (xyzz_lanes 24 n MODULUS_377_INT c P -> exists c3 R, pdul_barret_xyzz c = Some c3 /\ xyzz_lanes 24 n MODULUS_377_INT c3 R /\ forall i, (i < n)%nat -> chord_tangent (of_Z 0) (Some (P i)) (Some (P i)) (Some (R i))).
Proof.
  pose proof prime_377 as Hp.
  intros n c P H.
  assert (G : forall c3, (forall i, (i < n)%nat -> exists l, pt_coords (lane_point XYZZ c i) = Some l /\ xyzz (P i) l) ->
    (forall s b, wcs_new MODULUS_377_INT 0 b = Some s -> forall i, (i < n)%nat -> xyzz_double_general s (lane_point XYZZ c i) = Some (lane_point XYZZ c3 i)) ->
    exists R, (forall i, (i < n)%nat -> exists l, pt_coords (lane_point XYZZ c3 i) = Some l /\ xyzz (R i) l) /\ forall i, (i < n)%nat -> chord_tangent (of_Z 0) (Some (P i)) (Some (P i)) (Some (R i))).
  { intros c3 H1 V. destruct wcs_exists as [s Hs]. specialize (V s _ Hs). rewrite <- p377_val in Hs, Hp.
    assert (K : forall i, (i < n)%nat -> exists R, (exists l, pt_coords (lane_point XYZZ c3 i) = Some l /\ xyzz R l) /\ chord_tangent (of_Z 0) (Some (P i)) (Some (P i)) (Some R)).
    { intros i Hi. destruct (H1 i Hi) as (l1 & E1 & X1). destruct (C50_double_general p377 Hp 0 1 s Hs XYZZ (P i) l1 X1 (H i Hi)) as (l3 & R & E3 & CT & X3).
      exists R. split; [| exact CT]. specialize (V i Hi). destruct c as [[[? ?] ?] ?]. cbn [lane_point pt_coords] in E1. injection E1 as <-. cbn [lane_point] in V. rewrite V in E3. destruct c3 as [[[? ?] ?] ?]. cbn [lane_point] in E3 |- *. injection E3 as <-. eexists. split; [reflexivity | exact X3]. }
    clear - K. induction n as [| m IH]; [exists (fun _ => (of_Z 0, of_Z 0)); split; intros; lia |]. destruct IH as (R & A & B); [intros; apply K; lia |]. destruct (K m ltac:(lia)) as (r & C & D). exists (fun i => if Nat.eqb i m then r else R i).
    split; intros i Hi; destruct (Nat.eqb_spec i m) as [-> | NE]; try assumption; [apply A | apply B]; lia. }
  split; intros [K1 H1].
  - destruct (C53_pdul_lazy_xyzz n c K1) as (c3 & E & K3 & V). destruct (G c3 H1 V) as (R & A & B). exists c3, R. repeat split; assumption.
  - destruct (C53_pdul_barrett_xyzz n c K1) as (c3 & E & K3 & V). destruct (G c3 H1 V) as (R & A & B). exists c3, R. repeat split; assumption.
Qed.
Print Assumptions C53_edwards_addition.
Print Assumptions C53_edwards_doubling.
Print Assumptions C53_edwards_negation.
Print Assumptions C53_xyzz_addition.
Print Assumptions C53_xyzz_doubling.

(** a batch of two lanes: the neutral point (0, 1) and the point (0, -1) of order two *)
Definition one25 : list Z := 1 :: repeat 0 24.
Definition zero25 : list Z := repeat 0 25.
Definition minus_one25 : list Z := chunks_or_nil (MODULUS_377_INT - 1) 25.
Definition two_lanes : coords := ([zero25; zero25], [one25; minus_one25], [one25; one25], [zero25; zero25]).
Definition two_points (i : nat) : F377 * F377 := (of_Z 0, if Nat.eqb i 0 then of_Z 1 else of_Z (-1)).
Lemma within_check k n B a : (length a =? n)%nat && (1 <=? n)%nat && forallb (fun r => (length r =? k)%nat && forallb (fun d => (0 <=? d) && (d <? 2 ^ 16)) r && (chunk_value 16 r <? B)) a = true -> within k n B a.
Proof.
  intros H. apply andb_true_iff in H. destruct H as [H F]. apply andb_true_iff in H. destruct H as [L P]. apply Nat.eqb_eq in L. apply Nat.leb_le in P. rewrite forallb_forall in F.
  assert (G : forall r, In r a -> digits 16 k r /\ chunk_value 16 r < B). { intros r Hr. specialize (F r Hr). apply andb_true_iff in F. destruct F as [F V]. apply andb_true_iff in F. destruct F as [F D]. apply Nat.eqb_eq in F. apply Z.ltb_lt in V. split; [| exact V]. split; [exact F |]. apply Forall_forall. intros d Hd. rewrite forallb_forall in D. specialize (D d Hd). apply andb_true_iff in D. destruct D as [D1 D2]. apply Z.leb_le in D1. apply Z.ltb_lt in D2. lia. }
  split; [split; [destruct a; [cbn in L; lia | discriminate] | apply Forall_forall; intros r Hr; apply G; exact Hr] |]. split; [exact L |]. intros i Hi. apply G. apply nth_In. lia.
Qed.
Lemma one_not_zero : @of_Z p377 1 <> of_Z 0.
Proof. intros H. apply (f_equal val) in H. vm_compute in H. discriminate H. Qed.
Example C53_example : edwards_lanes 2 two_lanes two_points /\ forall i, (i < 2)%nat -> on_edwards (of_Z TWIST_D_INT) (two_points i) /\ edwards_add (of_Z TWIST_D_INT) (two_points i) (two_points i) (of_Z 0, of_Z 1).
Proof.
  split; [split |].
  - split; [| split; [| split]]; apply within_check; vm_compute; reflexivity.
  - intros i Hi. eexists. split; [reflexivity |]. destruct i as [| [| i]]; [exists (of_Z 0), (of_Z 1), (of_Z 1), (of_Z 0) | exists (of_Z 0), (of_Z (-1)), (of_Z 1), (of_Z 0) | lia].
    + split; [repeat (constructor; [split; [reflexivity | apply val_inj; vm_compute; reflexivity] |]); constructor |]. split; [exact one_not_zero |]. cbn [two_points fst snd Nat.eqb]. repeat split; ring.
    + split; [| split; [exact one_not_zero |]; cbn [two_points fst snd Nat.eqb]; repeat split; ring]. constructor; [split; [reflexivity | apply val_inj; vm_compute; reflexivity] |].
      constructor; [split; [reflexivity | apply val_inj; vm_compute; reflexivity] |]. constructor; [split; [reflexivity | apply val_inj; vm_compute; reflexivity] |]. constructor; [split; [reflexivity | apply val_inj; vm_compute; reflexivity] |]. constructor.
  - intros i Hi. unfold two_points. set (w := @of_Z p377 (if Nat.eqb i 0 then 1 else -1)). replace (if Nat.eqb i 0 then @of_Z p377 1 else of_Z (-1)) with w by (unfold w; destruct i as [| i]; reflexivity).
    assert (W : f_mul w w = of_Z 1) by (unfold w; destruct i as [| i]; cbn [Nat.eqb]; rewrite of_Z_mul; reflexivity). split; [cbn [on_edwards]; rewrite W; ring |].
    constructor; [intros Z; apply one_not_zero; rewrite <- Z; ring | intros Z; apply one_not_zero; rewrite <- Z; ring | ring | rewrite W; ring].
Qed.
