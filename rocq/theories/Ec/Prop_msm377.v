(** C54, end to end: on BLS12-377 a multi-scalar multiplication through the twisted Edwards form returns the affine coordinates
    of the sum, for every group of points of y^2 = x^3 + 1 without an element of order two. *)
From Coq Require Import ZArith Znumtheory List Bool Lia Field.
From Verif Require Import Base.Fp Base.Word Base.Modeq Ckks.Model_rns_utils Ec.Model_util Ec.Model_reffield Ec.Model_curve Ec.Model_accel Ec.Model_pippenger Ec.Model_msm377.
From Verif Require Import Ec.Proof_pippenger Ec.Spec_chunks Ec.Spec_curve Ec.Spec_accel Ec.Spec_pippenger Ec.Spec_msm Ec.Proof_chunks Ec.Proof_curve Ec.Proof_accel Ec.Prime377 Ec.Proof_twistgroup Ec.Prop_xyzz Ec.Prop_edwards Ec.Prop_accel Ec.Prop_pippenger Ec.Prop_signed.
Import ListNotations.
Local Open Scope Z_scope.

Lemma Hp : prime (Zpos p377). Proof. rewrite p377_val. exact prime_377. Qed.
Lemma tcs_377_exists : exists s, tcs_377 = Some s.
Proof. destruct tcs_377 as [s |] eqn:E; [exists s; reflexivity |]. exfalso. vm_compute in E. discriminate E. Qed.
Notation al := (@of_Z p377 (-1)).
Notation sl := (@of_Z p377 S_377).
Notation tl := (@of_Z p377 T_377).
Lemma parameters : twist_parameters (@of_Z p377 0) (of_Z 1) al sl (of_Z MA_377) sl tl (of_Z TWIST_D_INT).
Proof.
  unfold twist_parameters. repeat split; try (apply val_inj; vm_compute; reflexivity). intros E. apply (f_equal val) in E. vm_compute in E. discriminate E.
Qed.
Lemma two_377 : f_add (@of_Z p377 1) (of_Z 1) <> of_Z 0.
Proof. intros E. apply (f_equal val) in E. vm_compute in E. discriminate E. Qed.
Lemma three_377 : f_add (f_add (@of_Z p377 1) (of_Z 1)) (of_Z 1) <> of_Z 0.
Proof. intros E. apply (f_equal val) in E. vm_compute in E. discriminate E. Qed.

(** ** packing *)
Lemma list_eqb_sound {A} (eqb : A -> A -> bool) : (forall a b, eqb a b = true -> a = b) -> forall l l', list_eqb eqb l l' = true -> l = l'.
Proof. intros H l. induction l as [| x l IH]; intros [| y l'] E; cbn in E; try discriminate; [reflexivity |]. apply andb_true_iff in E. destruct E as [E1 E2]. f_equal; [apply H; exact E1 | apply IH; exact E2]. Qed.
Lemma beq_377_sound a b : beq_377 a b = true -> a = b.
Proof.
  destruct a as [[[x1 y1] z1] t1], b as [[[x2 y2] z2] t2]. unfold beq_377. intros E. rewrite !andb_true_iff in E. destruct E as [[[E1 E2] E3] E4].
  assert (S : forall l l', list_eqb (list_eqb Z.eqb) l l' = true -> l = l') by (apply list_eqb_sound; apply list_eqb_sound; intros u v; apply Z.eqb_eq). rewrite (S _ _ E1), (S _ _ E2), (S _ _ E3), (S _ _ E4). reflexivity.
Qed.
Lemma pack_one x : 0 <= x < MODULUS_377_INT -> exists l, int_to_array x 16 16 (Some 25%nat) = Some l /\ within 25 1 cmax [l] /\ row [l] 0 = x.
Proof.
  intros Hx. assert (B : MODULUS_377_INT < 2 ^ (16 * Z.of_nat 25)) by (vm_compute; reflexivity). assert (B' : MODULUS_377_INT <= cmax) by (vm_compute; discriminate).
  destruct (int_to_array_ok x 16 16 25 ltac:(lia) ltac:(lia)) as (l & E & D & V). exists l. split; [exact E |]. split; [| exact V]. split; [split; [discriminate | repeat constructor; apply D] |]. split; [reflexivity |]. intros i Hi. assert (i = 0%nat) by lia. subst i. unfold row. cbn [nth]. lia.
Qed.
Lemma pack_ok x y z t : 0 <= x < MODULUS_377_INT -> 0 <= y < MODULUS_377_INT -> 0 <= z < MODULUS_377_INT -> 0 <= t < MODULUS_377_INT ->
  exists c, pack [x; y; z; t] = Some c /\ packed 25 1 cmax c /\ lane_point PROJECTIVE c 0 = Pt false (Some [FE (x mod MODULUS_377_INT) MODULUS_377_INT; FE (y mod MODULUS_377_INT) MODULUS_377_INT; FE (z mod MODULUS_377_INT) MODULUS_377_INT; FE (t mod MODULUS_377_INT) MODULUS_377_INT]) PROJECTIVE.
Proof.
  intros Hx Hy Hz Ht. destruct (pack_one x Hx) as (a & E1 & W1 & R1), (pack_one y Hy) as (b & E2 & W2 & R2), (pack_one z Hz) as (c & E3 & W3 & R3), (pack_one t Ht) as (d & E4 & W4 & R4).
  exists ([a], [b], [c], [d]). split; [| split; [unfold packed; auto |]].
  - unfold pack, int_list_to_array. change U16_EXT_CHUNK_NUM with 25%nat. cbn [map]. rewrite E1, E2, E3, E4. reflexivity.
  - unfold lane_point, residue. rewrite R1, R2, R3, R4. reflexivity.
Qed.
Lemma unpack_row a : within 25 1 cmax a -> array_to_int (hd [] a) 16 = row a 0.
Proof. intros ((_ & D) & L & _). destruct a as [| r [| ? ?]]; try discriminate L. apply array_to_int_value; [lia |]. inversion D; subst. match goal with H : digits _ _ r |- _ => apply H end. Qed.

Section Msm.
Variable g : abelian_group.
Variable point : g -> option (F377 * F377).
Hypothesis CP : curve_points (of_Z 0) (of_Z 1) g point.
Hypothesis NT : no_order_two point.
Notation img := (image p377 (-1) S_377 T_377 g point).
(** a packed point stands for the group element whose image it holds *)
Definition rep (c : coords) (x : g) : Prop := edwards_lanes 1 c (fun _ => img x).
Let D := of_Z TWIST_D_INT : F377.

Lemma extended_unique (P Q : F377 * F377) o : extended_point P o -> extended_point Q o -> P = Q.
Proof.
  intros (c & E & X & Y & Z & T & F & N & EX & EY & _) (c' & E' & X' & Y' & Z' & T' & F' & N' & EX' & EY' & _). rewrite E in E'. injection E' as <-.
  apply forall2_4 in F. destruct F as (u1 & u2 & u3 & u4 & EL & [_ A1] & [_ A2] & [_ A3] & [_ A4]). subst c. apply forall2_4 in F'. destruct F' as (w1 & w2 & w3 & w4 & EL & [_ B1] & [_ B2] & [_ B3] & [_ B4]). injection EL as <- <- <- <-.
  destruct P as [x y], Q as [x' y']. cbn [fst snd] in *. subst X Y Z T X' Y' Z' T'. f_equal; apply (mul_cancel p377 Hp (of_Z (fe_value u3))); try assumption.
  - rewrite <- !(Rmul_comm (F_R (Fp_field p377 Hp)) _ (of_Z (fe_value u3))). congruence.
  - rewrite <- !(Rmul_comm (F_R (Fp_field p377 Hp)) _ (of_Z (fe_value u3))). congruence.
Qed.
Lemma implementation : implements rep padd_377 pdul_377 beq_377 blank_377.
Proof.
  constructor.
  - intros a x y [_ H1] [_ H2]. specialize (H1 0%nat ltac:(lia)). specialize (H2 0%nat ltac:(lia)). apply (image_injective p377 Hp TWIST_D_INT (-1) S_377 MA_377 S_377 T_377 _ _ parameters two_377 g point CP NT). exact (extended_unique _ _ _ H1 H2).
  - intros a b x y H1 H2. destruct (C53_edwards_addition 1 a b _ _ (fun _ => img (gadd x y)) H1 H2) as (c & E & R). { intros _ _. exact (image_add p377 Hp TWIST_D_INT (-1) S_377 MA_377 S_377 T_377 _ _ parameters two_377 g point CP NT x y). } unfold padd_377. rewrite E. exact R.
  - intros a x H. destruct (C53_edwards_doubling 1 a _ (fun _ => img (gadd x x)) H) as (c & E & R).
    { intros _ _. split; [exact (image_on p377 Hp TWIST_D_INT (-1) S_377 MA_377 S_377 T_377 _ _ parameters two_377 g point CP NT x) | exact (image_add p377 Hp TWIST_D_INT (-1) S_377 MA_377 S_377 T_377 _ _ parameters two_377 g point CP NT x x)]. } unfold pdul_377. rewrite E. exact R.
  - exact beq_377_sound.
  - assert (P1 : 1 < MODULUS_377_INT) by (vm_compute; reflexivity). destruct (pack_ok 0 1 1 0 ltac:(lia) ltac:(lia) ltac:(lia) ltac:(lia)) as (c & E & K & L). unfold blank_377. rewrite E. split; [exact K |]. intros i Hi. assert (i = 0%nat) by lia. subst i. rewrite L. cbn beta. rewrite (image_zero p377 (-1) S_377 T_377 _ _ g point CP).
    eexists. split; [reflexivity |]. exists (of_Z 0), (of_Z 1), (of_Z 1), (of_Z 0). split; [repeat (constructor; [split; [reflexivity | apply val_inj; vm_compute; reflexivity] |]); constructor |]. split; [exact one_not_zero |]. cbn [fst snd]. repeat split; apply val_inj; vm_compute; reflexivity.
Qed.
Lemma negation c x : rep c x -> rep (pneg_377 c) (gopp x).
Proof.
  intros H. destruct (C53_edwards_negation 1 c _ H) as (c3 & E & K & L). unfold pneg_377. rewrite E. split; [exact K |]. intros i Hi. specialize (L i Hi). cbn beta in *. cbn [or_blank]. rewrite (image_opp p377 Hp TWIST_D_INT (-1) S_377 MA_377 S_377 T_377 _ _ parameters two_377 g point CP NT x). exact L.
Qed.
Lemma load_ok s : tcs_377 = Some s -> forall pts xs, Forall2 (fun q x => point x = Some (of_Z (fst q), of_Z (snd q))) pts xs -> exists ps, load s pts = Some ps /\ Forall2 rep ps xs.
Proof.
  intros Hs pts xs H. induction H as [| [x y] u pts xs E _ (ps & E' & R)]; [exists []; split; [reflexivity | constructor] |]. cbn [fst snd] in E.
  assert (NY : of_Z y <> (of_Z 0 : F377)) by (exact (NT _ _ _ E)). pose proof (good_u1 p377 Hp TWIST_D_INT (-1) S_377 MA_377 S_377 T_377 _ _ parameters two_377 g point CP NT u _ _ E) as NU.
  pose proof (C52_int_coordinates p377 Hp (-1) TWIST_D_INT (-1) S_377 MA_377 S_377 T_377 s Hs _ _ parameters x y NY NU) as IC. destruct (twisted al sl tl (of_Z x, of_Z y)) as [X Y] eqn:TW.
  assert (VR : forall f : F377, 0 <= val f < MODULUS_377_INT) by (intros f; rewrite <- p377_val; apply val_range). assert (P1 : 1 < MODULUS_377_INT) by (vm_compute; reflexivity).
  destruct (pack_ok (val X) (val Y) 1 (val (f_mul X Y)) (VR X) (VR Y) ltac:(lia) (VR _)) as (c & EP & K & L). exists (c :: ps). split.
  - unfold load in *. cbn [map sequence_opt fst snd]. rewrite IC, EP, E'. reflexivity.
  - constructor; [| exact R]. split; [exact K |]. intros i Hi. assert (i = 0%nat) by lia. subst i. rewrite L. cbn beta. unfold image. rewrite E, TW. eexists. split; [reflexivity |]. exists X, Y, (of_Z 1), (f_mul X Y).
    assert (EL : forall f : F377, elem f (FE (val f mod MODULUS_377_INT) MODULUS_377_INT)) by (intros f; split; [reflexivity |]; cbn [fe_value]; rewrite Z.mod_small by apply VR; apply of_Z_val).
    split; [constructor; [apply EL | constructor; [apply EL | constructor; [split; [reflexivity | apply val_inj; vm_compute; reflexivity] | constructor; [apply EL | constructor]]]] |]. split; [exact one_not_zero |]. cbn [fst snd].
    assert (M1 : forall f : F377, f_mul f (of_Z 1) = f) by (intros f; rewrite (Rmul_comm (F_R (Fp_field p377 Hp))); apply (Rmul_1_l (F_R (Fp_field p377 Hp)))). rewrite !M1. auto.
Qed.
(** what the caller reads: the coordinates of the element, or, for the neutral element, (-1, 0) *)
Definition answer (x : g) (r : Z * Z) : Prop :=
  0 <= fst r < MODULUS_377_INT /\ 0 <= snd r < MODULUS_377_INT /\
  match point x with Some P => P = (of_Z (fst r), of_Z (snd r)) | None => r = (MODULUS_377_INT - 1, 0) end.
Lemma finish_ok s c x : tcs_377 = Some s -> rep c x -> exists r, finish s c = Some r /\ answer x r.
Proof.
  intros Hs [K H]. specialize (H 0%nat ltac:(lia)). cbn beta in H. destruct c as [[[a b] c] d]. pose proof K as (W1 & W2 & W3 & W4).
  assert (C : forall v, fe_copy (FE 0 (Zpos p377)) (Some v) = FE v (Zpos p377)) by (intros v; unfold fe_copy; destruct (Z.eqb_spec v 0) as [-> |]; reflexivity).
  assert (G : exists o, twisted_generate_point s (map CInt (unpack (a, b, c, d))) false false = Some o /\ extended_point (img x) o /\ pt_zero o = false).
  { cbn [unpack map]. rewrite !unpack_row by assumption. pose proof Hs as Hs'. unfold tcs_377 in Hs'. rewrite <- p377_val in Hs'. destruct (tcs_shape _ _ _ _ _ _ _ _ _ Hs') as (k & ->). unfold twisted_generate_point, new_twisted, formal_twisted. cbn [length Nat.eqb orb negb formal map t_zero]. rewrite !C. eexists. split; [reflexivity |]. split; [| reflexivity].
    destruct H as (l & E & X & Y & Z & T & F & N & EX & EY & ET). cbn [lane_point pt_coords] in E. injection E as <-. eexists. split; [reflexivity |]. exists X, Y, Z, T. split; [| auto]. apply forall2_4 in F. destruct F as (u1 & u2 & u3 & u4 & EL & A1 & A2 & A3 & A4). injection EL as <- <- <- <-.
    assert (RS : forall (u : F377) e, elem u (residue e 0) -> elem u (FE (row e 0) (Zpos p377))). { intros u e [_ <-]. split; [reflexivity |]. cbn [residue fe_value]. apply of_Z_eq. rewrite p377_val. apply eqm_sym. apply eqm_mod. }
    constructor; [apply RS; exact A1 | constructor; [apply RS; exact A2 | constructor; [apply RS; exact A3 | constructor; [apply RS; exact A4 | constructor]]]]. }
  destruct G as (o & E & X & Z). unfold finish. rewrite E. assert (VR : forall f : F377, 0 <= val f < MODULUS_377_INT) by (intros f; rewrite <- p377_val; apply val_range).
  unfold image in X. destruct (point x) as [[x1 y1] |] eqn:EP.
  - destruct (C52_convert_to_affine p377 Hp (-1) TWIST_D_INT (-1) S_377 MA_377 S_377 T_377 s Hs _ _ parameters two_377 three_377 x1 y1 o) as (k & ->); try assumption; [exact (NT _ _ _ EP) | exact (good_u1 p377 Hp TWIST_D_INT (-1) S_377 MA_377 S_377 T_377 _ _ parameters two_377 g point CP NT x _ _ EP) | exact (good_alpha p377 Hp TWIST_D_INT (-1) S_377 MA_377 S_377 T_377 _ _ parameters g point CP NT x _ _ EP) |].
    eexists. split; [reflexivity |]. unfold answer. rewrite EP. cbn [fst snd fe_value]. split; [apply VR |]. split; [apply VR |]. rewrite !of_Z_val. reflexivity.
  - destruct (C52_identity_convert_refuted p377 Hp (-1) TWIST_D_INT (-1) S_377 MA_377 S_377 T_377 s Hs _ _ parameters two_377 three_377 o X Z) as (k & -> & _). eexists. split; [reflexivity |]. unfold answer. rewrite EP. cbn [fst snd fe_value]. split; [apply VR |]. split; [split; [lia | vm_compute; reflexivity] |]. reflexivity.
Qed.
Theorem C54_end_to_end : forall c k ss (pts : list (Z * Z)) (xs : list g), 0 < c <= 32 -> (0 < k)%nat -> ss <> [] -> (length ss mod k = 0)%nat -> length pts = length ss ->
  Forall2 (fun q x => point x = Some (of_Z (fst q), of_Z (snd q))) pts xs -> Forall (fun s => 0 <= s < 2 ^ 254) ss ->
  exists r, msm_377 c k ss pts = Some r /\ answer (msm ss xs) r.
Proof.
  intros c k ss pts xs Hc Hk Hs Hm L P HS. destruct tcs_377_exists as [s Es]. destruct (load_ok s Es pts xs P) as (ps & E & R). assert (LP : length ps = length ss) by (rewrite <- L; apply Forall2_length in R; apply Forall2_length in P; congruence).
  destruct (C54_twisted rep padd_377 pdul_377 beq_377 blank_377 implementation c k ss ps xs Hc Hk Hs Hm LP R HS) as (bss & r & E2 & R2). destruct (finish_ok s r _ Es R2) as (q & E3 & A). exists q. split; [| exact A]. unfold msm_377. rewrite Es, E, E2. exact E3.
Qed.
Theorem C54_signed_end_to_end : forall c k ss (pts : list (Z * Z)) (xs : list g), 2 <= c <= 32 -> (0 < k)%nat -> ss <> [] -> (length ss mod k = 0)%nat -> length pts = length ss ->
  Forall2 (fun q x => point x = Some (of_Z (fst q), of_Z (snd q))) pts xs -> Forall (fun s => 0 <= s < bls12_377_r) ss ->
  exists r, msm_377_signed c k ss pts = Some r /\ answer (msm ss xs) r.
Proof.
  intros c k ss pts xs Hc Hk Hs Hm L P HS. destruct tcs_377_exists as [s Es]. destruct (load_ok s Es pts xs P) as (ps & E & R). assert (LP : length ps = length ss) by (rewrite <- L; apply Forall2_length in R; apply Forall2_length in P; congruence).
  destruct (C54_signed rep padd_377 pdul_377 pneg_377 beq_377 blank_377 implementation negation c k ss ps xs Hc Hk Hs Hm LP R HS) as (bss & r & E2 & R2). destruct (finish_ok s r _ Es R2) as (q & E3 & A). exists q. split; [| exact A]. unfold msm_377_signed. rewrite Es, E, E2. exact E3.
Qed.
End Msm.

(** a group in which an odd multiple of every element vanishes, such as the subgroup of order r, has no element of order two *)
Theorem C54_odd_order : forall (g : abelian_group) (point : g -> option (F377 * F377)), curve_points (of_Z 0) (of_Z 1) g point ->
  forall n, Z.odd n = true -> (forall x : g, gmul n x = gzero) -> no_order_two point.
Proof.
  intros g point CP n O A x X Y E Z. subst Y. pose proof (cp_add _ _ _ _ CP x x) as C. rewrite E in C.
  assert (Z2 : point (gadd x x) = None). { inversion C as [| | | ? ? ? ? ? ? ? N | ? ? ? ? l N]; subst; [congruence | contradiction N; reflexivity |]. exfalso. apply N. apply val_inj. vm_compute. reflexivity. }
  assert (D : gadd x x = gzero) by (apply (cp_injective _ _ _ _ CP); rewrite Z2; symmetry; apply (cp_zero _ _ _ _ CP)).
  assert (N2 : forall m, gmul (2 * m) x = gzero). { intros m. replace (2 * m) with (m + m) by lia. rewrite gmul_add_l, <- gmul_add_r, D. apply gmul_zero. }
  apply Z.odd_spec in O. destruct O as [m ->]. specialize (A x). rewrite gmul_add_l, N2, gadd_zero in A. assert (G1 : gmul 1 x = x) by (cbn; rewrite gadd_comm; apply gadd_zero). rewrite G1 in A. rewrite A, (cp_zero _ _ _ _ CP) in E. discriminate E.
Qed.
Print Assumptions C54_end_to_end. Print Assumptions C54_signed_end_to_end. Print Assumptions C54_odd_order.

(** the group of order three: infinity, (0, 1) and (0, -1) *)
Inductive three := T0 | T1 | T2.
Definition three_add (x y : three) : three := match x, y with T0, z => z | z, T0 => z | T1, T1 => T2 | T2, T2 => T1 | _, _ => T0 end.
Definition three_opp (x : three) : three := match x with T0 => T0 | T1 => T2 | T2 => T1 end.
Definition three_group : abelian_group.
Proof. refine (AG three three_add T0 three_opp _ _ _ _); repeat intros []; reflexivity. Defined.
Definition three_point (x : three_group) : option (F377 * F377) := match x with T0 => None | T1 => Some (of_Z 0, of_Z 1) | T2 => Some (of_Z 0, of_Z (-1)) end.
Example C54_end_to_end_example : curve_points (of_Z 0) (of_Z 1) three_group three_point /\ no_order_two three_point /\ (forall x : three_group, gmul 3 x = gzero) /\
  msm [5; 3] ([T1; T2] : list three_group) = T2 /\ three_point T2 = Some (of_Z 0, of_Z (MODULUS_377_INT - 1)).
Proof.
  assert (NE : forall u v, negb ((u mod MODULUS_377_INT =? v mod MODULUS_377_INT)) = true -> @of_Z p377 u <> of_Z v) by (intros u v H E; apply (f_equal val) in E; cbn [val of_Z] in E; rewrite p377_val in E; rewrite E, Z.eqb_refl in H; discriminate H).
  split; [constructor |].
  - intros [] [] E; first [reflexivity | discriminate E].
  - intros []; cbn [three_point on_curve]; [exact I | |]; apply val_inj; vm_compute; reflexivity.
  - reflexivity.
  - intros [] []; cbn [three_point gadd three_group three_add]; [apply ct_zero_l | apply ct_zero_l | apply ct_zero_l | apply ct_zero_r | | | apply ct_zero_r | | ].
    + apply (ct_tangent _ _ _ _ _ _ (of_Z 0)); [intros E; apply (f_equal val) in E; vm_compute in E; discriminate E | apply val_inj; vm_compute; reflexivity ..].
    + replace (@of_Z p377 (-1)) with (f_opp (@of_Z p377 1)) by (apply val_inj; vm_compute; reflexivity). constructor.
    + replace (@of_Z p377 1) with (f_opp (@of_Z p377 (-1))) by (apply val_inj; vm_compute; reflexivity). constructor.
    + apply (ct_tangent _ _ _ _ _ _ (of_Z 0)); [intros E; apply (f_equal val) in E; vm_compute in E; discriminate E | apply val_inj; vm_compute; reflexivity ..].
  - split; [intros [] X Y E; [discriminate E | |]; cbn [three_point] in E; apply (f_equal (fun o => match o with Some P => snd P | None => of_Z 0 end)) in E; cbn [snd] in E; rewrite <- E; apply NE; vm_compute; reflexivity |].
    split; [intros []; reflexivity |]. split; [reflexivity |]. cbn [three_point]. do 2 f_equal. apply val_inj. vm_compute. reflexivity.
Qed.
