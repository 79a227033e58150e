(** C50: the XYZZ formulas implement the chord and tangent law (Spec_curve) over every prime field. *)
From Coq Require Import ZArith List Bool Lia Znumtheory Field.
From Verif Require Import Base.Modeq Base.Fermat Base.Fp Ec.Model_reffield Ec.Model_curve Ec.Spec_curve Ec.Prop_reffield Ec.Proof_curve.
Import ListNotations.

(** the shape of a coordinate system *)
Lemma wcs_shape p a b s : wcs_new (Zpos p) a b = Some s -> s = WCS (FE 0 (Zpos p)) (FE 1 (Zpos p)) (FE a (Zpos p)) (FE b (Zpos p)).
Proof.
  unfold wcs_new, fe_new, fe_copy. cbn [fe_prime]. intros H. destruct ((0 <? 0)%Z || (Zpos p <=? 0)%Z); [discriminate |]. destruct ((1 <? 0)%Z || (Zpos p <=? 1)%Z); [discriminate |].
  injection H as <-. destruct (Z.eqb_spec a 0) as [-> |], (Z.eqb_spec b 0) as [-> |]; reflexivity.
Qed.
(** an XYZZ point object stands for a point of the curve *)
Definition xyzz_point {p} (P : option (Fp p * Fp p)) (o : pt) : Prop :=
  match P with
  | None => pt_zero o = true /\ pt_coords o = None
  | Some P => pt_zero o = false /\ exists c, pt_coords o = Some c /\ xyzz P c
  end.

Section XYZZ.
Variable p : positive.
Hypothesis Hp : prime (Zpos p).
Let P2 : (2 <= Zpos p)%Z := prime_ge_2 _ Hp.
Notation F := (Fp p).
Local Open Scope fp_scope.
Add Field FpF : (Fp_field p Hp).

Lemma mul_nz (x y : F) : x <> 0 -> y <> 0 -> x * y <> 0.
Proof. intros Hx Hy E. apply Hx. assert (E' : x = x * y / y) by (field; exact Hy). rewrite E', E. field. exact Hy. Qed.
Lemma mul_zero (x y : F) : x * y = 0 -> x = 0 \/ y = 0.
Proof. intros E. destruct (f_eq_dec x 0) as [| N]; [left; assumption |]. destruct (f_eq_dec y 0) as [| N']; [right; assumption |]. destruct (mul_nz x y N N' E). Qed.
Lemma sub_zero (x y : F) : x - y = 0 -> x = y.
Proof. intros E. assert (E' : x = x - y + y) by ring. rewrite E', E. ring. Qed.
Lemma sub_nz (x y : F) : x <> y -> x - y <> 0.
Proof. intros N E. apply N. apply sub_zero. exact E. Qed.
Lemma mul_cancel (c x y : F) : c <> 0 -> c * x = c * y -> x = y.
Proof. intros N E. apply sub_zero. assert (Z : c * (x - y) = 0) by (replace (c * (x - y)) with (c * x - c * y) by ring; rewrite E; ring). destruct (mul_zero _ _ Z); [contradiction | assumption]. Qed.

(** ** the law keeps points on the curve *)
Lemma chord_coefficients (a b x1 y1 x2 y2 l : F) : on_curve a b (Some (x1, y1)) -> on_curve a b (Some (x2, y2)) -> x1 <> x2 -> l * (x2 - x1) = y2 - y1 ->
  y2 = y1 + l * (x2 - x1) /\ a = l * (y1 + y2) - (x1 * x1 + x1 * x2 + x2 * x2) /\ b = y1 * y1 - x1 * x1 * x1 - a * x1.
Proof.
  cbn [on_curve]. intros H1 H2 N L. split; [rewrite L; ring |]. split; [| rewrite H1; ring].
  apply (mul_cancel (x2 - x1)); [apply sub_nz; congruence |]. transitivity (y2 * y2 - y1 * y1 - x2 * x2 * x2 + x1 * x1 * x1); [rewrite H1, H2; ring |].
  transitivity ((y2 - y1) * (y1 + y2) - (x2 - x1) * (x1 * x1 + x1 * x2 + x2 * x2)); [ring |]. rewrite <- L. ring.
Qed.
Theorem C50_law_on_curve : forall (a b : F) P Q R, on_curve a b P -> on_curve a b Q -> chord_tangent a P Q R -> on_curve a b R.
Proof.
  intros a b P Q R HP HQ H. destruct H as [Q | P | x y | x1 y1 x2 y2 x3 y3 l N L E3 E4 | x y x3 y3 l N L E3 E4]; try assumption; [exact I | |].
  - destruct (chord_coefficients a b x1 y1 x2 y2 l HP HQ N L) as (Y2 & A & B). cbn [on_curve]. rewrite B, A, Y2, E4, E3. ring.
  - cbn [on_curve] in *. assert (A : a = l * (y + y) - (x * x + x * x + x * x)) by (rewrite L; ring). assert (B : b = y * y - x * x * x - a * x) by (rewrite HP; ring). rewrite B, A, E4, E3. ring.
Qed.
(** ** and commutes *)
Theorem C50_law_commutative : forall (a : F) P Q R, chord_tangent a P Q R -> chord_tangent a Q P R.
Proof.
  intros a P Q R H. destruct H as [Q | P | x y | x1 y1 x2 y2 x3 y3 l N L E3 E4 | x y x3 y3 l N L E3 E4].
  - constructor.
  - constructor.
  - replace (chord_tangent a (Some (x, - y)) (Some (x, y)) None) with (chord_tangent a (Some (x, - y)) (Some (x, - - y)) None) by (do 3 f_equal; ring). constructor.
  - apply (ct_chord _ a x2 y2 x1 y1 x3 y3 l); [congruence | | rewrite E3; ring |]. { transitivity (- (y2 - y1)); [rewrite <- L; ring | ring]. }
    rewrite E4. assert (Y2 : y2 = y1 + l * (x2 - x1)) by (rewrite L; ring). rewrite Y2. ring.
  - apply (ct_tangent _ a x y x3 y3 l); assumption.
Qed.

Variables ai bi : Z.
Variable s : wcs.
Hypothesis Hs : wcs_new (Zpos p) ai bi = Some s.
Let a : F := of_Z ai.

Lemma xyzz_el (P : F * F) (X Y ZZ ZZZ : F) : ZZ <> 0 -> ZZZ <> 0 -> ZZ * ZZ * ZZ = ZZZ * ZZZ -> fst P * ZZ = X -> snd P * ZZZ = Y -> @xyzz p P [FE (val X) (Zpos p); FE (val Y) (Zpos p); FE (val ZZ) (Zpos p); FE (val ZZZ) (Zpos p)].
Proof. intros. exists X, Y, ZZ, ZZZ. split; [repeat constructor; apply of_Z_val |]. auto. Qed.

(** coordinates returned by the chord formulas, whatever the points *)
Lemma add_general_value k1 k2 (x1 y1 x2 y2 : F) c1 c2 :
  xyzz (x1, y1) c1 -> xyzz (x2, y2) c2 -> exists X Y ZZ ZZZ zz1 zzz1 zz2 zzz2 : F,
    xyzz_add_general s (Pt false (Some c1) k1) (Pt false (Some c2) k2) = Some (Pt false (Some [FE (val X) (Zpos p); FE (val Y) (Zpos p); FE (val ZZ) (Zpos p); FE (val ZZZ) (Zpos p)]) XYZZ) /\
    zz1 <> 0 /\ zzz1 <> 0 /\ zz2 <> 0 /\ zzz2 <> 0 /\ zz1 * zz1 * zz1 = zzz1 * zzz1 /\ zz2 * zz2 * zz2 = zzz2 * zzz2 /\
    let u := zz1 * zz2 in let w := zzz1 * zzz2 in let dx := x2 - x1 in let dy := y2 - y1 in
    ZZ = u * (u * dx) * (u * dx) /\ ZZZ = w * (u * dx) * (u * dx) * (u * dx) /\
    X = (w * dy) * (w * dy) - (u * dx) * (u * dx) * (u * dx) - (x1 * u + x1 * u) * (u * dx) * (u * dx) /\
    Y = (w * dy) * (x1 * u * (u * dx) * (u * dx) - X) - y1 * w * (u * dx) * (u * dx) * (u * dx).
Proof.
  intros (X1 & Y1 & ZZ1 & ZZZ1 & F1 & N1 & N1' & R1 & EX1 & EY1) (X2 & Y2 & ZZ2 & ZZZ2 & F2 & N2 & N2' & R2 & EX2 & EY2). cbn [fst snd] in *.
  open4 F1. open4 F2. unfold xyzz_add_general. cbn [pt_coords]. fsteps. unfold new_xyzz, formal_xyzz. cbn [length Nat.eqb orb negb formal map].
  do 4 eexists. exists ZZ1, ZZZ1, ZZ2, ZZZ2. split; [reflexivity |]. do 4 (split; [assumption |]). split; [exact R1 |]. split; [exact R2 |]. cbv zeta.
  rewrite E, E0, E1, E2, E3, E4, E5, E6. clear E E0 E1 E2 E3 E4 E5 E6. subst X1 Y1 X2 Y2. split; [ring |]. split; [ring |]. split; ring.
Qed.

(** chord: distinct x-coordinates *)
Theorem C50_add_general : forall k1 k2 (P Q : F * F) c1 c2, xyzz P c1 -> xyzz Q c2 -> fst P <> fst Q ->
  exists c3 R, xyzz_add_general s (Pt false (Some c1) k1) (Pt false (Some c2) k2) = Some (Pt false (Some c3) XYZZ) /\ chord_tangent a (Some P) (Some Q) (Some R) /\ xyzz R c3.
Proof.
  intros k1 k2 [x1 y1] [x2 y2] c1 c2 H1 H2 N. cbn [fst] in N. destruct (add_general_value k1 k2 x1 y1 x2 y2 c1 c2 H1 H2) as (X & Y & ZZ & ZZZ & zz1 & zzz1 & zz2 & zzz2 & E & N1 & N2 & N3 & N4 & R1 & R2 & E1 & E2 & E3 & E4).
  assert (ND : x2 - x1 <> 0) by (apply sub_nz; congruence). set (l := (y2 - y1) / (x2 - x1)). set (x3 := l * l - x1 - x2). set (y3 := l * (x1 - x3) - y1).
  eexists. exists (x3, y3). split; [exact E |]. split; [apply (ct_chord _ a x1 y1 x2 y2 x3 y3 l); [exact N | unfold l; field; exact ND | reflexivity | reflexivity] |].
  assert (RR : zz1 * zz2 * (zz1 * zz2) * (zz1 * zz2) = zzz1 * zzz2 * (zzz1 * zzz2)) by (transitivity (zz1 * zz1 * zz1 * (zz2 * zz2 * zz2)); [ring | rewrite R1, R2; ring]).
  revert E1 E2 E3 E4. cbv zeta. set (u := zz1 * zz2) in *. set (w := zzz1 * zzz2) in *. assert (U : u <> 0) by (apply mul_nz; assumption). assert (W : w <> 0) by (apply mul_nz; assumption). intros E1 E2 E3 E4.
  set (dx := x2 - x1) in *. set (dy := y2 - y1) in *. assert (X2 : x2 = x1 + dx) by (unfold dx; ring). assert (EX : x3 * ZZ = X). { rewrite E3, E1. unfold x3, l. fold dx. rewrite X2. transitivity (dy * dy * (u * u * u) - (x1 + x1 + dx) * u * u * u * dx * dx); [field; exact ND |]. rewrite RR. transitivity (w * dy * (w * dy) - (x1 + x1 + dx) * u * u * u * dx * dx); [ring | ring]. }
  apply xyzz_el; cbn [fst snd].
  - rewrite E1. repeat apply mul_nz; assumption.
  - rewrite E2. repeat apply mul_nz; assumption.
  - rewrite E1, E2. transitivity (u * u * u * (u * dx) * (u * dx) * (u * dx) * (u * dx) * (u * dx) * (u * dx)); [ring |]. rewrite RR. ring.
  - exact EX.
  - rewrite E4, <- EX, E2, E1. unfold y3, l. fold dx. transitivity (w * dy * (x1 - x3) * u * u * u * dx * dx - y1 * w * u * u * u * dx * dx * dx); [field; exact ND | ring].
Qed.
(** tangent: doubling a point with y not zero *)
Theorem C50_double_general : forall k (P : F * F) c, xyzz P c -> snd P + snd P <> 0 ->
  exists c3 R, xyzz_double_general s (Pt false (Some c) k) = Some (Pt false (Some c3) XYZZ) /\ chord_tangent a (Some P) (Some P) (Some R) /\ xyzz R c3.
Proof.
  intros k [x y] c (X & Y & ZZ & ZZZ & F1 & N1 & N1' & R1 & EX1 & EY1) N. cbn [fst snd] in *. open4 F1. rewrite (wcs_shape _ _ _ _ Hs). unfold xyzz_double_general. cbn [pt_coords w_a]. fsteps. unfold new_xyzz, formal_xyzz. cbn [length Nat.eqb orb negb formal map]. rewrite E, E0, E1, E2. clear E E0 E1 E2. fold a.
  set (l := (x * x + x * x + x * x + a) / (y + y)). set (xr := l * l - x - x). set (yr := l * (x - xr) - y). eexists. exists (xr, yr). split; [reflexivity |]. split; [apply (ct_tangent _ a x y xr yr l); [exact N | unfold l; field; exact N | reflexivity | reflexivity] |].
  assert (NY : Y + Y <> 0). { subst Y. replace (y * ZZZ + y * ZZZ) with ((y + y) * ZZZ) by ring. apply mul_nz; assumption. }
  assert (EX : xr * ((Y + Y) * (Y + Y) * ZZ) = (X * X + X * X + X * X + a * (ZZ * ZZ)) * (X * X + X * X + X * X + a * (ZZ * ZZ)) - (X * ((Y + Y) * (Y + Y)) + X * ((Y + Y) * (Y + Y)))).
  { subst X Y. unfold xr, l. transitivity ((x * x + x * x + x * x + a) * (x * x + x * x + x * x + a) * (ZZZ * ZZZ) * ZZ - (x + x) * ((y + y) * (y + y) * (ZZZ * ZZZ) * ZZ)); [field; exact N |]. rewrite <- R1. transitivity ((x * x + x * x + x * x + a) * (x * x + x * x + x * x + a) * (ZZ * ZZ * ZZ * ZZ) - (x + x) * ZZ * ((y + y) * (y + y) * (ZZ * ZZ * ZZ))); [ring |]. rewrite R1 at 2. ring. }
  apply xyzz_el; cbn [fst snd].
  - repeat apply mul_nz; assumption.
  - repeat apply mul_nz; assumption.
  - transitivity ((Y + Y) * (Y + Y) * (Y + Y) * (Y + Y) * (Y + Y) * (Y + Y) * (ZZ * ZZ * ZZ)); [ring |]. rewrite R1. ring.
  - exact EX.
  - rewrite <- EX. subst X Y. unfold yr, l. transitivity ((x * x + x * x + x * x + a) * (x - xr) * (y + y) * (y + y) * (ZZZ * ZZZ) * ZZZ * ZZZ - y * ((y + y) * (y + y) * (y + y) * (ZZZ * ZZZ) * ZZZ * ZZZ)); [field; exact N |]. rewrite <- R1 at 1. ring.
Qed.

Lemma list_eq_iff x y : list_eq x y = true <-> x = y.
Proof.
  revert y. induction x as [| [v q] x IH]; destruct y as [| [w r] y]; cbn [list_eq]; try (split; [discriminate | congruence]); [split; reflexivity |]. rewrite andb_true_iff, IH. unfold fe_eq. cbn [fe_value fe_prime]. rewrite andb_true_iff, !Z.eqb_eq. split; [intros [[-> ->] ->]; reflexivity | intros E; injection E as -> -> ->; auto].
Qed.
Lemma xyzz_length (P : F * F) c : xyzz P c -> length c = 4%nat.
Proof. intros (X & Y & ZZ & ZZZ & F1 & _). apply forall2_4 in F1. destruct F1 as (u1 & u2 & u3 & u4 & -> & _). reflexivity. Qed.
Lemma xyzz_unique (P Q : F * F) c : xyzz P c -> xyzz Q c -> P = Q.
Proof.
  destruct P as [x y], Q as [x' y']. intros (X & Y & ZZ & ZZZ & F1 & N1 & N1' & _ & EX & EY) (X' & Y' & ZZ' & ZZZ' & F2 & N2 & N2' & _ & EX' & EY'). cbn [fst snd] in *. apply forall2_4 in F1. destruct F1 as (u1 & u2 & u3 & u4 & -> & [_ A1] & [_ A2] & [_ A3] & [_ A4]). apply forall2_4 in F2. destruct F2 as (v1 & v2 & v3 & v4 & EL & [_ B1] & [_ B2] & [_ B3] & [_ B4]). injection EL as -> -> -> ->.
  assert (X = X' /\ Y = Y' /\ ZZ = ZZ' /\ ZZZ = ZZZ') as (-> & -> & -> & ->) by (repeat split; congruence). f_equal; [apply (mul_cancel ZZ') | apply (mul_cancel ZZZ')]; try assumption; [transitivity (x * ZZ'); [ring |]; rewrite EX, <- EX'; ring | transitivity (y * ZZZ'); [ring |]; rewrite EY, <- EY'; ring].
Qed.
Lemma copy_xyzz k (P : F * F) c : xyzz P c -> pt_copy (formal_xyzz s) (Pt false (Some c) k) = Some (Pt false (Some c) k).
Proof.
  intros H. pose proof (xyzz_length P c H) as L. unfold pt_copy. cbn [pt_zero pt_coords pt_type]. unfold formal_xyzz. rewrite map_length, L. cbn [Nat.eqb orb negb]. unfold formal. rewrite map_map, map_length, L. cbn [Nat.eqb negb]. rewrite map_id. reflexivity.
Qed.

(** addition of any two points, the zero point included; the two affine points have distinct x-coordinates, or the same
    coordinate lists and a non-zero y. Missing: opposite points, equal points with different coordinates, doubling a point with
    y = 0; the code has no test for them and the statement is false there (the two theorems below) *)
Theorem C50_point_add_partial : forall P Q o1 o2, xyzz_point P o1 -> xyzz_point Q o2 ->
  match P, Q with Some P, Some Q => fst P <> fst Q \/ pt_coords o1 = pt_coords o2 /\ snd P + snd P <> 0 | _, _ => True end ->
  exists R o, xyzz_point_add s o1 o2 = Some o /\ chord_tangent a P Q R /\ xyzz_point R o.
Proof.
  intros P Q [z1 c1 k1] [z2 c2 k2] H1 H2 H. unfold xyzz_point_add. cbn [pt_zero]. destruct Q as [Q |].
  2:{ destruct H2 as [E2 E2']. cbn [pt_zero pt_coords] in E2, E2'. subst z2 c2. exists P. destruct P as [P |].
      - destruct H1 as (E1 & c & E1' & X1). cbn [pt_zero pt_coords] in E1, E1'. subst z1 c1. exists (Pt false (Some c) k1). split; [apply (copy_xyzz k1 P c X1) |]. split; [constructor |]. cbn. split; [reflexivity |]. exists c. auto.
      - destruct H1 as (E1 & E1'). cbn [pt_zero pt_coords] in E1, E1'. subst z1 c1. exists (Pt true None k1). split; [reflexivity |]. split; [constructor | split; reflexivity]. }
  destruct H2 as (E2 & c & E2' & X2). cbn [pt_zero pt_coords] in E2, E2'. subst z2 c2. destruct P as [P |].
  2:{ destruct H1 as (E1 & E1'). cbn [pt_zero pt_coords] in E1, E1'. subst z1 c1. exists (Some Q), (Pt false (Some c) k2). split; [apply (copy_xyzz k2 Q c X2) |]. split; [constructor |]. cbn. split; [reflexivity |]. exists c. auto. }
  destruct H1 as (E1 & c' & E1' & X1). cbn [pt_zero pt_coords] in E1, E1', H. subst z1 c1. unfold pt_eq. cbn [pt_coords]. destruct (list_eq c' c) eqn:EL.
  - apply list_eq_iff in EL. subst c'. assert (P = Q) by (apply (xyzz_unique P Q c); assumption). subst Q. destruct H as [H | [_ H]]; [congruence |]. destruct (C50_double_general k1 P c X1 H) as (c3 & R & E & C & X). exists (Some R), (Pt false (Some c3) XYZZ). split; [exact E |]. split; [exact C |]. split; [reflexivity |]. exists c3. auto.
  - assert (N : fst P <> fst Q). { destruct H as [H | [H _]]; [exact H |]. injection H as H. apply list_eq_iff in H. congruence. }
    destruct (C50_add_general k1 k2 P Q c' c X1 X2 N) as (c3 & R & E & C & X). exists (Some R), (Pt false (Some c3) XYZZ). split; [exact E |]. split; [exact C |]. split; [reflexivity |]. exists c3. auto.
Qed.
Lemma zero_zz (x y z w : F) k (R : option (F * F)) : z = 0 -> ~ xyzz_point R (Pt false (Some [FE (val x) (Zpos p); FE (val y) (Zpos p); FE (val z) (Zpos p); FE (val w) (Zpos p)]) k).
Proof.
  intros Z H. destruct R as [R |]; [| destruct H; discriminate]. destruct H as (_ & c & E & X & Y & ZZ & ZZZ & F1 & N & _). cbn [pt_coords] in E. injection E as <-. apply forall2_4 in F1. destruct F1 as (u1 & u2 & u3 & u4 & EL & [_ A1] & [_ A2] & [_ A3] & [_ A4]). injection EL as <- <- <- <-. cbn [fe_value] in A3. rewrite of_Z_val in A3. congruence.
Qed.
(** FINDING: for points with the same x-coordinate but different coordinate lists (opposite points, or the same point with
    another denominator) the result is not flagged zero, has ZZ = 0, and stands for no point at all *)
Theorem C50_same_x_refuted : forall (P Q : F * F) o1 o2, xyzz_point (Some P) o1 -> xyzz_point (Some Q) o2 -> fst P = fst Q -> pt_coords o1 <> pt_coords o2 ->
  exists o, xyzz_point_add s o1 o2 = Some o /\ forall R : option (F * F), ~ xyzz_point R o.
Proof.
  intros [x1 y1] [x2 y2] [z1 c1 k1] [z2 c2 k2] (E1 & c & E1' & X1) (E2 & c' & E2' & X2) EX N. cbn [pt_zero pt_coords fst] in *. subst z1 c1 z2 c2 x2. unfold xyzz_point_add, pt_eq. cbn [pt_zero pt_coords]. destruct (list_eq c c') eqn:EL; [apply list_eq_iff in EL; congruence |].
  destruct (add_general_value k1 k2 x1 y1 x1 y2 c c' X1 X2) as (X & Y & ZZ & ZZZ & zz1 & zzz1 & zz2 & zzz2 & E & _ & _ & _ & _ & _ & _ & E1 & _). eexists. split; [exact E |]. intros R. apply zero_zz. rewrite E1. ring.
Qed.
(** FINDING: so does doubling a point of order two *)
Theorem C50_double_torsion_refuted : forall (P : F * F) o, xyzz_point (Some P) o -> snd P + snd P = 0 ->
  exists o', xyzz_point_add s o o = Some o' /\ forall R : option (F * F), ~ xyzz_point R o'.
Proof.
  intros [x y] [z1 c1 k1] (E1 & c & E1' & X1) EY. cbn [pt_zero pt_coords snd] in *. subst z1 c1. unfold xyzz_point_add, pt_eq. cbn [pt_zero pt_coords]. replace (list_eq c c) with true by (symmetry; apply list_eq_iff; reflexivity).
  destruct X1 as (X & Y & ZZ & ZZZ & F1 & N1 & N1' & R1 & EX1 & EY1). cbn [fst snd] in *. open4 F1. rewrite (wcs_shape _ _ _ _ Hs). unfold xyzz_double_general. cbn [pt_coords w_a]. fsteps. unfold new_xyzz, formal_xyzz. cbn [length Nat.eqb orb negb formal map]. rewrite E, E0, E1, E2. eexists. split; [reflexivity |]. intros R. apply zero_zz. replace (Y + Y) with ((y + y) * ZZZ) by (rewrite <- EY1; ring). rewrite EY. ring.
Qed.

(** the law is a function *)
Theorem C50_law_functional : forall (A : F) P Q R R', chord_tangent A P Q R -> chord_tangent A P Q R' -> R = R'.
Proof.
  assert (OPP : forall y : F, y = - y -> y + y = 0) by (intros y E; rewrite E at 1; ring).
  intros A P Q R R' H H'. destruct H as [Q | P | x y | x1 y1 x2 y2 x3 y3 l N L E3 E4 | x y x3 y3 l N L E3 E4].
  - inversion H'; subst; reflexivity.
  - inversion H'; subst; reflexivity.
  - inversion H' as [| | | ? ? ? ? ? ? ? N' | ? ? ? ? ? N' ? ? ? EQ1 EQ2]; subst; [reflexivity | congruence | destruct N'; apply OPP; congruence].
  - inversion H' as [| | ? ? EQ1 EQ2 | ? ? ? ? ? ? l' N' L' | ? ? ? ? ? N' ? ? ? EQ1 EQ2]; subst; try congruence. assert (l = l'); [| congruence]. apply (mul_cancel (x2 - x1)); [apply sub_nz; congruence |]. transitivity (y2 - y1); [rewrite <- L; ring | rewrite <- L'; ring].
  - inversion H' as [| | ? ? EQ1 EQ2 | ? ? ? ? ? ? l' N' L' | ? ? ? ? l' N' L']; subst; try congruence; [destruct N; apply OPP; congruence |]. assert (l = l'); [| congruence]. apply (mul_cancel (y + y)); [assumption |]. transitivity (x * x + x * x + x * x + A); [rewrite <- L; ring | rewrite <- L'; ring].
Qed.
(** << n doubles n times *)
Theorem C50_lshift : forall n (P R : F * F) o, xyzz_point (Some P) o -> doublings a n (Some P) (Some R) ->
  exists o', point_lshift (xyzz_double_general s) (formal_xyzz s) o (Z.of_nat n) = Some o' /\ xyzz_point (Some R) o'.
Proof.
  intros n P R o H D. pose proof H as (Z & _). unfold point_lshift. rewrite Z, Nat2Z.id. clear Z. revert P o H D. induction n as [| n IH]; intros P o H D; inversion D as [| ? ? Q ? C D']; subst.
  - exists o. split; [reflexivity | exact H].
  - cbn [double_times]. destruct Q as [Q |].
    2:{ exfalso. clear - D'. remember None as X eqn:EX. remember (Some R) as Y eqn:EY. revert EX EY. induction D' as [| m A B C' HC HD IHD]; intros EX EY; [congruence |]. subst A. apply IHD; [| exact EY]. inversion HC; reflexivity. }
    assert (N : snd P + snd P <> 0). { inversion C as [| | | ? ? ? ? ? ? ? N | ? ? ? ? ? N]; subst; [congruence | exact N]. }
    destruct o as [z c k]. destruct H as (E1 & c' & E2 & X). cbn [pt_zero pt_coords] in E1, E2. subst z c. destruct (C50_double_general k P c' X N) as (c3 & Q' & E & C' & X'). rewrite E. pose proof (C50_law_functional _ _ _ _ _ C C') as EQ. injection EQ as <-. apply (IH Q); [| exact D']. split; [reflexivity |]. exists c3. auto.
Qed.
(** points made from two integers, and back to affine coordinates *)
Theorem C50_generate : forall x y : Z, exists o, new_xyzz s [CInt x; CInt y] false = Some o /\ pt_type o = XYZZ /\ xyzz_point (Some (@of_Z p x, of_Z y)) o.
Proof.
  intros x y. rewrite (wcs_shape _ _ _ _ Hs). assert (C : forall v, fe_copy (FE 0 (Zpos p)) (Some v) = FE v (Zpos p)) by (intros v; unfold fe_copy; destruct (Z.eqb_spec v 0) as [-> |]; reflexivity).
  unfold new_xyzz, formal_xyzz. cbn [length Nat.eqb orb negb formal map w_zero w_one app]. rewrite !C. eexists. split; [reflexivity |]. split; [reflexivity |]. split; [reflexivity |]. eexists. split; [reflexivity |]. exists (of_Z x), (of_Z y), 1, 1.
  split; [repeat constructor |]. assert (N : (1 : F) <> 0) by (apply (F_1_neq_0 (Fp_field p Hp))). split; [exact N |]. split; [exact N |]. cbn [fst snd]. repeat split; ring.
Qed.
Theorem C50_convert_to_affine : forall (P : option (F * F)) o, xyzz_point P o -> pt_type o = XYZZ ->
  xyzz_convert_to_affine s o = Some (match P with None => o | Some (x, y) => Pt false (Some [FE (val x) (Zpos p); FE (val y) (Zpos p); FE 1 (Zpos p); FE 1 (Zpos p)]) AFFINE end).
Proof.
  intros P [z c k] H T. cbn [pt_type] in T. subst k. unfold xyzz_convert_to_affine. cbn [pt_type kind_eqb negb]. destruct P as [[x y] |].
  2:{ destruct H as [E1 E2]. cbn [pt_zero pt_coords] in E1, E2. subst z c. reflexivity. }
  destruct H as (E1 & c' & E2 & X). cbn [pt_zero pt_coords] in E1, E2. subst z c. rewrite (copy_xyzz XYZZ (x, y) c' X). cbn [pt_coords pt_zero]. destruct X as (X & Y & ZZ & ZZZ & F1 & N1 & N1' & R1 & EX1 & EY1). cbn [fst snd] in *. open4 F1. rewrite (wcs_shape _ _ _ _ Hs). cbn [w_one]. fsteps. rewrite E, E0, E1, E2. clear E E0 E1 E2. subst X Y. do 3 f_equal.
  assert (G1 : x * ZZ * (ZZ * (1 / ZZZ) * (ZZ * (1 / ZZZ))) = x). { transitivity (x * (ZZ * ZZ * ZZ) / (ZZZ * ZZZ)); [field; exact N1' |]. rewrite R1. field. exact N1'. }
  assert (G2 : y * ZZZ * (1 / ZZZ) = y) by (field; exact N1'). rewrite G1, G2. reflexivity.
Qed.
End XYZZ.
Print Assumptions C50_law_on_curve. Print Assumptions C50_law_commutative. Print Assumptions C50_law_functional.
Print Assumptions C50_add_general. Print Assumptions C50_double_general. Print Assumptions C50_point_add_partial.
Print Assumptions C50_same_x_refuted. Print Assumptions C50_double_torsion_refuted. Print Assumptions C50_lshift. Print Assumptions C50_generate. Print Assumptions C50_convert_to_affine.

(** the hypotheses are met: (0, 1) + (2, 3) and 2 (2, 3) on y^2 = x^3 + 1 modulo 13, through XYZZ objects and back *)
Lemma prime_13 : prime 13.
Proof. apply prime_intro; [lia |]. intros n Hn. apply Zgcd_1_rel_prime. assert (C : (n = 1 \/ n = 2 \/ n = 3 \/ n = 4 \/ n = 5 \/ n = 6 \/ n = 7 \/ n = 8 \/ n = 9 \/ n = 10 \/ n = 11 \/ n = 12)%Z) by lia. decompose [or] C; subst n; reflexivity. Qed.
Example C50_example : exists s o1 o2 o3 o4, wcs_new 13 0 1 = Some s /\ new_xyzz s [CInt 0; CInt 1] false = Some o1 /\ new_xyzz s [CInt 2; CInt 3] false = Some o2 /\
  on_curve (@of_Z 13 0) (of_Z 1) (Some (of_Z 0, of_Z 1)) /\ on_curve (@of_Z 13 0) (of_Z 1) (Some (of_Z 2, of_Z 3)) /\ @of_Z 13 0 <> of_Z 2 /\
  xyzz_point_add s o1 o2 = Some o3 /\ option_map pt_coords (xyzz_convert_to_affine s o3) = Some (Some [FE 12 13; FE 0 13; FE 1 13; FE 1 13]) /\
  xyzz_point_add s o2 o2 = Some o4 /\ option_map pt_coords (xyzz_convert_to_affine s o4) = Some (Some [FE 0 13; FE 1 13; FE 1 13; FE 1 13]).
Proof.
  do 5 eexists. split; [vm_compute; reflexivity |]. split; [vm_compute; reflexivity |]. split; [vm_compute; reflexivity |]. split; [apply val_inj; vm_compute; reflexivity |]. split; [apply val_inj; vm_compute; reflexivity |]. split; [intros E; apply (f_equal val) in E; discriminate E |].
  split; [vm_compute; reflexivity |]. split; [vm_compute; reflexivity |]. split; [vm_compute; reflexivity |]. vm_compute. reflexivity.
Qed.
