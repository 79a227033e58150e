(** A group of Weierstrass points without an element of order two maps into the twisted Edwards curve: every sum the Edwards
    law needs is defined, so the map is an injective homomorphism. *)
From Coq Require Import ZArith Znumtheory List Field Nsatz.
From Verif Require Import Base.Fp Base.FpNsatz Ec.Model_reffield Ec.Model_curve Ec.Spec_curve Ec.Proof_curve Ec.Prop_xyzz Ec.Prop_edwards Ec.Spec_pippenger Ec.Spec_msm.
Import ListNotations.

Section T.
Variable p : positive.
Hypothesis Hp : prime (Zpos p).
Notation F := (Fp p).
Local Open Scope fp_scope.
Add Field FpF : (Fp_field p Hp).
Notation mul_nz := (mul_nz p Hp).
Notation sub_nz := (sub_nz p Hp).
Notation mul_cancel := (mul_cancel p Hp).

(** ** Montgomery coordinates: q v^2 = u^3 + m u^2 + u *)
Definition N1 (m u1 u2 : F) : F := (u1 + 1) * (u1 + 1) * ((u2 + 1) * (u2 + 1)) + (1 + 1 + 1 + 1) * (m - (1 + 1)) * u1 * u2.
Definition N2 (m u1 u2 : F) : F := u1 * u1 * (u2 * u2) + m * (u1 + u2) * (u1 * u2 + 1) + u1 * u1 + u2 * u2 + (1 + 1 + 1 + 1) * u1 * u2 + 1.
Definition cub (m u : F) : F := u * (u * u + m * u + 1).
Lemma exception_factors (q m u1 v1 u2 v2 : F) : q * v1 * v1 = cub m u1 -> q * v2 * v2 = cub m u2 -> u1 <> 0 -> u2 <> 0 ->
  (q * v1 * v2 * (u1 + 1) * (u2 + 1)) * (q * v1 * v2 * (u1 + 1) * (u2 + 1)) = ((m - (1 + 1)) * u1 * u2 * (u1 - 1) * (u2 - 1)) * ((m - (1 + 1)) * u1 * u2 * (u1 - 1) * (u2 - 1)) ->
  N1 m u1 u2 * N2 m u1 u2 = 0.
Proof.
  intros E1 E2 U1 U2 H. apply (mul_cancel (u1 * u2)); [apply mul_nz; assumption |]. 
  transitivity (cub m u1 * cub m u2 * ((u1 + 1) * (u2 + 1) * ((u1 + 1) * (u2 + 1))) - ((m - (1 + 1)) * u1 * u2 * (u1 - 1) * (u2 - 1)) * ((m - (1 + 1)) * u1 * u2 * (u1 - 1) * (u2 - 1))); [unfold N1, N2, cub; ring |].
  rewrite <- H, <- E1, <- E2. ring.
Qed.
(** the chord sums of (u1, v1) with (u2, v2) and with (u2, -v2) *)
Lemma chord_pair (q m u1 v1 u2 v2 u3 u4 l l' : F) : q * v1 * v1 = cub m u1 -> q * v2 * v2 = cub m u2 -> u1 <> u2 ->
  l * (u2 - u1) = v2 - v1 -> l' * (u2 - u1) = - v2 - v1 -> u3 = q * l * l - m - u1 - u2 -> u4 = q * l' * l' - m - u1 - u2 ->
  (u2 - u1) * (u2 - u1) * ((u3 + 1) * (u4 + 1)) = N1 m u1 u2 /\
  (u2 - u1) * (u2 - u1) * ((u2 - u1) * (u2 - u1)) * ((u3 * u3 + m * u3 + 1) * (u4 * u4 + m * u4 + 1)) = N2 m u1 u2 * N2 m u1 u2.
Proof.
  intros E1 E2 N L L' U3 U4. assert (D0 : u2 - u1 <> 0) by (apply sub_nz; congruence). set (D := u2 - u1) in *.
  assert (A3 : u3 * (D * D) = q * ((v2 - v1) * (v2 - v1)) - (m + u1 + u2) * (D * D)) by (rewrite U3, <- L; ring).
  assert (A4 : u4 * (D * D) = q * ((- v2 - v1) * (- v2 - v1)) - (m + u1 + u2) * (D * D)) by (rewrite U4, <- L'; ring).
  assert (SG : D * D * (u3 + u4) = (1 + 1) * ((u1 + u2) * (u1 * u2 + 1) + (1 + 1) * m * u1 * u2)).
  { transitivity (u3 * (D * D) + u4 * (D * D)); [ring |]. rewrite A3, A4. transitivity ((1 + 1) * (q * v1 * v1 + q * v2 * v2) - (1 + 1) * (m + u1 + u2) * (D * D)); [ring |]. rewrite E1, E2. unfold cub, D. ring. }
  assert (PI : D * D * (u3 * u4) = (u1 * u2 - 1) * (u1 * u2 - 1)).
  { apply (mul_cancel (D * D)); [apply mul_nz; assumption |]. transitivity ((u3 * (D * D)) * (u4 * (D * D))); [ring |]. rewrite A3, A4.
    transitivity ((q * v2 * v2 - q * v1 * v1) * (q * v2 * v2 - q * v1 * v1) - (m + u1 + u2) * (D * D) * ((1 + 1) * (q * v1 * v1 + q * v2 * v2)) + (m + u1 + u2) * (D * D) * ((m + u1 + u2) * (D * D))); [ring |]. rewrite E1, E2. unfold cub, D. ring. }
  split.
  - transitivity (D * D * (u3 * u4) + D * D * (u3 + u4) + D * D); [ring |]. rewrite PI, SG. unfold N1, D. ring.
  - transitivity ((D * D * (u3 * u4) - D * D) * (D * D * (u3 * u4) - D * D) + (D * D * (u3 + u4)) * (D * D * (u3 + u4)) + m * (D * D * (u3 + u4)) * (D * D * (u3 * u4) + D * D) + m * m * (D * D * (u3 * u4)) * (D * D)); [ring |].
    rewrite PI, SG. unfold N2, D. ring.
Qed.
(** the tangent sum of (u, v) with itself *)
Lemma tangent_self (q m u v u3 l : F) : q * v * v = cub m u -> q * l * (v + v) = (1 + 1 + 1) * u * u + (1 + 1) * m * u + 1 -> q <> 0 -> u3 = q * l * l - m - u - u ->
  (1 + 1 + 1 + 1) * cub m u * u3 = (u * u - 1) * (u * u - 1) /\ (1 + 1 + 1 + 1) * cub m u * (u3 + 1) = N1 m u u /\
  ((1 + 1 + 1 + 1) * cub m u) * ((1 + 1 + 1 + 1) * cub m u) * (u3 * u3 + m * u3 + 1) = N2 m u u * N2 m u u.
Proof.
  intros E L Q U3.
  assert (K : (1 + 1 + 1 + 1) * cub m u * u3 = (u * u - 1) * (u * u - 1)).
  { rewrite <- E, U3. transitivity ((q * l * (v + v)) * (q * l * (v + v)) - (1 + 1 + 1 + 1) * (m + u + u) * (q * v * v)); [ring |]. rewrite L, E. unfold cub. ring. }
  split; [exact K |]. split.
  - transitivity ((1 + 1 + 1 + 1) * cub m u * u3 + (1 + 1 + 1 + 1) * cub m u); [ring |]. rewrite K. unfold N1, cub. ring.
  - transitivity (((1 + 1 + 1 + 1) * cub m u * u3) * ((1 + 1 + 1 + 1) * cub m u * u3) + m * ((1 + 1 + 1 + 1) * cub m u * u3) * ((1 + 1 + 1 + 1) * cub m u) + (1 + 1 + 1 + 1) * cub m u * ((1 + 1 + 1 + 1) * cub m u)); [ring |]. rewrite K. unfold N2, cub. ring.
Qed.
(** ** the group *)
Variables di alphai si mai mbi ti : Z.
Let d : F := of_Z di.
Let alpha : F := of_Z alphai.
Let s0 : F := of_Z si.
Let ma : F := of_Z mai.
Let mb : F := of_Z mbi.
Let t : F := of_Z ti.
Variables a b : F.
Hypothesis Par : twist_parameters a b alpha s0 ma mb t d.
Hypothesis Two : (1 + 1 : F) <> 0.
Let S0 : s0 <> 0 := s0_nz p Hp di alphai si mai mbi ti a b Par.
Variable g : abelian_group.
Variable point : g -> option (F * F).
Hypothesis CP : curve_points a b g point.
Hypothesis NT : no_order_two point.
Let U (x : F) : F := s0 * (x - alpha).
Let V (y : F) : F := s0 * y.

Lemma double_nz (y : F) : y <> 0 -> y + y <> 0.
Proof. intros N E. apply (mul_nz (1 + 1) y Two N). rewrite <- E. ring. Qed.
Lemma equation x X Y : point x = Some (X, Y) -> s0 * V Y * V Y = cub ma (U X).
Proof. intros E. pose proof (cp_on_curve _ _ _ _ CP x) as O. rewrite E in O. exact (montgomery_equation p Hp di alphai si mai mbi ti a b Par X Y O). Qed.
Lemma good_v x X Y : point x = Some (X, Y) -> V Y <> 0.
Proof. intros E. apply mul_nz; [exact S0 |]. exact (NT x X Y E). Qed.
Lemma good_cub x X Y : point x = Some (X, Y) -> cub ma (U X) <> 0.
Proof. intros E. rewrite <- (equation x X Y E). pose proof (good_v x X Y E). apply mul_nz; [apply mul_nz; [exact S0 |] |]; assumption. Qed.
Lemma good_u x X Y : point x = Some (X, Y) -> U X <> 0.
Proof. intros E Z. apply (good_cub x X Y E). unfold cub. rewrite Z. ring. Qed.
Lemma good_alpha x X Y : point x = Some (X, Y) -> X <> alpha.
Proof. intros E Z. apply (good_u x X Y E). unfold U. rewrite Z. ring. Qed.
Lemma good_w x X Y : point x = Some (X, Y) -> U X * U X + ma * U X + 1 <> 0.
Proof. intros E Z. apply (good_cub x X Y E). unfold cub. rewrite Z. ring. Qed.
Lemma opposite x X Y : point x = Some (X, Y) -> point (gopp x) = Some (X, - Y).
Proof.
  intros E. pose proof (cp_add _ _ _ _ CP x (gopp x)) as C. rewrite gadd_opp, (cp_zero _ _ _ _ CP), E in C. inversion C; subst. reflexivity.
Qed.
Lemma tangent x X Y : point x = Some (X, Y) -> exists X3 Y3 l, point (gadd x x) = Some (X3, Y3) /\ s0 * l * (V Y + V Y) = (1 + 1 + 1) * U X * U X + (1 + 1) * ma * U X + 1 /\ U X3 = s0 * l * l - ma - U X - U X.
Proof.
  intros E. pose proof (cp_add _ _ _ _ CP x x) as C. rewrite E in C. pose proof (NT x X Y E) as NY. pose proof Par as (A & S & M & _). inversion C as [| | ? ? H1 H2 H3 | ? ? ? ? ? ? ? N | ? ? X3 Y3 l N L E3 E4]; subst.
  - exfalso. apply (double_nz Y NY). assert (Q : Y = - Y) by congruence. rewrite Q at 1. ring.
  - contradiction.
  - exists (l * l - X - X), (l * (X - (l * l - X - X)) - Y), l. split; [congruence |]. split.
    + transitivity (s0 * s0 * (l * (Y + Y))); [unfold V; ring |]. rewrite L. transitivity ((1 + 1 + 1) * U X * U X + (1 + 1) * ma * U X + ((1 + 1 + 1) * alpha * alpha + a) * s0 * s0); [| rewrite S; reflexivity]. rewrite M. unfold U. ring.
    + rewrite M. unfold U. ring.
Qed.
Lemma chord x y X1 Y1 X2 Y2 : point x = Some (X1, Y1) -> point y = Some (X2, Y2) -> X1 <> X2 -> exists X3 Y3 l, point (gadd x y) = Some (X3, Y3) /\ l * (U X2 - U X1) = V Y2 - V Y1 /\ U X3 = s0 * l * l - ma - U X1 - U X2.
Proof.
  intros E1 E2 N. pose proof (cp_add _ _ _ _ CP x y) as C. rewrite E1, E2 in C. pose proof Par as (A & S & M & _). inversion C as [| | | ? ? ? ? X3 Y3 l N' L E3 E4 |]; subst; try contradiction.
  exists (l * l - X1 - X2), (l * (X1 - (l * l - X1 - X2)) - Y1), l. split; [congruence |]. split.
  - transitivity (s0 * (l * (X2 - X1))); [unfold U; ring |]. rewrite L. unfold V. ring.
  - rewrite M. unfold U. ring.
Qed.
Lemma good_u1 x X Y : point x = Some (X, Y) -> U X + 1 <> 0.
Proof.
  intros E Z. destruct (tangent x X Y E) as (X3 & Y3 & l & E3 & L & U3). destruct (tangent_self s0 ma (U X) (V Y) (U X3) l (equation x X Y E) L S0 U3) as (K & _).
  apply (good_u _ _ _ E3). assert (F4 : (1 + 1 + 1 + 1) * cub ma (U X) <> 0). { apply mul_nz; [| exact (good_cub x X Y E)]. intros Q. apply (mul_nz (1 + 1) (1 + 1) Two Two). rewrite <- Q. ring. }
  apply (mul_cancel _ _ _ F4). rewrite K. transitivity ((U X + 1) * (U X - 1) * (U X * U X - 1)); [ring |]. rewrite Z. ring.
Qed.
Lemma factors_nz x y X1 Y1 X2 Y2 : point x = Some (X1, Y1) -> point y = Some (X2, Y2) -> N1 ma (U X1) (U X2) * N2 ma (U X1) (U X2) <> 0.
Proof.
  intros E1 E2. destruct (f_eq_dec X1 X2) as [-> | N].
  - destruct (tangent x X2 Y1 E1) as (X3 & Y3 & l & E3 & L & U3). destruct (tangent_self s0 ma (U X2) (V Y1) (U X3) l (equation x X2 Y1 E1) L S0 U3) as (_ & K1 & K2). assert (F4 : (1 + 1 + 1 + 1) * cub ma (U X2) <> 0). { apply mul_nz; [| exact (good_cub x X2 Y1 E1)]. intros Q. apply (mul_nz (1 + 1) (1 + 1) Two Two). rewrite <- Q. ring. }
    apply mul_nz.
    + rewrite <- K1. apply mul_nz; [exact F4 | exact (good_u1 _ _ _ E3)].
    + intros Z. rewrite Z in K2. assert (Q : (1 + 1 + 1 + 1) * cub ma (U X2) * ((1 + 1 + 1 + 1) * cub ma (U X2)) * (U X3 * U X3 + ma * U X3 + 1) <> 0) by (apply mul_nz; [apply mul_nz; assumption | exact (good_w _ _ _ E3)]). apply Q. rewrite K2. ring.
  - destruct (chord x y _ _ _ _ E1 E2 N) as (X3 & Y3 & l & E3 & L & U3). destruct (chord x (gopp y) _ _ _ _ E1 (opposite y _ _ E2) N) as (X4 & Y4 & l' & E4 & L' & U4). assert (NU : U X1 <> U X2) by (intros Q; apply N; unfold U in Q; apply (mul_cancel s0) in Q; [| exact S0]; transitivity (X1 - alpha + alpha); [ring | rewrite Q; ring]).
    assert (L'' : l' * (U X2 - U X1) = - V Y2 - V Y1) by (rewrite L'; unfold V; ring).
    destruct (chord_pair s0 ma _ _ _ _ (U X3) (U X4) l l' (equation x _ _ E1) (equation y _ _ E2) NU L L'' U3 U4) as (K1 & K2). assert (D0 : U X2 - U X1 <> 0) by (apply sub_nz; congruence).
    apply mul_nz.
    + rewrite <- K1. pose proof (good_u1 _ _ _ E3). pose proof (good_u1 _ _ _ E4). repeat apply mul_nz; assumption.
    + intros Z. rewrite Z in K2. assert (Q : (U X2 - U X1) * (U X2 - U X1) * ((U X2 - U X1) * (U X2 - U X1)) * ((U X3 * U X3 + ma * U X3 + 1) * (U X4 * U X4 + ma * U X4 + 1)) <> 0) by (pose proof (good_w _ _ _ E3); pose proof (good_w _ _ _ E4); repeat apply mul_nz; assumption). apply Q. rewrite K2. ring.
Qed.
Lemma denominators x y P Q : point x = Some P -> point y = Some Q ->
  let '(X1, Y1) := twisted alpha s0 t P in let '(X2, Y2) := twisted alpha s0 t Q in 1 + d * X1 * X2 * Y1 * Y2 <> 0 /\ 1 - d * X1 * X2 * Y1 * Y2 <> 0.
Proof.
  destruct P as [x1 y1], Q as [x2 y2]. intros E1 E2. pose proof (factors_nz x y _ _ _ _ E1 E2) as NF. pose proof (equation x _ _ E1) as M1. pose proof (equation y _ _ E2) as M2. pose proof (good_v x _ _ E1) as V1. pose proof (good_v y _ _ E2) as V2. pose proof (good_u1 x _ _ E1) as W1. pose proof (good_u1 y _ _ E2) as W2. pose proof (good_u x _ _ E1) as U1. pose proof (good_u y _ _ E2) as U2.
  unfold twisted. cbv zeta. fold (U x1) (U x2) (V y1) (V y2). pose proof Par as (_ & _ & _ & _ & T & D & T0). assert (DT : d * (t * t) * s0 = ma - (1 + 1)). { transitivity (d * (t * t * s0)); [ring |]. rewrite T. transitivity (- (d * (ma + (1 + 1)))); [ring |]. rewrite D. ring. }
  set (u1 := U x1) in *. set (u2 := U x2) in *. set (v1 := V y1) in *. set (v2 := V y2) in *. set (e := d * (t * (u1 / v1)) * (t * (u2 / v2)) * ((u1 - 1) / (u1 + 1)) * ((u2 - 1) / (u2 + 1))).
  assert (EE : e * (s0 * v1 * v2 * (u1 + 1) * (u2 + 1)) = (ma - (1 + 1)) * u1 * u2 * (u1 - 1) * (u2 - 1)). { unfold e. transitivity (d * (t * t) * s0 * u1 * u2 * (u1 - 1) * (u2 - 1)); [field; auto | rewrite DT; reflexivity]. }
  assert (NE : e * e <> 1). { intros Z. apply NF. apply (exception_factors s0 ma u1 v1 u2 v2 M1 M2 U1 U2). rewrite <- EE. transitivity (e * e * (s0 * v1 * v2 * (u1 + 1) * (u2 + 1) * (s0 * v1 * v2 * (u1 + 1) * (u2 + 1)))); [rewrite Z; ring | ring]. }
  clearbody e. split; intros Z; apply NE.
  - assert (Q : e = - (1)) by (transitivity (1 + e - 1); [ring | rewrite Z; ring]). rewrite Q. ring.
  - assert (Q : e = 1) by (transitivity (1 - (1 - e)); [ring | rewrite Z; ring]). rewrite Q. ring.
Qed.
(** the image of a group element *)
Definition image (x : g) : F * F := match point x with None => (0, 1) | Some P => twisted alpha s0 t P end.
Lemma image_on x : on_edwards d (image x).
Proof.
  unfold image. destruct (point x) as [[X Y] |] eqn:E.
  - apply (C52_twisted_on_curve p Hp di alphai si mai mbi ti a b Par X Y); [| exact (NT x X Y E) | exact (good_u1 x X Y E)]. pose proof (cp_on_curve _ _ _ _ CP x) as O. rewrite E in O. exact O.
  - cbn [on_edwards]. ring.
Qed.
Lemma image_zero : image gzero = (0, 1).
Proof. unfold image. rewrite (cp_zero _ _ _ _ CP). reflexivity. Qed.
Lemma image_opp x : image (gopp x) = (- fst (image x), snd (image x)).
Proof.
  unfold image. destruct (point x) as [[X Y] |] eqn:E.
  - rewrite (opposite x X Y E). pose proof (NT x X Y E) as NY. pose proof (good_u1 x X Y E) as NU. unfold twisted. cbn [fst snd]. fold (U X). f_equal. assert (Q : forall u c q : F, c <> 0 -> q <> 0 -> t * (u / (c * - q)) = - (t * (u / (c * q)))) by (intros u c q C1 C2; assert (C3 : - q <> 0) by (intros Z; apply C2; transitivity (- - q); [ring | rewrite Z; ring]); field; repeat split; assumption). exact (Q (U X) s0 Y S0 NY).
  - assert (Z : x = gzero) by (apply (cp_injective _ _ _ _ CP); rewrite E; symmetry; apply (cp_zero _ _ _ _ CP)). rewrite Z, <- (gadd_zero _ (gopp gzero)), gadd_opp, (cp_zero _ _ _ _ CP). cbn [fst snd]. f_equal; ring.
Qed.
Lemma image_add x y : edwards_add d (image x) (image y) (image (gadd x y)).
Proof.
  pose proof (cp_add _ _ _ _ CP x y) as C. pose proof (cp_on_curve _ _ _ _ CP x) as O1. pose proof (cp_on_curve _ _ _ _ CP y) as O2. unfold image.
  destruct (point x) as [[x1 y1] |] eqn:E1.
  - destruct (point y) as [[x2 y2] |] eqn:E2.
    + destruct (point (gadd x y)) as [[x3 y3] |] eqn:E3.
      * apply (C52_twist_homomorphism p Hp di alphai si mai mbi ti a b Par); try assumption; [exact (NT x _ _ E1) | exact (NT y _ _ E2) | exact (NT _ _ _ E3) | exact (good_u1 x _ _ E1) | exact (good_u1 y _ _ E2) | exact (good_u1 _ _ _ E3) | exact (denominators x y _ _ E1 E2)].
      * inversion C; subst. pose proof (denominators x x _ _ E1 E1) as D. pose proof (image_on x) as O. unfold image in O. rewrite E1 in O. pose proof (image_opp x) as OP. unfold image in OP. rewrite (opposite x _ _ E1), E1 in OP. rewrite OP. destruct (twisted alpha s0 t (x2, y1)) as [X Y]. cbn [fst snd]. destruct D as [D1 D2]. apply (C52_law_opposite p Hp di X Y O D1 D2).
    + inversion C; subst. apply (C52_law_commutative p Hp di). apply (C52_law_identity p Hp di).
  - assert (R : point (gadd x y) = point y) by (inversion C; congruence). rewrite R. apply (C52_law_identity p Hp di).
Qed.
Lemma image_injective x y : image x = image y -> x = y.
Proof.
  intros E. apply (cp_injective _ _ _ _ CP). unfold image in E. pose proof Par as (_ & _ & _ & _ & _ & _ & T0).
  assert (NI : forall z X Y, point z = Some (X, Y) -> twisted alpha s0 t (X, Y) <> (0, 1)). { intros z X Y Ez Q. unfold twisted in Q. pose proof (f_equal fst Q) as Q1. cbn [fst] in Q1. fold (U X) (V Y) in Q1. pose proof (good_u z X Y Ez). pose proof (good_v z X Y Ez). apply (mul_nz t (U X) T0 H). transitivity (t * (U X / V Y) * V Y); [field; assumption | rewrite Q1; ring]. }
  destruct (point x) as [[x1 y1] |] eqn:E1, (point y) as [[x2 y2] |] eqn:E2; [| exfalso; exact (NI x _ _ E1 E) | exfalso; exact (NI y _ _ E2 (eq_sym E)) | reflexivity].
  unfold twisted in E. pose proof (f_equal fst E) as Q1. pose proof (f_equal snd E) as Q2. cbn [fst snd] in Q1, Q2. fold (U x1) (V y1) (U x2) (V y2) in Q1, Q2. pose proof (good_u x _ _ E1) as U1. pose proof (good_u y _ _ E2) as U2. pose proof (good_v x _ _ E1) as V1. pose proof (good_v y _ _ E2) as V2. pose proof (good_u1 x _ _ E1) as W1. pose proof (good_u1 y _ _ E2) as W2.
  assert (UU : U x1 = U x2). { assert (C : (U x1 - 1) * (U x2 + 1) = (U x2 - 1) * (U x1 + 1)) by (transitivity ((U x1 - 1) / (U x1 + 1) * ((U x1 + 1) * (U x2 + 1))); [field; assumption | rewrite Q2; field; assumption]). apply (mul_cancel (1 + 1) _ _ Two). transitivity ((U x1 - 1) * (U x2 + 1) - U x1 * U x2 + U x1 + U x2 + 1); [ring | rewrite C; ring]. }
  assert (VV : V y1 = V y2). { apply (mul_cancel (t * U x1)); [apply mul_nz; assumption |]. transitivity (t * (U x2 / V y2) * V y2 * V y1); [rewrite UU; field; assumption |]. rewrite <- Q1. rewrite UU. field. assumption. }
  unfold U in UU. unfold V in VV. apply (mul_cancel _ _ _ S0) in UU. apply (mul_cancel _ _ _ S0) in VV. rewrite VV. do 2 f_equal. transitivity (x1 - alpha + alpha); [ring | rewrite UU; ring].
Qed.
End T.
