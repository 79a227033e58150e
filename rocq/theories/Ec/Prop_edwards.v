(** C52: extended twisted Edwards coordinates implement the addition law of the curve y^2 - x^2 = 1 + d x^2 y^2. *)
From Coq Require Import ZArith List Bool Lia Znumtheory Field NsatzTactic.
From Verif Require Import Base.Modeq Base.Fermat Base.Fp Base.FpNsatz Ec.Model_reffield Ec.Model_curve Ec.Spec_curve Ec.Prop_reffield Ec.Proof_curve Ec.Prop_xyzz.
Import ListNotations.

Lemma tcs_shape p a d alpha s ma mb t S : tcs_new (Zpos p) a d alpha s ma mb t = Some S ->
  exists k, S = TCS (FE 0 (Zpos p)) (FE 1 (Zpos p)) (FE a (Zpos p)) (FE d (Zpos p)) (FE alpha (Zpos p)) (FE s (Zpos p)) (FE ma (Zpos p)) (FE mb (Zpos p)) (FE t (Zpos p)) k.
Proof.
  assert (C : forall v, fe_copy (FE 0 (Zpos p)) (Some v) = FE v (Zpos p)) by (intros v; unfold fe_copy; destruct (Z.eqb_spec v 0) as [-> |]; reflexivity).
  unfold tcs_new. unfold fe_new at 1. destruct ((0 <? 0)%Z || (Zpos p <=? 0)%Z); [discriminate |]. unfold fe_new at 1. destruct ((1 <? 0)%Z || (Zpos p <=? 1)%Z); [discriminate |]. rewrite !C. destruct (fe_add _ _) as [k |]; [| discriminate]. intros E. injection E as <-. exists k. reflexivity.
Qed.
(** a point object stands for an affine Edwards point; its zero flag is not looked at by the additions *)
Definition extended_point {p} (P : Fp p * Fp p) (o : pt) : Prop := exists c, pt_coords o = Some c /\ extended P c.

Section Edwards.
Variable p : positive.
Hypothesis Hp : prime (Zpos p).
Let P2 : (2 <= Zpos p)%Z := prime_ge_2 _ Hp.
Notation F := (Fp p).
Local Open Scope fp_scope.
Add Field FpF : (Fp_field p Hp).
Variables ai di alphai si mai mbi ti : Z.
Variable s : tcs.
Hypothesis Hs : tcs_new (Zpos p) ai di alphai si mai mbi ti = Some s.
Let d : F := of_Z di.
Notation mul_nz := (mul_nz p Hp).
Notation sub_nz := (sub_nz p Hp).
Notation mul_cancel := (mul_cancel p Hp).
Notation mul_zero := (mul_zero p Hp).
#[local] Instance FpO : @Ring_ops F (of_Z 0) (of_Z 1) f_add f_mul f_sub f_opp (@eq F) := Fp_ops p.
#[local] Instance FpR : Ring (Ro := FpO) := Fp_Ring p Hp.
#[local] Instance FpC : Cring (Rr := FpR) := Fp_Cring p Hp.
#[local] Instance FpD : Integral_domain (Rcr := FpC) := Fp_domain p Hp.
Lemma one_nz : (1 : F) <> 0. Proof. apply (F_1_neq_0 (Fp_field p Hp)). Qed.

(** ** the law *)
Theorem C52_law_on_curve : forall P Q R : F * F, on_edwards d P -> on_edwards d Q -> edwards_add d P Q R -> on_edwards d R.
Proof.
  intros P Q R HP HQ H. destruct H as [x1 y1 x2 y2 x3 y3 N1 N2 EX EY]. cbn [on_edwards] in *.
  set (u1 := x1 * y1). set (u2 := x2 * y2). set (e := d * u1 * u2). set (w1 := y1 * y1 - x1 * x1) in *. set (w2 := y2 * y2 - x2 * x2) in *. set (v1 := x1 * x1 + y1 * y1). set (v2 := x2 * x2 + y2 * y2).
  assert (HE : d * x1 * x2 * y1 * y2 = e) by (unfold e, u1, u2; ring). rewrite HE in *. assert (W1 : w1 = 1 + d * u1 * u1) by (rewrite HP; unfold u1; ring). assert (W2 : w2 = 1 + d * u2 * u2) by (rewrite HQ; unfold u2; ring).
  assert (V1 : v1 * v1 = w1 * w1 + (1 + 1 + 1 + 1) * u1 * u1) by (unfold v1, w1, u1; ring). assert (V2 : v2 * v2 = w2 * w2 + (1 + 1 + 1 + 1) * u2 * u2) by (unfold v2, w2, u2; ring).
  set (sy := y1 * y2 + x1 * x2) in *. set (sx := x1 * y2 + y1 * x2) in *. assert (S1 : sy * sy - sx * sx = w1 * w2) by (unfold sy, sx, w1, w2; ring). assert (S2 : sy * sy + sx * sx = v1 * v2 + (1 + 1 + 1 + 1) * u1 * u2) by (unfold sy, sx, v1, v2, u1, u2; ring). assert (S3 : sx * sy = u1 * v2 + u2 * v1) by (unfold sy, sx, v1, v2, u1, u2; ring).
  apply (mul_cancel ((1 + e) * (1 + e) * ((1 - e) * (1 - e)))); [repeat apply mul_nz; assumption |].
  transitivity ((y3 * (1 - e)) * (y3 * (1 - e)) * ((1 + e) * (1 + e)) - (x3 * (1 + e)) * (x3 * (1 + e)) * ((1 - e) * (1 - e))); [ring |]. rewrite EX, EY.
  transitivity ((1 - e * e) * (1 - e * e) + d * ((x3 * (1 + e)) * (y3 * (1 - e))) * ((x3 * (1 + e)) * (y3 * (1 - e)))); [| ring]. rewrite EX, EY, S3.
  transitivity ((sy * sy - sx * sx) * (1 + e * e) + (1 + 1) * e * (sy * sy + sx * sx)); [ring |]. rewrite S1, S2.
  transitivity ((1 - e * e) * (1 - e * e) + d * (u1 * u1 * (v2 * v2) + u2 * u2 * (v1 * v1) + (1 + 1) * u1 * u2 * (v1 * v2))); [| ring]. rewrite V1, V2, W1, W2. unfold e. ring.
Qed.
Theorem C52_law_commutative : forall P Q R : F * F, edwards_add d P Q R -> edwards_add d Q P R.
Proof.
  intros P Q R H. destruct H as [x1 y1 x2 y2 x3 y3 N1 N2 EX EY]. assert (C : d * x2 * x1 * y2 * y1 = d * x1 * x2 * y1 * y2) by ring. constructor; rewrite ?C; try assumption; [rewrite EX; ring | rewrite EY; ring].
Qed.
Theorem C52_law_functional : forall P Q R R' : F * F, edwards_add d P Q R -> edwards_add d P Q R' -> R = R'.
Proof.
  intros P Q R R' H H'. destruct H as [x1 y1 x2 y2 x3 y3 N1 N2 EX EY]. inversion H' as [? ? ? ? x3' y3' _ _ EX' EY']; subst. f_equal; [apply (mul_cancel _ _ _ N1) | apply (mul_cancel _ _ _ N2)].
  - transitivity (x1 * y2 + y1 * x2); [rewrite <- EX; ring | rewrite <- EX'; ring].
  - transitivity (y1 * y2 + x1 * x2); [rewrite <- EY; ring | rewrite <- EY'; ring].
Qed.
Theorem C52_law_identity : forall P : F * F, edwards_add d (0, 1) P P.
Proof.
  intros [x y]. pose proof one_nz as O. assert (E : d * 0 * x * 1 * y = 0) by ring. constructor; rewrite ?E; [| | ring | ring]; intros H; apply O; [transitivity (1 + 0 : F); [ring | exact H] | transitivity (1 - 0 : F); [ring | exact H]].
Qed.
Theorem C52_law_opposite : forall x y : F, on_edwards d (x, y) -> 1 + d * x * x * y * y <> 0 -> 1 - d * x * x * y * y <> 0 -> edwards_add d (x, y) (- x, y) (0, 1).
Proof.
  intros x y H N1 N2. cbn [on_edwards] in H. constructor.
  - intros E. apply N2. rewrite <- E. ring.
  - intros E. apply N1. rewrite <- E. ring.
  - ring.
  - transitivity (1 + d * (x * x) * (y * y)); [ring | rewrite <- H; ring].
Qed.
(** associative wherever the sums are defined *)
Lemma assoc_x (x1 y1 x2 y2 x3 y3 : F) : on_edwards d (x1, y1) -> on_edwards d (x2, y2) -> on_edwards d (x3, y3) ->
  let A := x1 * y2 + y1 * x2 in let B := 1 + d * x1 * x2 * y1 * y2 in let C := y1 * y2 + x1 * x2 in let D := 1 - d * x1 * x2 * y1 * y2 in
  let A' := x2 * y3 + y2 * x3 in let B' := 1 + d * x2 * x3 * y2 * y3 in let C' := y2 * y3 + x2 * x3 in let D' := 1 - d * x2 * x3 * y2 * y3 in
  (A * D * y3 + C * B * x3) * (B' * D' + d * x1 * y1 * A' * C') = (x1 * C' * B' + y1 * A' * D') * (B * D + d * x3 * y3 * A * C) /\
  (C * B * y3 + A * D * x3) * (B' * D' - d * x1 * y1 * A' * C') = (y1 * C' * B' + x1 * A' * D') * (B * D - d * x3 * y3 * A * C).
Proof. cbn [on_edwards]. clearbody d. intros H1 H2 H3. cbv zeta. split; nsatz. Qed.
Theorem C52_law_associative : forall P Q R PQ QR S S' : F * F, on_edwards d P -> on_edwards d Q -> on_edwards d R ->
  edwards_add d P Q PQ -> edwards_add d PQ R S -> edwards_add d Q R QR -> edwards_add d P QR S' -> S = S'.
Proof.
  intros [x1 y1] [x2 y2] [x3 y3] PQ QR S S' H1 H2 H3 A1 A2 A3 A4. inversion A1 as [? ? ? ? u1 v1 B1 D1 EX1 EY1]; subst. inversion A3 as [? ? ? ? u2 v2 B2 D2 EX2 EY2]; subst. inversion A2 as [? ? ? ? w1 z1 B3 D3 EX3 EY3]; subst. inversion A4 as [? ? ? ? w2 z2 B4 D4 EX4 EY4]; subst.
  destruct (assoc_x x1 y1 x2 y2 x3 y3 H1 H2 H3) as [KX KY]. cbv zeta in KX, KY. clear H1 H2 H3 A1 A2 A3 A4. rewrite <- EX1, <- EY1, <- EX2, <- EY2 in KX, KY. clear EX1 EY1 EX2 EY2.
  set (B := 1 + d * x1 * x2 * y1 * y2) in *. set (D := 1 - d * x1 * x2 * y1 * y2) in *. set (B' := 1 + d * x2 * x3 * y2 * y3) in *. set (D' := 1 - d * x2 * x3 * y2 * y3) in *. clearbody B D B' D'.
  assert (N : B * D * B' * D' <> 0) by (repeat apply mul_nz; assumption). f_equal.
  - apply (mul_cancel (B * D * B' * D' * (1 + d * u1 * x3 * v1 * y3) * (1 + d * x1 * u2 * y1 * v2))); [apply mul_nz; [apply mul_nz |]; assumption |]. transitivity (B * D * B' * D' * (w1 * (1 + d * u1 * x3 * v1 * y3)) * (1 + d * x1 * u2 * y1 * v2)); [ring |]. rewrite EX3. transitivity (B * D * B' * D' * (1 + d * u1 * x3 * v1 * y3) * (w2 * (1 + d * x1 * u2 * y1 * v2))); [| ring]. rewrite EX4. transitivity ((u1 * B * D * y3 + v1 * D * B * x3) * (B' * D' + d * x1 * y1 * (u2 * B') * (v2 * D'))); [ring |]. rewrite KX. ring.
  - apply (mul_cancel (B * D * B' * D' * (1 - d * u1 * x3 * v1 * y3) * (1 - d * x1 * u2 * y1 * v2))); [apply mul_nz; [apply mul_nz |]; assumption |]. transitivity (B * D * B' * D' * (z1 * (1 - d * u1 * x3 * v1 * y3)) * (1 - d * x1 * u2 * y1 * v2)); [ring |]. rewrite EY3. transitivity (B * D * B' * D' * (1 - d * u1 * x3 * v1 * y3) * (z2 * (1 - d * x1 * u2 * y1 * v2))); [| ring]. rewrite EY4. transitivity ((v1 * D * B * y3 + u1 * B * D * x3) * (B' * D' - d * x1 * y1 * (u2 * B') * (v2 * D'))); [ring |]. rewrite KY. ring.
Qed.
(** with -1 = i^2 and d not a square no denominator vanishes: the law is total on the curve *)
Theorem C52_law_complete : forall i : F, i * i = - (1) -> (forall r, r * r <> d) -> (1 + 1 : F) <> 0 -> forall P Q : F * F, on_edwards d P -> on_edwards d Q -> exists R, edwards_add d P Q R.
Proof.
  intros i I NS N2 [x1 y1] [x2 y2] H1 H2. cbn [on_edwards] in H1, H2.
  assert (K : forall e, e * e = 1 -> d * x1 * x2 * y1 * y2 <> e).
  { intros e HE E. pose proof one_nz as O. assert (E0 : e <> 0) by (intros Z; apply O; rewrite <- HE, Z; ring).
    assert (NZ : x1 * y1 <> 0) by (intros Z; apply E0; rewrite <- E; transitivity (d * x2 * y2 * (x1 * y1)); [ring | rewrite Z; ring]).
    assert (SQ : forall g, g * g = 1 -> i * x2 + g * y2 <> 0 -> False).
    { intros g G NG. apply (NS ((i * x1 + e * g * y1) / (x1 * y1 * (i * x2 + g * y2)))).
      assert (A : (i * x1 + e * g * y1) * (i * x1 + e * g * y1) = d * (x1 * y1 * (i * x2 + g * y2)) * (x1 * y1 * (i * x2 + g * y2))).
      { transitivity (i * i * x1 * x1 + (e * e) * (g * g) * y1 * y1 + (1 + 1) * i * g * e * x1 * y1); [ring |]. rewrite I, HE, G. transitivity (y1 * y1 - x1 * x1 + (1 + 1) * i * g * e * x1 * y1); [ring |]. rewrite H1.
        transitivity (d * x1 * x1 * y1 * y1 * (i * i * x2 * x2 + g * g * y2 * y2) + (1 + 1) * i * g * (d * x1 * x2 * y1 * y2) * x1 * y1); [| ring]. rewrite I, G, E.
        transitivity (d * x1 * x1 * y1 * y1 * (y2 * y2 - x2 * x2) + (1 + 1) * i * g * e * x1 * y1); [| ring]. rewrite H2. transitivity (d * x1 * x1 * y1 * y1 + (d * x1 * x2 * y1 * y2) * (d * x1 * x2 * y1 * y2) + (1 + 1) * i * g * e * x1 * y1); [| ring]. rewrite E, HE. ring. }
      assert (DN : x1 * y1 * (i * x2 + g * y2) <> 0) by (apply mul_nz; assumption). set (den := x1 * y1 * (i * x2 + g * y2)) in *. set (num := i * x1 + e * g * y1) in *. transitivity (num * num / (den * den)); [field; exact DN |]. rewrite A. field. exact DN. }
    destruct (f_eq_dec (i * x2 + 1 * y2) 0) as [Z1 | N]; [| apply (SQ 1); [ring | exact N]]. destruct (f_eq_dec (i * x2 + - (1) * y2) 0) as [Z2 | N]; [| apply (SQ (- (1))); [ring | exact N]].
    assert (Y : y2 = 0). { assert (T : (1 + 1) * y2 = 0) by (transitivity (i * x2 + 1 * y2 - (i * x2 + - (1) * y2)); [ring | rewrite Z1, Z2; ring]). destruct (mul_zero _ _ T); [contradiction | assumption]. } apply E0. rewrite <- E, Y. ring. }
  assert (D1 : 1 + d * x1 * x2 * y1 * y2 <> 0). { intros Z. apply (K (- (1))); [ring |]. transitivity (1 + d * x1 * x2 * y1 * y2 - 1); [ring | rewrite Z; ring]. }
  assert (D2 : 1 - d * x1 * x2 * y1 * y2 <> 0). { intros Z. apply (K 1); [ring |]. transitivity (1 - (1 - d * x1 * x2 * y1 * y2)); [ring | rewrite Z; ring]. }
  exists ((x1 * y2 + y1 * x2) / (1 + d * x1 * x2 * y1 * y2), (y1 * y2 + x1 * x2) / (1 - d * x1 * x2 * y1 * y2)). constructor; [exact D1 | exact D2 | field; exact D1 | field; exact D2].
Qed.

(** ** the code *)
Lemma extended_el (P : F * F) (X Y Z T : F) : Z <> 0 -> fst P * Z = X -> snd P * Z = Y -> T * Z = X * Y -> extended P [FE (val X) (Zpos p); FE (val Y) (Zpos p); FE (val Z) (Zpos p); FE (val T) (Zpos p)].
Proof. intros. exists X, Y, Z, T. split; [repeat constructor; apply of_Z_val |]. auto. Qed.
Lemma new_twisted_el s' (X Y Z T : fe) : new_twisted s' [CFe X; CFe Y; CFe Z; CFe T] false = Some (Pt false (Some [X; Y; Z; T]) PROJECTIVE).
Proof. reflexivity. Qed.
Theorem C52_point_add : forall (P Q R : F * F) o1 o2, extended_point P o1 -> extended_point Q o2 -> edwards_add d P Q R ->
  exists o, twisted_point_add s o1 o2 = Some o /\ extended_point R o.
Proof.
  intros P Q R [z1 c1 k1] [z2 c2 k2] (c & E1 & H1) (c' & E2 & H2) A. cbn [pt_coords] in E1, E2. subst c1 c2. destruct A as [x1 y1 x2 y2 x3 y3 D1 D2 EX EY]. destruct H1 as (X1 & Y1 & Z1 & T1 & F1 & N1 & EX1 & EY1 & ET1), H2 as (X2 & Y2 & Z2 & T2 & F2 & N2 & EX2 & EY2 & ET2). cbn [fst snd] in *.
  destruct (tcs_shape _ _ _ _ _ _ _ _ _ Hs) as (k & ->). open4 F1. open4 F2. unfold twisted_point_add. cbn [pt_coords t_d]. fsteps. rewrite !new_twisted_el. rewrite E, E0, E1, E2, E3, E4, E5, E6. clear E E0 E1 E2 E3 E4 E5 E6. fold d. subst X1 Y1 X2 Y2.
  assert (TT1 : T1 = x1 * y1 * Z1) by (apply (mul_cancel Z1); [exact N1 |]; transitivity (T1 * Z1); [ring | rewrite ET1; ring]). assert (TT2 : T2 = x2 * y2 * Z2) by (apply (mul_cancel Z2); [exact N2 |]; transitivity (T2 * Z2); [ring | rewrite ET2; ring]). subst T1 T2.
  eexists. split; [reflexivity |]. eexists. split; [reflexivity |]. set (m := Z1 * Z2). assert (M : m <> 0) by (apply mul_nz; assumption). apply extended_el; cbn [fst snd].
  - assert (G1 : m - d * (x1 * y1 * Z1) * (x2 * y2 * Z2) = m * (1 - d * x1 * x2 * y1 * y2)) by (unfold m; ring). assert (G2 : m + d * (x1 * y1 * Z1) * (x2 * y2 * Z2) = m * (1 + d * x1 * x2 * y1 * y2)) by (unfold m; ring). rewrite G1, G2. repeat apply mul_nz; assumption.
  - transitivity (m * (x3 * (1 + d * x1 * x2 * y1 * y2)) * (m * (1 - d * x1 * x2 * y1 * y2))); [unfold m; ring |]. rewrite EX. unfold m; ring.
  - transitivity (m * (y3 * (1 - d * x1 * x2 * y1 * y2)) * (m * (1 + d * x1 * x2 * y1 * y2))); [unfold m; ring |]. rewrite EY. unfold m; ring.
  - ring.
Qed.
Theorem C52_double : forall (P R : F * F) o, extended_point P o -> on_edwards d P -> edwards_add d P P R ->
  exists o', twisted_double_general s o = Some o' /\ extended_point R o'.
Proof.
  intros P R [z1 c1 k1] (c & E1 & H1) O A. cbn [pt_coords] in E1. subst c1. destruct P as [x y]. inversion A as [? ? ? ? xr yr D1 D2 EX EY]; subst. destruct H1 as (X & Y & Z & T & F1 & N1 & EX1 & EY1 & ET1). cbn [fst snd on_edwards] in *.
  destruct (tcs_shape _ _ _ _ _ _ _ _ _ Hs) as (k & ->). open4 F1. unfold twisted_double_general. cbn [pt_coords t_zero]. fsteps. rewrite !new_twisted_el. rewrite E, E0, E1. clear E E0 E1 E2. subst X Y.
  assert (G1 : y * Z * (y * Z) - x * Z * (x * Z) = Z * Z * (1 + d * x * x * y * y)) by (transitivity (Z * Z * (y * y - x * x)); [ring | rewrite O; ring]).
  assert (G2 : y * Z * (y * Z) - x * Z * (x * Z) - Z * Z - Z * Z = - (Z * Z * (1 - d * x * x * y * y))) by (rewrite G1; ring).
  eexists. split; [reflexivity |]. eexists. split; [reflexivity |]. rewrite G2, G1. set (m := Z * Z). assert (M : m <> 0) by (apply mul_nz; assumption). apply extended_el; cbn [fst snd].
  - intros E. assert (K : m * (1 - d * x * x * y * y) * (m * (1 + d * x * x * y * y)) = 0) by (transitivity (- (- (m * (1 - d * x * x * y * y)) * (m * (1 + d * x * x * y * y)))); [ring | rewrite E; ring]). revert K. repeat apply mul_nz; assumption.
  - transitivity (m * (xr * (1 + d * x * x * y * y)) * - (m * (1 - d * x * x * y * y))); [ring |]. rewrite EX. unfold m; ring.
  - transitivity (- (m * (1 + d * x * x * y * y) * m * (yr * (1 - d * x * x * y * y)))); [ring |]. rewrite EY. unfold m; ring.
  - ring.
Qed.
(** the zero point, with its flag or without, is the identity *)
Theorem C52_zero : forall c, exists o, new_twisted s c true = Some o /\ pt_coords o = Some (twisted_zero s) /\ extended_point (0, 1 : F) o.
Proof.
  intros c. destruct (tcs_shape _ _ _ _ _ _ _ _ _ Hs) as (k & ->). eexists. split; [reflexivity |]. split; [reflexivity |]. eexists. split; [reflexivity |]. exists 0, 1, 1, 0. split; [repeat constructor |]. split; [apply one_nz |]. cbn [fst snd]. repeat split; ring.
Qed.
(** two affine coordinates, given as any integers *)
Theorem C52_generate : forall x y : Z, exists o, twisted_generate_point s [CInt x; CInt y] false false = Some o /\ extended_point (@of_Z p x, of_Z y) o.
Proof.
  assert (C : forall v, fe_copy (FE 0 (Zpos p)) (Some v) = FE v (Zpos p)) by (intros v; unfold fe_copy; destruct (Z.eqb_spec v 0) as [-> |]; reflexivity).
  intros x y. destruct (tcs_shape _ _ _ _ _ _ _ _ _ Hs) as (k & ->). unfold twisted_generate_point, new_twisted, formal_twisted. cbn [length Nat.eqb orb negb formal map t_zero t_one]. rewrite !C. fsteps. eexists. split; [reflexivity |]. eexists. split; [reflexivity |]. cbn [app fe_copy].
  exists (of_Z x), (of_Z y), 1, (of_Z x * of_Z y). split; [repeat constructor; apply of_Z_val |]. split; [apply one_nz |]. cbn [fst snd]. repeat split; ring.
Qed.
Theorem C52_to_edwards_affine : forall (P : F * F) o, extended_point P o -> pt_zero o = false ->
  exists k, twisted_to_edwards_affine s o = Some (Pt false (Some [FE (val (fst P)) (Zpos p); FE (val (snd P)) (Zpos p); FE 1 (Zpos p); FE 1 (Zpos p)]) k).
Proof.
  intros [x y] [z c k] (c' & E1 & X & Y & Z & T & F1 & N1 & EX1 & EY1 & ET1) EZ. cbn [pt_coords pt_zero fst snd] in *. subst z c. exists k. destruct (tcs_shape _ _ _ _ _ _ _ _ _ Hs) as (k' & ->). open4 F1. unfold twisted_to_edwards_affine. cbn [pt_zero pt_coords pt_copy formal_twisted map length Nat.eqb orb negb formal t_one pt_type]. fsteps. rewrite E, E0, E1. clear E E0 E1. subst X Y.
  assert (G1 : x * Z * (1 / Z) = x) by (field; exact N1). assert (G2 : y * Z * (1 / Z) = y) by (field; exact N1). rewrite G1, G2. reflexivity.
Qed.

Lemma zero_ext (x y z w : F) f k (R : F * F) : z = 0 -> ~ extended_point R (Pt f (Some [FE (val x) (Zpos p); FE (val y) (Zpos p); FE (val z) (Zpos p); FE (val w) (Zpos p)]) k).
Proof.
  intros Z (c & E & X & Y & Z' & T & F1 & N & _). cbn [pt_coords] in E. injection E as <-. apply forall2_4 in F1. destruct F1 as (u1 & u2 & u3 & u4 & EL & [_ A1] & [_ A2] & [_ A3] & [_ A4]). injection EL as <- <- <- <-. cbn [fe_value] in A3. rewrite of_Z_val in A3. congruence.
Qed.
(** FINDING: when d is a square, as it is for the configured curve, the law is not complete: every point with non-zero coordinates
    has a partner on the curve whose sum with it the code returns with z = 0, which stands for no point *)
Theorem C52_incomplete_refuted : forall (r x y : F) o1, r * r = d -> r <> 0 -> x <> 0 -> y <> 0 -> on_edwards d (x, y) -> extended_point (x, y) o1 ->
  exists Q : F * F, on_edwards d Q /\ forall o2, extended_point Q o2 -> exists o, twisted_point_add s o1 o2 = Some o /\ forall R : F * F, ~ extended_point R o.
Proof.
  intros r x y [z1 c1 k1] R NR NX NY H (c & E1 & H1). cbn [pt_coords] in E1. subst c1. exists (1 / (r * y), 1 / (r * x)). split.
  - cbn [on_edwards] in *. apply (mul_cancel (r * r * x * x * y * y)); [repeat apply mul_nz; assumption |]. transitivity (y * y - x * x); [field; auto |]. rewrite H, <- R. field. auto.
  - intros [z2 c2 k2] (c' & E2 & H2). cbn [pt_coords] in E2. subst c2. destruct H1 as (X1 & Y1 & Z1 & T1 & F1 & N1 & EX1 & EY1 & ET1), H2 as (X2 & Y2 & Z2 & T2 & F2 & N2 & EX2 & EY2 & ET2). cbn [fst snd] in *.
    destruct (tcs_shape _ _ _ _ _ _ _ _ _ Hs) as (k & ->). open4 F1. open4 F2. unfold twisted_point_add. cbn [pt_coords t_d]. fsteps. rewrite !new_twisted_el. rewrite E, E0, E1, E2, E3, E4, E5, E6. clear E E0 E1 E2 E3 E4 E5 E6. fold d. subst X1 Y1 X2 Y2.
    assert (TT1 : T1 = x * y * Z1) by (apply (mul_cancel Z1); [exact N1 |]; transitivity (T1 * Z1); [ring | rewrite ET1; ring]). assert (TT2 : T2 = 1 / (r * y) * (1 / (r * x)) * Z2) by (apply (mul_cancel Z2); [exact N2 |]; transitivity (T2 * Z2); [ring | rewrite ET2; ring]). subst T1 T2.
    eexists. split; [reflexivity |]. intros Q. apply zero_ext. assert (K : d * (x * y * Z1) * (1 / (r * y) * (1 / (r * x)) * Z2) = Z1 * Z2) by (rewrite <- R; field; auto). rewrite K. ring.
Qed.
(** FINDING: a point object flagged zero cannot be converted back: the conversion empties its own argument and raises *)
Theorem C52_zero_convert_refuted : forall o, pt_zero o = true -> twisted_convert_to_affine s o = None.
Proof. intros o Z. unfold twisted_convert_to_affine, twisted_to_edwards_affine. rewrite Z. reflexivity. Qed.

(** ** to and from the Weierstrass curve *)
Let alpha : F := of_Z alphai.
Let s0 : F := of_Z si.
Let ma : F := of_Z mai.
Let mb : F := of_Z mbi.
Let t : F := of_Z ti.
Section Twist.
Variables a b : F.
Hypothesis Par : twist_parameters a b alpha s0 ma mb t d.
Hypothesis Two : (1 + 1 : F) <> 0.
Hypothesis Three : (1 + 1 + 1 : F) <> 0.
Lemma s0_nz : s0 <> 0.
Proof. intros Z. destruct Par as (_ & S & _). apply one_nz. rewrite <- S, Z. ring. Qed.
Lemma montgomery_equation x y : on_curve a b (Some (x, y)) -> s0 * (s0 * y) * (s0 * y) = (s0 * (x - alpha)) * ((s0 * (x - alpha)) * (s0 * (x - alpha)) + ma * (s0 * (x - alpha)) + 1).
Proof.
  cbn [on_curve]. intros H. destruct Par as (A & S & M & _). rewrite M. transitivity (s0 * (x - alpha) * (s0 * (x - alpha) * (s0 * (x - alpha)) + (1 + 1 + 1) * alpha * s0 * (s0 * (x - alpha)) + ((1 + 1 + 1) * alpha * alpha + a) * s0 * s0)); [| rewrite S; reflexivity]. assert (B : b = 0 - alpha * alpha * alpha - a * alpha) by (rewrite <- A; ring). transitivity (s0 * s0 * s0 * (y * y)); [ring |]. rewrite H, B. ring.
Qed.
(** the image lies on the Edwards curve *)
Theorem C52_twisted_on_curve : forall x y, on_curve a b (Some (x, y)) -> y <> 0 -> s0 * (x - alpha) + 1 <> 0 -> on_edwards d (twisted alpha s0 t (x, y)).
Proof.
  intros x y H NY NU. pose proof (montgomery_equation x y H) as ME. pose proof s0_nz as S0. destruct Par as (_ & _ & _ & _ & T & D & _). unfold twisted, on_edwards. set (u := s0 * (x - alpha)) in *. assert (NV : s0 * y <> 0) by (apply mul_nz; assumption). set (v := s0 * y) in *.
  apply (mul_cancel (s0 * v * v * (u + 1) * (u + 1))); [repeat apply mul_nz; assumption |].
  transitivity (s0 * v * v * ((u - 1) * (u - 1)) - t * t * s0 * (u * u) * ((u + 1) * (u + 1))); [field; auto |]. transitivity (s0 * v * v * ((u + 1) * (u + 1)) + d * (t * t * s0) * (u * u) * ((u - 1) * (u - 1))); [| field; auto]. rewrite ME, T.
  transitivity (u * (u * u + ma * u + 1) * ((u + 1) * (u + 1)) - (d * (ma + (1 + 1))) * (u * u) * ((u - 1) * (u - 1))); [rewrite D; ring | ring].
Qed.
(** the code's twist computes that image; untwist inverts it *)
Theorem C52_twist : forall x y, of_Z y <> (0 : F) -> s0 * (of_Z x - alpha) + 1 <> 0 ->
  twist s [FE x (Zpos p); FE y (Zpos p)] = Some (Some [FE (val (fst (twisted alpha s0 t (of_Z x, of_Z y)))) (Zpos p); FE (val (snd (twisted alpha s0 t (of_Z x, of_Z y)))) (Zpos p)]).
Proof.
  intros x y NY NU. pose proof s0_nz as S0. destruct (tcs_shape _ _ _ _ _ _ _ _ _ Hs) as (k & ->). unfold twist. cbn [t_alpha t_s t_zero t_one t_t]. fsteps. fold alpha s0 t.
  assert (Z : forall q : F, q <> 0 -> fe_eq (FE (val q) (Zpos p)) (FE 0 (Zpos p)) = false). { intros q N. destruct (fe_eq _ _) eqn:E; [| reflexivity]. destruct N. change (FE 0 (Zpos p)) with (FE (0 mod Zpos p) (Zpos p)) in E. change (0 mod Zpos p)%Z with (val (@of_Z p 0)) in E. apply fe_eq_el in E. exact E. }
  rewrite !Z by (first [exact NU | apply mul_nz; assumption]). unfold twisted. cbn [fst snd]. do 3 f_equal. f_equal. f_equal. ring.
Qed.
Theorem C52_untwist : forall x y, of_Z y <> (0 : F) -> s0 * (of_Z x - alpha) + 1 <> 0 -> of_Z x <> alpha ->
  exists l, twist s [FE x (Zpos p); FE y (Zpos p)] = Some (Some l) /\ untwist s l = Some [FE (val (@of_Z p x)) (Zpos p); FE (val (@of_Z p y)) (Zpos p)].
Proof.
  intros x y NY NU NX. eexists. split; [apply C52_twist; assumption |]. pose proof s0_nz as S0. destruct Par as (_ & _ & M & MB & T & D & T0). destruct (tcs_shape _ _ _ _ _ _ _ _ _ Hs) as (k & ->). unfold untwist. cbn [t_t t_one t_zero t_mb t_ma]. change (fe_copy (FE 0 (Zpos p)) (Some 3%Z)) with (FE 3 (Zpos p)). fsteps. fold t mb ma. replace (@of_Z p 3) with (1 + 1 + 1 : F) by (rewrite !of_Z_add; reflexivity).
  unfold twisted. cbn [fst snd]. rewrite MB, M. set (u := s0 * (of_Z x - alpha)) in *. assert (NV : s0 * of_Z y <> 0) by (apply mul_nz; assumption). set (v := s0 * of_Z y) in *. assert (NU' : u <> 0) by (apply mul_nz; [exact S0 | apply sub_nz; exact NX]).
  assert (A0 : 1 + (u - 1) / (u + 1) = (1 + 1) * u / (u + 1)) by (field; exact NU). assert (A1 : 1 - (u - 1) / (u + 1) = (1 + 1) / (u + 1)) by (field; exact NU). rewrite A0, A1.
  assert (G0 : (1 + 1) * u / (u + 1) / ((1 + 1) / (u + 1)) = u) by (generalize (1 + 1 : F) (u + 1) Two NU; intros w z W Z; field; auto).
  assert (G1 : (1 + 1) * u / (u + 1) / ((1 + 1) / (u + 1) * (t * (u / v) / t)) = v) by (generalize (1 + 1 : F) (u + 1) Two NU; intros w z W Z; field; auto).
  rewrite G0, G1. do 2 f_equal; [| f_equal]; do 2 f_equal.
  - unfold u. generalize (1 + 1 + 1 : F) Three. intros w W. field. auto.
  - unfold v. field. assumption.
Qed.
(** the other way round: untwist takes points of the Edwards curve to the Weierstrass curve, and twist takes them back *)
Theorem C52_untwist_twist : forall x y : F, on_edwards d (x, y) -> x <> 0 -> 1 + y <> 0 -> 1 - y <> 0 ->
  exists x' y' : F, untwist s [FE (val x) (Zpos p); FE (val y) (Zpos p)] = Some [FE (val x') (Zpos p); FE (val y') (Zpos p)] /\ on_curve a b (Some (x', y')) /\ twisted alpha s0 t (x', y') = (x, y).
Proof.
  intros x y H NX N1 N2. pose proof s0_nz as S0. destruct Par as (A & S & M & MB & T & D & T0). destruct (tcs_shape _ _ _ _ _ _ _ _ _ Hs) as (k & ->). unfold untwist. cbn [t_t t_one t_zero t_mb t_ma]. change (fe_copy (FE 0 (Zpos p)) (Some 3%Z)) with (FE 3 (Zpos p)). fsteps. fold t mb ma. replace (@of_Z p 3) with (1 + 1 + 1 : F) by (rewrite !of_Z_add; reflexivity).
  eexists. eexists. split; [reflexivity |]. rewrite MB, M. set (u := (1 + y) / (1 - y)). assert (NU : u <> 0). { intros Z. apply N1. transitivity (u * (1 - y)); [unfold u; field; exact N2 | rewrite Z; ring]. }
  set (v := (1 + y) / ((1 - y) * (x / t))). assert (V : v = u * t / x) by (unfold v, u; field; auto). assert (NV : v <> 0). { intros Z. assert (K : u * t = 0) by (transitivity (v * x); [rewrite V; field; exact NX | rewrite Z; ring]). destruct (mul_zero _ _ K); contradiction. }
  assert (X' : u / s0 + (1 + 1 + 1) * alpha * s0 / ((1 + 1 + 1) * s0) = u / s0 + alpha) by (generalize (1 + 1 + 1 : F) Three; intros w W; field; auto). rewrite X'.
  assert (UY : u * (1 - y) = 1 + y) by (unfold u; field; exact N2). clearbody v. clearbody u. assert (Y : y = (u - 1) / (u + 1)). { assert (NU1 : u + 1 <> 0). { intros Z. apply Two. transitivity ((u + 1) * (1 - y)); [| rewrite Z; ring]. transitivity (u * (1 - y) + (1 - y)); [rewrite UY; ring | ring]. } apply (mul_cancel (u + 1)); [exact NU1 |]. transitivity (u - 1); [| field; exact NU1]. assert (Q : u = 1 + y + u * y) by (rewrite <- UY; ring). rewrite Q at 2. ring. }
  assert (NU1 : u + 1 <> 0). { intros Z. apply Two. transitivity ((u + 1) * (1 - y)); [| rewrite Z; ring]. transitivity (u * (1 - y) + (1 - y)); [rewrite UY; ring | ring]. }
  assert (ME : s0 * v * v = u * (u * u + ma * u + 1)).
  { cbn [on_edwards] in H. assert (XV : x * v = u * t) by (rewrite V; field; exact NX). assert (K : y * (u + 1) = u - 1) by (transitivity ((u - 1) / (u + 1) * (u + 1)); [f_equal; exact Y | field; exact NU1]).
    assert (H' : (u - 1) * (u - 1) * (v * v) - (u * t) * (u * t) * ((u + 1) * (u + 1)) = (u + 1) * (u + 1) * (v * v) + d * ((u * t) * (u * t)) * ((u - 1) * (u - 1))).
    { rewrite <- XV, <- K. transitivity ((y * y - x * x) * (v * v * (u + 1) * (u + 1))); [ring |]. rewrite H. ring. }
    assert (FOUR : (1 + 1) * (1 + 1) * u <> 0) by (repeat apply mul_nz; assumption). apply (mul_cancel _ _ _ FOUR). transitivity (s0 * ((u + 1) * (u + 1) * (v * v) - (u - 1) * (u - 1) * (v * v))); [ring |].
    transitivity (s0 * (- (u * t * (u * t) * ((u + 1) * (u + 1))) - d * (u * t * (u * t)) * ((u - 1) * (u - 1)))).
    { f_equal. transitivity ((u + 1) * (u + 1) * (v * v) + d * (u * t * (u * t)) * ((u - 1) * (u - 1)) - d * (u * t * (u * t)) * ((u - 1) * (u - 1)) - (u - 1) * (u - 1) * (v * v)); [ring |]. rewrite <- H'. ring. }
    transitivity (- (t * t * s0) * (u * u) * ((u + 1) * (u + 1)) - d * (t * t * s0) * (u * u) * ((u - 1) * (u - 1))); [ring |]. rewrite T. transitivity ((ma + (1 + 1)) * (u * u) * ((u + 1) * (u + 1)) + d * (ma + (1 + 1)) * (u * u) * ((u - 1) * (u - 1))); [ring |]. rewrite D. ring. }
  split.
  - cbn [on_curve]. apply (mul_cancel (s0 * s0 * s0)); [repeat apply mul_nz; assumption |]. transitivity (s0 * v * v); [field; exact S0 |]. rewrite ME, M. transitivity (u * (u * u + (1 + 1 + 1) * alpha * s0 * u + ((1 + 1 + 1) * alpha * alpha + a) * s0 * s0)); [rewrite S; reflexivity |]. assert (B : b = 0 - alpha * alpha * alpha - a * alpha) by (rewrite <- A; ring). rewrite B. field. exact S0.
  - unfold twisted. assert (U' : s0 * (u / s0 + alpha - alpha) = u) by (field; exact S0). assert (V' : s0 * (v / s0) = v) by (field; exact S0). rewrite U', V', <- Y. f_equal. rewrite V. field. repeat split; assumption.
Qed.
(** chord and tangent in one formula *)
Lemma slope_form (x1 y1 x2 y2 x3 y3 : F) : on_curve a b (Some (x1, y1)) -> on_curve a b (Some (x2, y2)) -> chord_tangent a (Some (x1, y1)) (Some (x2, y2)) (Some (x3, y3)) ->
  exists l, y2 = y1 + l * (x2 - x1) /\ l * (y1 + y2) = x1 * x1 + x1 * x2 + x2 * x2 + a /\ x3 = l * l - x1 - x2 /\ y3 = l * (x1 - x3) - y1.
Proof.
  intros H1 H2 C. inversion C as [| | | ? ? ? ? ? ? l N L E3 E4 | ? ? ? ? l N L E3 E4]; subst; exists l.
  - destruct (chord_coefficients p Hp a b x1 y1 x2 y2 l H1 H2 N L) as (Y2 & A & _). split; [exact Y2 |]. split; [rewrite A; ring |]. split; reflexivity.
  - split; [ring |]. split; [exact L |]. split; ring.
Qed.
Lemma hom (u1 v1 u2 v2 u3 v3 l q m : F) : v2 = v1 + l * (u2 - u1) -> q * v1 * v1 = u1 * u1 * u1 + m * u1 * u1 + u1 ->
  q * l * (v1 + v2) = u1 * u1 + u1 * u2 + u2 * u2 + m * (u1 + u2) + 1 -> u3 = q * l * l - m - u1 - u2 -> v3 = l * (u1 - u3) - v1 ->
  u3 * (q * v1 * v2 * (u1 + 1) * (u2 + 1) + (m - (1 + 1)) * u1 * u2 * (u1 - 1) * (u2 - 1)) = q * v3 * (u1 * v2 * (u2 - 1) * (u1 + 1) + u2 * v1 * (u1 - 1) * (u2 + 1)) /\
  (u3 - 1) * (q * v1 * v2 * (u1 + 1) * (u2 + 1) - (m - (1 + 1)) * u1 * u2 * (u1 - 1) * (u2 - 1)) = (u3 + 1) * (q * v1 * v2 * (u1 - 1) * (u2 - 1) - (m + (1 + 1)) * u1 * u2 * (u1 + 1) * (u2 + 1)).
Proof. clearbody d alpha s0 ma mb t. clear Par. intros. split; nsatz. Qed.
(** the map is a homomorphism: the Edwards sum of the images is the image of the chord or tangent sum *)
Theorem C52_twist_homomorphism : forall x1 y1 x2 y2 x3 y3 : F, on_curve a b (Some (x1, y1)) -> on_curve a b (Some (x2, y2)) -> chord_tangent a (Some (x1, y1)) (Some (x2, y2)) (Some (x3, y3)) ->
  y1 <> 0 -> y2 <> 0 -> y3 <> 0 -> s0 * (x1 - alpha) + 1 <> 0 -> s0 * (x2 - alpha) + 1 <> 0 -> s0 * (x3 - alpha) + 1 <> 0 ->
  (let '(X1, Y1) := twisted alpha s0 t (x1, y1) in let '(X2, Y2) := twisted alpha s0 t (x2, y2) in 1 + d * X1 * X2 * Y1 * Y2 <> 0 /\ 1 - d * X1 * X2 * Y1 * Y2 <> 0) ->
  edwards_add d (twisted alpha s0 t (x1, y1)) (twisted alpha s0 t (x2, y2)) (twisted alpha s0 t (x3, y3)).
Proof.
  intros x1 y1 x2 y2 x3 y3 H1 H2 C NY1 NY2 NY3 NU1 NU2 NU3. pose proof s0_nz as S0. pose proof (montgomery_equation x1 y1 H1) as M1. destruct (slope_form x1 y1 x2 y2 x3 y3 H1 H2 C) as (l & L1 & L2 & L3 & L4). destruct Par as (A & S & M & MB & T & D & T0).
  set (u1 := s0 * (x1 - alpha)) in *. set (v1 := s0 * y1) in *. set (u2 := s0 * (x2 - alpha)) in *. set (v2 := s0 * y2) in *. set (u3 := s0 * (x3 - alpha)) in *. set (v3 := s0 * y3) in *.
  destruct (hom u1 v1 u2 v2 u3 v3 l s0 ma) as [K1 K2].
  { unfold v2, v1, u2, u1. rewrite L1. ring. }
  { rewrite M1. ring. }
  { transitivity (s0 * s0 * (l * (y1 + y2))); [unfold v1, v2; ring |]. rewrite L2. transitivity (u1 * u1 + u1 * u2 + u2 * u2 + ma * (u1 + u2) + ((1 + 1 + 1) * alpha * alpha + a) * s0 * s0); [| rewrite S; reflexivity]. rewrite M. unfold u1, u2. ring. }
  { unfold u3. rewrite L3, M. unfold u1, u2. ring. }
  { unfold v3. rewrite L4. unfold v1, u1, u3. ring. }
  assert (V1 : v1 <> 0) by (apply mul_nz; assumption). assert (V2 : v2 <> 0) by (apply mul_nz; assumption). assert (V3 : v3 <> 0) by (apply mul_nz; assumption).
  assert (DT : d * (t * t) * s0 = ma - (1 + 1)). { transitivity (d * (t * t * s0)); [ring |]. rewrite T. transitivity (- (d * (ma + (1 + 1)))); [ring |]. rewrite D. ring. }
  clear M1 L1 L2 L3 L4 C H1 H2. unfold twisted. fold u1 v1 u2 v2 u3 v3. clearbody u1 v1 u2 v2 u3 v3. intros [B1 B2]. constructor; [exact B1 | exact B2 | |].
  - apply (mul_cancel (s0 * v1 * v2 * v3 * (u1 + 1) * (u2 + 1))); [repeat apply mul_nz; assumption |]. transitivity (t * (u3 * (s0 * v1 * v2 * (u1 + 1) * (u2 + 1) + d * (t * t) * s0 * u1 * u2 * (u1 - 1) * (u2 - 1)))); [field; repeat split; assumption |]. rewrite DT, K1. field. repeat split; assumption.
  - apply (mul_cancel (s0 * v1 * v2 * (u3 + 1) * (u1 + 1) * (u2 + 1))); [repeat apply mul_nz; assumption |]. transitivity ((u3 - 1) * (s0 * v1 * v2 * (u1 + 1) * (u2 + 1) - d * (t * t) * s0 * u1 * u2 * (u1 - 1) * (u2 - 1))); [field; repeat split; assumption |]. rewrite DT, K2.
    transitivity ((u3 + 1) * (s0 * v1 * v2 * (u1 - 1) * (u2 - 1) + t * t * s0 * u1 * u2 * (u1 + 1) * (u2 + 1))); [rewrite T; ring |]. field. repeat split; assumption.
Qed.
(** converting back: the object that stands for the image of a Weierstrass point gives that point *)
Theorem C52_convert_to_affine : forall (x y : F) o, y <> 0 -> s0 * (x - alpha) + 1 <> 0 -> x <> alpha -> extended_point (twisted alpha s0 t (x, y)) o -> pt_zero o = false ->
  exists k, twisted_convert_to_affine s o = Some (Pt false (Some [FE (val x) (Zpos p); FE (val y) (Zpos p); FE 1 (Zpos p); FE 1 (Zpos p)]) k).
Proof.
  intros x y o NY NU NX H Z. destruct (C52_to_edwards_affine _ o H Z) as (k & E). exists k. unfold twisted_convert_to_affine. rewrite E. cbn [pt_coords pt_zero pt_type].
  destruct (C52_untwist (val x) (val y)) as (l & T & U); rewrite ?of_Z_val; try assumption. assert (TT := C52_twist (val x) (val y)). rewrite !of_Z_val in TT. specialize (TT NY NU). rewrite T in TT. assert (L : l = [FE (val (fst (twisted alpha s0 t (x, y)))) (Zpos p); FE (val (snd (twisted alpha s0 t (x, y)))) (Zpos p)]) by congruence. rewrite L in U. rewrite !of_Z_val in U. rewrite U. reflexivity.
Qed.
(** generating with the twist *)
Lemma extended_2 (P : F * F) : exists o, new_twisted s (map CFe [FE (val (fst P)) (Zpos p); FE (val (snd P)) (Zpos p)]) false = Some o /\ extended_point P o /\ pt_zero o = false.
Proof.
  destruct P as [x y]. destruct (tcs_shape _ _ _ _ _ _ _ _ _ Hs) as (k & ->). unfold new_twisted, formal_twisted. cbn [length Nat.eqb orb negb formal map t_zero t_one fst snd]. fsteps. eexists. split; [reflexivity |]. split; [| reflexivity]. eexists. split; [reflexivity |]. cbn [app fe_copy].
  exists x, y, 1, (x * y). split; [repeat constructor; apply of_Z_val |]. split; [apply one_nz |]. cbn [fst snd]. repeat split; ring.
Qed.
Lemma formal_2 x y : formal (t_zero s) [CInt x; CInt y] = [FE x (Zpos p); FE y (Zpos p)].
Proof.
  assert (C : forall v, fe_copy (FE 0 (Zpos p)) (Some v) = FE v (Zpos p)) by (intros v; unfold fe_copy; destruct (Z.eqb_spec v 0) as [-> |]; reflexivity).
  destruct (tcs_shape _ _ _ _ _ _ _ _ _ Hs) as (k & ->). cbn [formal map t_zero]. rewrite !C. reflexivity.
Qed.
Theorem C52_generate_twisted : forall x y : Z, of_Z y <> (0 : F) -> s0 * (of_Z x - alpha) + 1 <> 0 ->
  exists o, twisted_generate_point s [CInt x; CInt y] false true = Some o /\ extended_point (twisted alpha s0 t (of_Z x, of_Z y)) o /\ pt_zero o = false.
Proof. intros x y NY NU. unfold twisted_generate_point. rewrite formal_2, C52_twist by assumption. apply extended_2. Qed.
(** end to end: twist both points, add on the Edwards curve, convert back: the result is the chord or tangent sum *)
Theorem C52_addition_through_the_twist : forall (x1 y1 x2 y2 : Z) (x3 y3 : F), on_curve a b (Some (of_Z x1, of_Z y1)) -> on_curve a b (Some (of_Z x2, of_Z y2)) ->
  chord_tangent a (Some (of_Z x1, of_Z y1)) (Some (of_Z x2, of_Z y2)) (Some (x3, y3)) ->
  of_Z y1 <> (0 : F) -> of_Z y2 <> (0 : F) -> y3 <> 0 -> s0 * (of_Z x1 - alpha) + 1 <> 0 -> s0 * (of_Z x2 - alpha) + 1 <> 0 -> s0 * (x3 - alpha) + 1 <> 0 -> x3 <> alpha ->
  (let '(X1, Y1) := twisted alpha s0 t (of_Z x1, of_Z y1) in let '(X2, Y2) := twisted alpha s0 t (of_Z x2, of_Z y2) in 1 + d * X1 * X2 * Y1 * Y2 <> 0 /\ 1 - d * X1 * X2 * Y1 * Y2 <> 0) ->
  exists o1 o2 o3 k, twisted_generate_point s [CInt x1; CInt y1] false true = Some o1 /\ twisted_generate_point s [CInt x2; CInt y2] false true = Some o2 /\ twisted_point_add s o1 o2 = Some o3 /\
    twisted_convert_to_affine s o3 = Some (Pt false (Some [FE (val x3) (Zpos p); FE (val y3) (Zpos p); FE 1 (Zpos p); FE 1 (Zpos p)]) k).
Proof.
  intros x1 y1 x2 y2 x3 y3 H1 H2 C NY1 NY2 NY3 NU1 NU2 NU3 NX3 B. destruct (C52_generate_twisted x1 y1 NY1 NU1) as (o1 & G1 & X1 & _). destruct (C52_generate_twisted x2 y2 NY2 NU2) as (o2 & G2 & X2 & _).
  pose proof (C52_twist_homomorphism _ _ _ _ _ _ H1 H2 C NY1 NY2 NY3 NU1 NU2 NU3 B) as A. destruct (C52_point_add _ _ _ _ _ X1 X2 A) as (o3 & G3 & X3).
  assert (Z : pt_zero o3 = false). { unfold twisted_point_add in G3. destruct (pt_coords o1) as [[| ? [| ? [| ? [| ? [|]]]]] |]; try discriminate G3. destruct (pt_coords o2) as [[| ? [| ? [| ? [| ? [|]]]]] |]; try discriminate G3. repeat match type of G3 with match ?x with _ => _ end = _ => destruct x; [| discriminate G3] end. rewrite new_twisted_el in G3. injection G3 as <-. reflexivity. }
  destruct (C52_convert_to_affine x3 y3 o3 NY3 NU3 NX3 X3 Z) as (k & K). exists o1, o2, o3, k. auto.
Qed.
(** the coordinates handed to the accelerated code *)
Theorem C52_int_coordinates : forall x y : Z, of_Z y <> (0 : F) -> s0 * (of_Z x - alpha) + 1 <> 0 ->
  let '(X, Y) := twisted alpha s0 t (of_Z x, of_Z y) in twist_int_coordinates s [x; y] = Some [val X; val Y; 1%Z; val (X * Y)].
Proof.
  intros x y NY NU. assert (C : forall v, fe_copy (FE 0 (Zpos p)) (Some v) = FE v (Zpos p)) by (intros v; unfold fe_copy; destruct (Z.eqb_spec v 0) as [-> |]; reflexivity).
  assert (M : map (fun v => fe_copy (t_zero s) (Some v)) [x; y] = [FE x (Zpos p); FE y (Zpos p)]) by (destruct (tcs_shape _ _ _ _ _ _ _ _ _ Hs) as (k & ->); cbn [map t_zero]; rewrite !C; reflexivity).
  assert (O : fe_copy (t_one s) None = FE 1 (Zpos p)) by (destruct (tcs_shape _ _ _ _ _ _ _ _ _ Hs) as (k & ->); reflexivity).
  destruct (twisted alpha s0 t (of_Z x, of_Z y)) as [X Y] eqn:E. unfold twist_int_coordinates. rewrite M, C52_twist by assumption. rewrite E. cbn [fst snd]. rewrite O. fsteps. reflexivity.
Qed.
(** FINDING: a point whose y is zero, or with s (x - alpha) = -1, has no image; the conversion hands out the identity for it instead *)
Theorem C52_exceptional_points_refuted : forall x y : Z, of_Z y = (0 : F) \/ s0 * (of_Z x - alpha) + 1 = 0 -> twist_int_coordinates s [x; y] = Some [0; 1; 1; 0]%Z.
Proof.
  intros x y H. assert (C : forall v, fe_copy (FE 0 (Zpos p)) (Some v) = FE v (Zpos p)) by (intros v; unfold fe_copy; destruct (Z.eqb_spec v 0) as [-> |]; reflexivity). pose proof s0_nz as S0.
  destruct (tcs_shape _ _ _ _ _ _ _ _ _ Hs) as (k & ->). unfold twist_int_coordinates. cbn [map t_zero]. rewrite !C. unfold twist. cbn [t_alpha t_s t_zero t_one t_t]. fsteps. fold alpha s0 t.
  assert (Z : fe_eq (FE (val (0 : F)) (Zpos p)) (FE 0 (Zpos p)) = true) by (change (val (@of_Z p 0)) with (0 mod Zpos p)%Z; rewrite Z.mod_0_l by discriminate; unfold fe_eq; cbn [fe_value fe_prime]; rewrite !Z.eqb_refl; reflexivity).
  destruct (fe_eq (FE (val (s0 * of_Z y)) (Zpos p)) _) eqn:E; [reflexivity |]. destruct H as [H | H].
  - exfalso. rewrite H in E. replace (s0 * 0) with (0 : F) in E by ring. congruence.
  - rewrite H, Z. reflexivity.
Qed.
(** FINDING: an identity that is not flagged, such as one returned by an addition, is converted to (alpha, 0), a point of order two *)
Theorem C52_identity_convert_refuted : forall o, extended_point (0, 1 : F) o -> pt_zero o = false ->
  exists k, twisted_convert_to_affine s o = Some (Pt false (Some [FE (val alpha) (Zpos p); FE 0 (Zpos p); FE 1 (Zpos p); FE 1 (Zpos p)]) k) /\ on_curve a b (Some (alpha, 0)).
Proof.
  intros o H Z. destruct (C52_to_edwards_affine _ o H Z) as (k & E). exists k. pose proof s0_nz as S0. destruct Par as (A & _ & M & MB & _). split.
  - unfold twisted_convert_to_affine. rewrite E. cbn [pt_coords pt_zero pt_type fst snd]. destruct (tcs_shape _ _ _ _ _ _ _ _ _ Hs) as (k' & E'). rewrite E'. unfold untwist. cbn [t_t t_one t_zero t_mb t_ma]. change (fe_copy (FE 0 (Zpos p)) (Some 3%Z)) with (FE 3 (Zpos p)). fsteps. fold t mb ma. replace (@of_Z p 3) with (1 + 1 + 1 : F) by (rewrite !of_Z_add; reflexivity). rewrite MB, M.
    assert (I : forall q : F, q / (1 - 1) = 0). { intros q. replace (1 - 1 : F) with (0 : F) by ring. rewrite (Fdiv_def (Fp_field p Hp)). replace (f_inv (0 : F)) with (0 : F); [ring |]. unfold f_inv. f_equal. cbn [val of_Z]. rewrite Z.mod_0_l by discriminate. rewrite Z.pow_0_l; [reflexivity |]. assert (Zpos p <> 2)%Z by (intros E2; apply Two; apply val_inj; cbn [val f_add of_Z]; rewrite E2; reflexivity). lia. }
    rewrite I. replace ((1 - 1) * (0 / t)) with (1 - 1 : F) by (replace (1 - 1 : F) with (0 : F) by ring; ring). rewrite I. cbn [app]. assert (G1 : 0 / s0 + (1 + 1 + 1) * alpha * s0 / ((1 + 1 + 1) * s0) = alpha) by (generalize (1 + 1 + 1 : F) Three; intros w W; field; auto). assert (G2 : 0 / s0 = (0 : F)) by (field; exact S0). rewrite G1, G2. change (val (@of_Z p 0)) with (0 mod Zpos p)%Z. rewrite Z.mod_0_l by discriminate. reflexivity.
  - cbn [on_curve]. transitivity (alpha * alpha * alpha + a * alpha + b); [rewrite A; ring | ring].
Qed.
(** the projective variant agrees with the affine one when z = 1 *)
Theorem C52_twist_projective_partial : forall x y : Z, of_Z y <> (0 : F) -> s0 * (of_Z x - alpha) + 1 <> 0 ->
  exists c, twist_projective s [FE x (Zpos p); FE y (Zpos p); FE 1 (Zpos p)] = Some c /\ projective (twisted alpha s0 t (of_Z x, of_Z y)) c.
Proof.
  intros x y NY NU. pose proof s0_nz as S0. destruct (tcs_shape _ _ _ _ _ _ _ _ _ Hs) as (k & ->). unfold twist_projective. cbn [t_alpha t_s t_zero t_one t_t]. fsteps. fold alpha s0 t. eexists. split; [reflexivity |]. unfold projective. do 3 eexists. split; [repeat constructor; apply of_Z_val |]. assert (V : s0 * of_Z y <> 0) by (apply mul_nz; assumption). set (u := s0 * (of_Z x - alpha)) in *. set (v := s0 * of_Z y) in *. unfold twisted. fold u v. cbn [fst snd]. clearbody u v.
  cbn [fe_value]. rewrite !of_Z_val. split; [repeat apply mul_nz; try assumption; apply one_nz |]. split; field; assumption.
Qed.
End Twist.
End Edwards.

(** FINDING: with z <> 1 the projective variant is wrong: (4, 2) given as (8, 4, 2) over the field with 13 elements *)
Theorem C52_twist_projective_refuted : exists s c, tcs_new 13 0 4 2 5 4 5 2 = Some s /\ twist_projective s [FE 8 13; FE 4 13; FE 2 13] = Some c /\
  on_curve (of_Z 0) (@of_Z 13 5) (Some (of_Z 4, of_Z 2)) /\ projective (of_Z 4, of_Z 2 : Fp 13) [FE 8 13; FE 4 13; FE 2 13] /\ ~ projective (twisted (of_Z 2) (of_Z 5) (of_Z 2) (of_Z 4, of_Z 2 : Fp 13)) c.
Proof.
  do 2 eexists. split; [vm_compute; reflexivity |]. split; [vm_compute; reflexivity |]. split; [apply val_inj; vm_compute; reflexivity |]. split.
  - exists (of_Z 8), (of_Z 4), (of_Z 2). split; [repeat constructor |]. split; [intros E; apply (f_equal val) in E; discriminate E |]. split; apply val_inj; vm_compute; reflexivity.
  - intros (X & Y & Z & F1 & N & EX & _). apply forall2_3 in F1. destruct F1 as (u1 & u2 & u3 & EL & [_ A1] & [_ A2] & [_ A3]). injection EL as <- <- <-. cbn [fe_value] in A1, A3. subst X Z. apply (f_equal val) in EX. vm_compute in EX. discriminate EX.
Qed.
Example C52_example : exists s o1 o2 o3 o4 o5, tcs_new 13 0 4 2 5 4 5 2 = Some s /\ twist_parameters (of_Z 0) (@of_Z 13 5) (of_Z 2) (of_Z 5) (of_Z 4) (of_Z 5) (of_Z 2) (of_Z 4) /\
  on_curve (of_Z 0) (@of_Z 13 5) (Some (of_Z 10, of_Z 2)) /\ on_curve (of_Z 0) (@of_Z 13 5) (Some (of_Z 4, of_Z 2)) /\
  chord_tangent (of_Z 0) (Some (@of_Z 13 10, of_Z 2)) (Some (of_Z 4, of_Z 2)) (Some (of_Z 12, of_Z 11)) /\
  twisted_generate_point s [CInt 10; CInt 2] false true = Some o1 /\ twisted_generate_point s [CInt 4; CInt 2] false true = Some o2 /\ twisted_point_add s o1 o2 = Some o3 /\
  pt_coords o3 = Some [FE 3 13; FE 3 13; FE 1 13; FE 9 13] /\ option_map pt_coords (twisted_convert_to_affine s o3) = Some (Some [FE 12 13; FE 11 13; FE 1 13; FE 1 13]) /\
  edwards_add (of_Z 4) (@of_Z 13 8, of_Z 0) (of_Z 2, of_Z 2) (of_Z 3, of_Z 3) /\
  twisted_point_add s o2 o2 = Some o4 /\ pt_coords o4 = Some [FE 3 13; FE 0 13; FE 0 13; FE 12 13] /\ (of_Z 2 * of_Z 2 = @of_Z 13 4)%fp /\
  twisted_double_general s o1 = Some o5 /\ twist_int_coordinates s [4; 2]%Z = Some [2; 2; 1; 4]%Z /\ twist_int_coordinates s [7; 6]%Z = Some [0; 1; 1; 0]%Z /\
  (forall r : Fp 13, (r * r)%fp <> of_Z 2) /\ (@of_Z 13 5 * of_Z 5 = - of_Z 1)%fp.
Proof.
  assert (NE : forall u v, (u mod 13 <> v mod 13)%Z -> @of_Z 13 u <> of_Z v) by (intros u v H E; apply H; apply (f_equal val) in E; exact E).
  assert (NV : forall u v : Fp 13, (val u =? val v)%Z = false -> u <> v) by (intros u v H E; subst; rewrite Z.eqb_refl in H; discriminate H).
  do 6 eexists. split; [vm_compute; reflexivity |]. split; [repeat split; [apply val_inj; vm_compute; reflexivity .. | apply NE; discriminate] |].
  split; [apply val_inj; vm_compute; reflexivity |]. split; [apply val_inj; vm_compute; reflexivity |].
  split; [apply (ct_chord _ _ _ _ _ _ _ _ (of_Z 0)); [apply NE; discriminate | apply val_inj; vm_compute; reflexivity ..] |].
  split; [vm_compute; reflexivity |]. split; [vm_compute; reflexivity |]. split; [vm_compute; reflexivity |]. split; [vm_compute; reflexivity |]. split; [vm_compute; reflexivity |].
  split; [constructor; [apply NV; vm_compute; reflexivity | apply NV; vm_compute; reflexivity | apply val_inj; vm_compute; reflexivity | apply val_inj; vm_compute; reflexivity] |].
  split; [vm_compute; reflexivity |]. split; [vm_compute; reflexivity |]. split; [apply val_inj; vm_compute; reflexivity |]. split; [vm_compute; reflexivity |]. split; [vm_compute; reflexivity |]. split; [vm_compute; reflexivity |]. split; [| apply val_inj; vm_compute; reflexivity].
  intros r E. apply (f_equal val) in E. pose proof (val_range r) as B. cbn [val f_mul of_Z] in E. assert (C : (val r = 0 \/ val r = 1 \/ val r = 2 \/ val r = 3 \/ val r = 4 \/ val r = 5 \/ val r = 6 \/ val r = 7 \/ val r = 8 \/ val r = 9 \/ val r = 10 \/ val r = 11 \/ val r = 12)%Z) by lia. repeat destruct C as [C | C]; rewrite C in E; discriminate E.
Qed.
Print Assumptions C52_law_on_curve.
Print Assumptions C52_law_commutative.
Print Assumptions C52_law_functional.
Print Assumptions C52_law_identity.
Print Assumptions C52_law_opposite.
Print Assumptions C52_law_associative.
Print Assumptions C52_law_complete.
Print Assumptions C52_point_add.
Print Assumptions C52_double.
Print Assumptions C52_zero.
Print Assumptions C52_generate.
Print Assumptions C52_to_edwards_affine.
Print Assumptions C52_incomplete_refuted.
Print Assumptions C52_zero_convert_refuted.
Print Assumptions C52_twisted_on_curve.
Print Assumptions C52_twist.
Print Assumptions C52_untwist.
Print Assumptions C52_untwist_twist.
Print Assumptions C52_twist_homomorphism.
Print Assumptions C52_convert_to_affine.
Print Assumptions C52_generate_twisted.
Print Assumptions C52_addition_through_the_twist.
Print Assumptions C52_int_coordinates.
Print Assumptions C52_exceptional_points_refuted.
Print Assumptions C52_identity_convert_refuted.
Print Assumptions C52_twist_projective_partial.
Print Assumptions C52_twist_projective_refuted.
