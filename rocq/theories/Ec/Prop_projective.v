(** C51: the projective formulas implement the chord and tangent law over every prime field; the affine class never returns a sum. *)
From Coq Require Import ZArith List Bool Lia Znumtheory Field.
From Verif Require Import Base.Modeq Base.Fermat Base.Fp Ec.Model_reffield Ec.Model_curve Ec.Spec_curve Ec.Prop_reffield Ec.Proof_curve Ec.Prop_xyzz.
Import ListNotations.

Definition projective_point {p} (P : option (Fp p * Fp p)) (o : pt) : Prop :=
  match P with
  | None => pt_zero o = true /\ pt_coords o = None
  | Some P => pt_zero o = false /\ exists c, pt_coords o = Some c /\ projective P c
  end.
(** the z-coordinate is stored as the integer 1 *)
Definition unit_z (c : list fe) : Prop := exists x y q, c = [x; y; FE 1 q].

Section Projective.
Variable p : positive.
Hypothesis Hp : prime (Zpos p).
Let P2 : (2 <= Zpos p)%Z := prime_ge_2 _ Hp.
Notation F := (Fp p).
Local Open Scope fp_scope.
Add Field FpF : (Fp_field p Hp).
Variables ai bi : Z.
Variable s : wcs.
Hypothesis Hs : wcs_new (Zpos p) ai bi = Some s.
Let a : F := of_Z ai.
Let b : F := of_Z bi.

Lemma projective_el (P : F * F) (X Y Z : F) : Z <> 0 -> fst P * Z = X -> snd P * Z = Y -> projective P [FE (val X) (Zpos p); FE (val Y) (Zpos p); FE (val Z) (Zpos p)].
Proof. intros. exists X, Y, Z. split; [repeat constructor; apply of_Z_val |]. auto. Qed.
Lemma new_projective_el s' (X Y Z : fe) : new_projective s' [CFe X; CFe Y; CFe Z] false = Some (Pt false (Some [X; Y; Z]) PROJECTIVE).
Proof. reflexivity. Qed.
Lemma copy_3 : fe_copy (FE 0 (Zpos p)) (Some 3%Z) = FE 3 (Zpos p). Proof. reflexivity. Qed.
Lemma copy_2 : fe_copy (FE 0 (Zpos p)) (Some 2%Z) = FE 2 (Zpos p). Proof. reflexivity. Qed.
Lemma three_sum : @of_Z p 3 = 1 + 1 + 1.
Proof. rewrite !of_Z_add. reflexivity. Qed.
Lemma two_sum : @of_Z p 2 = 1 + 1.
Proof. rewrite of_Z_add. reflexivity. Qed.
Lemma one_nz : (1 : F) <> 0. Proof. apply (F_1_neq_0 (Fp_field p Hp)). Qed.
Notation mul_nz := (mul_nz p Hp).
Notation sub_nz := (sub_nz p Hp).
Notation mul_cancel := (mul_cancel p Hp).

(** mixed addition: one of the points has z = 1 *)
Theorem C51_mixed_addition : forall k1 k2 (P Q : F * F) c1 c2, projective P c1 -> projective Q c2 -> fst P <> fst Q -> unit_z c1 \/ unit_z c2 ->
  exists c3 R, projective_add_z2_eq_1 s (Pt false (Some c1) k1) (Pt false (Some c2) k2) = Some (Pt false (Some c3) PROJECTIVE) /\ chord_tangent a (Some P) (Some Q) (Some R) /\ projective R c3.
Proof.
  assert (K : forall (x1 y1 x2 y2 Z1 : F), x1 <> x2 -> Z1 <> 0 ->
    let X1 := x1 * Z1 in let Y1 := y1 * Z1 in let u := y2 * Z1 - Y1 in let v := x2 * Z1 - X1 in let A := u * u * Z1 - v * (v * v) - (v * v * X1 + v * v * X1) in
    exists R, chord_tangent a (Some (x1, y1)) (Some (x2, y2)) (Some R) /\ v * (v * v) * Z1 <> 0 /\ fst R * (v * (v * v) * Z1) = v * A /\ snd R * (v * (v * v) * Z1) = u * (v * v * X1 - A) - v * (v * v) * Y1).
  { intros x1 y1 x2 y2 Z1 N NZ X1 Y1 u v A. assert (ND : x2 - x1 <> 0) by (apply sub_nz; congruence). set (l := (y2 - y1) / (x2 - x1)). set (x3 := l * l - x1 - x2). set (y3 := l * (x1 - x3) - y1). exists (x3, y3).
    split; [apply (ct_chord _ a x1 y1 x2 y2 x3 y3 l); [exact N | unfold l; field; exact ND | reflexivity | reflexivity] |]. assert (V : v <> 0). { unfold v, X1. replace (x2 * Z1 - x1 * Z1) with ((x2 - x1) * Z1) by ring. apply mul_nz; assumption. }
    split; [repeat apply mul_nz; assumption |]. cbn [fst snd]. unfold y3, x3, A, v, u, X1, Y1, l. split; field; exact ND. }
  assert (SW : forall x1 y1 x2 y2 R, chord_tangent a (Some (x1, y1)) (Some (x2, y2)) R -> chord_tangent a (Some (x2, y2)) (Some (x1, y1)) R) by (intros; apply C50_law_commutative; assumption).
  intros k1 k2 [x1 y1] [x2 y2] c1 c2 (X1 & Y1 & Z1 & F1 & N1 & EX1 & EY1) (X2 & Y2 & Z2 & F2 & N2 & EX2 & EY2) N U. cbn [fst snd] in *. apply forall2_3 in F1. destruct F1 as (u1 & u2 & u3 & -> & H1 & H2 & H3). apply elem_raw in H1, H2, H3. destruct H1 as (v1 & -> & A1), H2 as (v2 & -> & A2), H3 as (v3 & -> & A3).
  apply forall2_3 in F2. destruct F2 as (t1 & t2 & t3 & -> & H1 & H2 & H3). apply elem_raw in H1, H2, H3. destruct H1 as (w1 & -> & B1), H2 as (w2 & -> & B2), H3 as (w3 & -> & B3).
  rewrite (wcs_shape _ _ _ _ Hs). unfold projective_add_z2_eq_1. cbn [pt_coords w_one]. unfold fe_eq. cbn [fe_value fe_prime]. rewrite Z.eqb_refl, !andb_true_r. destruct (Z.eqb_spec w3 1) as [E | NE].
  - subst w3. assert (Z2 = 1) by congruence. subst Z2. fsteps. rewrite A1, A2, A3, B1, B2. destruct (K x1 y1 x2 y2 Z1 N N1) as (R & C & NZ & E1 & E2). cbv zeta in NZ, E1, E2. clear A1 A2 B1 B2. subst X1 Y1 X2 Y2. eexists. exists R. split; [reflexivity |]. split; [exact C |]. replace (x2 * 1) with x2 in * by ring. replace (y2 * 1) with y2 in * by ring. apply projective_el; assumption.
  - destruct U as [U | U]; [| destruct U as (? & ? & ? & U); injection U as _ _ -> _; congruence]. destruct U as (? & ? & ? & U). injection U as _ _ -> _. cbn [Z.eqb Pos.eqb]. assert (Z1 = 1) by congruence. subst Z1. fsteps. rewrite A1, A2, B1, B2, B3. destruct (K x2 y2 x1 y1 Z2 ltac:(congruence) N2) as (R & C & NZ & E1 & E2). cbv zeta in NZ, E1, E2. eexists. exists R. split; [reflexivity |]. split; [apply SW; exact C |]. clear A1 A2 B1 B2. subst X1 Y1 X2 Y2. replace (x1 * 1) with x1 in * by ring. replace (y1 * 1) with y1 in * by ring. apply projective_el; assumption.
Qed.

(** what the complete formulas return, in closed form *)
Definition rcb_x (X1 Y1 Z1 X2 Y2 Z2 : F) : F :=
  (X1 * Y2 + X2 * Y1) * (Y1 * Y2 - a * (X1 * Z2 + X2 * Z1) - (1 + 1 + 1) * b * Z1 * Z2) - (Y1 * Z2 + Y2 * Z1) * (a * X1 * X2 + (1 + 1 + 1) * b * (X1 * Z2 + X2 * Z1) - a * a * Z1 * Z2).
Definition rcb_y (X1 Y1 Z1 X2 Y2 Z2 : F) : F :=
  (Y1 * Y2 + a * (X1 * Z2 + X2 * Z1) + (1 + 1 + 1) * b * Z1 * Z2) * (Y1 * Y2 - a * (X1 * Z2 + X2 * Z1) - (1 + 1 + 1) * b * Z1 * Z2) +
  ((1 + 1 + 1) * X1 * X2 + a * Z1 * Z2) * (a * X1 * X2 + (1 + 1 + 1) * b * (X1 * Z2 + X2 * Z1) - a * a * Z1 * Z2).
Definition rcb_z (X1 Y1 Z1 X2 Y2 Z2 : F) : F :=
  (Y1 * Z2 + Y2 * Z1) * (Y1 * Y2 + a * (X1 * Z2 + X2 * Z1) + (1 + 1 + 1) * b * Z1 * Z2) + (X1 * Y2 + X2 * Y1) * ((1 + 1 + 1) * X1 * X2 + a * Z1 * Z2).
Lemma complete_value k1 k2 (x1 y1 x2 y2 : F) c1 c2 : projective (x1, y1) c1 -> projective (x2, y2) c2 -> exists X Y Z Z1 Z2 : F,
  projective_add_general s (Pt false (Some c1) k1) (Pt false (Some c2) k2) = Some (Pt false (Some [FE (val X) (Zpos p); FE (val Y) (Zpos p); FE (val Z) (Zpos p)]) PROJECTIVE) /\
  Z1 <> 0 /\ Z2 <> 0 /\ let m := Z1 * Z2 * (Z1 * Z2) in X = m * rcb_x x1 y1 1 x2 y2 1 /\ Y = m * rcb_y x1 y1 1 x2 y2 1 /\ Z = m * rcb_z x1 y1 1 x2 y2 1.
Proof.
  intros (X1 & Y1 & Z1 & F1 & N1 & EX1 & EY1) (X2 & Y2 & Z2 & F2 & N2 & EX2 & EY2). cbn [fst snd] in *. open3 F1. open3 F2. rewrite (wcs_shape _ _ _ _ Hs). unfold projective_add_general. cbn [pt_coords w_zero w_a w_b]. rewrite copy_3. fsteps. rewrite !new_projective_el.
  do 3 eexists. exists Z1, Z2. split; [reflexivity |]. split; [exact N1 |]. split; [exact N2 |]. cbv zeta. rewrite E, E0, E1, E2, E3, E4. clear E E0 E1 E2 E3 E4. subst X1 Y1 X2 Y2. fold a b. rewrite three_sum. unfold rcb_x, rcb_y, rcb_z. split; [ring |]. split; ring.
Qed.
(** their value at two affine points of the curve: chord and tangent *)
Lemma rcb_chord (x1 y1 x2 y2 l : F) : on_curve a b (Some (x1, y1)) -> on_curve a b (Some (x2, y2)) -> x1 <> x2 -> l * (x2 - x1) = y2 - y1 ->
  let x3 := l * l - x1 - x2 in let y3 := l * (x1 - x3) - y1 in
  x3 * rcb_z x1 y1 1 x2 y2 1 = rcb_x x1 y1 1 x2 y2 1 /\ y3 * rcb_z x1 y1 1 x2 y2 1 = rcb_y x1 y1 1 x2 y2 1 /\
  forall l', l' * (x2 - x1) = - y2 - y1 -> rcb_z x1 y1 1 x2 y2 1 = (x2 - x1) * (x2 - x1) * (x2 - x1) * (l' * (x1 - (l' * l' - x1 - x2)) - y1).
Proof.
  intros H1 H2 N L. destruct (chord_coefficients p Hp a b x1 y1 x2 y2 l H1 H2 N L) as (Y2 & A & B). cbv zeta. unfold rcb_x, rcb_y, rcb_z.
  split; [rewrite B, A, Y2; ring |]. split; [rewrite B, A, Y2; ring |]. intros l' L'. assert (Y1 : y2 = - y1 - l' * (x2 - x1)) by (rewrite L'; ring).
  destruct (chord_coefficients p Hp a b x1 y1 x2 (- y2) l' H1) as (Y2' & A' & B'); [cbn [on_curve] in *; rewrite <- H2; ring | exact N | rewrite L'; ring |]. rewrite B', A', Y1. ring.
Qed.
Lemma rcb_tangent (x y l : F) : on_curve a b (Some (x, y)) -> l * (y + y) = x * x + x * x + x * x + a ->
  let x3 := l * l - x - x in let y3 := l * (x - x3) - y in
  x3 * rcb_z x y 1 x y 1 = rcb_x x y 1 x y 1 /\ y3 * rcb_z x y 1 x y 1 = rcb_y x y 1 x y 1 /\ rcb_z x y 1 x y 1 = (y + y) * (y + y) * (y + y).
Proof.
  cbn [on_curve]. intros H L. assert (A : a = l * (y + y) - (x * x + x * x + x * x)) by (rewrite L; ring). assert (B : b = y * y - x * x * x - a * x) by (rewrite H; ring). cbv zeta. unfold rcb_x, rcb_y, rcb_z. rewrite B, A. split; [ring |]. split; ring.
Qed.
(** the complete addition: any two points of the curve whose sum is affine and whose difference does not have order two *)
Theorem C51_complete_addition : forall k1 k2 (P Q R : F * F) c1 c2, projective P c1 -> projective Q c2 -> on_curve a b (Some P) -> on_curve a b (Some Q) ->
  chord_tangent a (Some P) (Some Q) (Some R) -> (forall D, chord_tangent a (Some P) (Some (fst Q, - snd Q)) (Some D) -> snd D <> 0) ->
  exists c3, projective_add_general s (Pt false (Some c1) k1) (Pt false (Some c2) k2) = Some (Pt false (Some c3) PROJECTIVE) /\ projective R c3.
Proof.
  intros k1 k2 [x1 y1] [x2 y2] R c1 c2 H1 H2 O1 O2 C ND. cbn [fst snd] in ND. destruct (complete_value k1 k2 x1 y1 x2 y2 c1 c2 H1 H2) as (X & Y & Z & Z1 & Z2 & E & N1 & N2 & E1 & E2 & E3). cbv zeta in E1, E2, E3. eexists. split; [exact E |].
  assert (M : Z1 * Z2 * (Z1 * Z2) <> 0) by (repeat apply mul_nz; assumption). set (m := Z1 * Z2 * (Z1 * Z2)) in *. inversion C as [| | | ? ? ? ? x3 y3 l N L E4 E5 | ? ? x3 y3 l N L E4 E5]; subst.
  - destruct (rcb_chord x1 y1 x2 y2 l O1 O2 N L) as (K1 & K2 & K3). cbv zeta in K1, K2, K3. assert (DX : x2 - x1 <> 0) by (apply sub_nz; congruence). set (l' := (- y2 - y1) / (x2 - x1)). assert (L' : l' * (x2 - x1) = - y2 - y1) by (unfold l'; field; exact DX). apply projective_el; cbn [fst snd].
    + rewrite (K3 l' L'). apply mul_nz; [exact M |]. apply mul_nz; [repeat apply mul_nz; exact DX |].
      apply (ND (l' * l' - x1 - x2, l' * (x1 - (l' * l' - x1 - x2)) - y1)). apply (ct_chord _ a x1 y1 x2 (- y2) _ _ l'); [exact N | exact L' | reflexivity | reflexivity].
    + rewrite <- K1. ring.
    + rewrite <- K2. ring.
  - destruct (rcb_tangent x2 y2 l O1 L) as (K1 & K2 & K3). cbv zeta in K1, K2, K3. apply projective_el; cbn [fst snd].
    + rewrite K3. repeat apply mul_nz; assumption.
    + rewrite <- K1. ring.
    + rewrite <- K2. ring.
Qed.
(** doubling a point with y not zero *)
Theorem C51_double : forall k (P : F * F) c, projective P c -> snd P + snd P <> 0 ->
  exists c3 R, projective_double_general s (Pt false (Some c) k) = Some (Pt false (Some c3) PROJECTIVE) /\ chord_tangent a (Some P) (Some P) (Some R) /\ projective R c3.
Proof.
  intros k [x y] c (X & Y & Z & F1 & N1 & EX1 & EY1) N. cbn [fst snd] in *. open3 F1. rewrite (wcs_shape _ _ _ _ Hs). unfold projective_double_general. cbn [pt_coords w_zero w_a w_b]. rewrite copy_3, copy_2. fsteps. rewrite !new_projective_el. rewrite E, E0, E1. clear E E0 E1. fold a. rewrite three_sum, two_sum.
  set (l := (x * x + x * x + x * x + a) / (y + y)). set (xr := l * l - x - x). set (yr := l * (x - xr) - y). eexists. exists (xr, yr). split; [reflexivity |]. split; [apply (ct_tangent _ a x y xr yr l); [exact N | unfold l; field; exact N | reflexivity | reflexivity] |]. subst X Y.
  assert (T : y * Z * Z * (1 + 1) <> 0). { replace (y * Z * Z * (1 + 1)) with ((y + y) * (Z * Z)) by ring. repeat apply mul_nz; assumption. }
  apply projective_el; cbn [fst snd]; [apply mul_nz; [exact T | apply mul_nz; exact T] | |]; unfold yr, xr, l; field; exact N.
Qed.

Lemma projective_unique (P Q : F * F) c : projective P c -> projective Q c -> P = Q.
Proof.
  destruct P as [x y], Q as [x' y']. intros (X & Y & Z & F1 & N1 & EX & EY) (X' & Y' & Z' & F2 & N2 & EX' & EY'). cbn [fst snd] in *. apply forall2_3 in F1. destruct F1 as (u1 & u2 & u3 & -> & [_ A1] & [_ A2] & [_ A3]). apply forall2_3 in F2. destruct F2 as (v1 & v2 & v3 & EL & [_ B1] & [_ B2] & [_ B3]). injection EL as -> -> ->.
  assert (X = X' /\ Y = Y' /\ Z = Z') as (-> & -> & ->) by (repeat split; congruence). f_equal; apply (mul_cancel Z'); try assumption; [transitivity (x * Z'); [ring |]; rewrite EX, <- EX'; ring | transitivity (y * Z'); [ring |]; rewrite EY, <- EY'; ring].
Qed.
Lemma copy_projective k c : pt_copy (formal_weierstrass s) (Pt false (Some c) k) = Some (Pt false (Some c) k).
Proof. unfold pt_copy. cbn [pt_zero pt_coords pt_type]. unfold formal_weierstrass, formal. rewrite map_map, map_id. reflexivity. Qed.
(** the same coordinate lists must have y not zero; a point with z = 1 must have another x; otherwise the difference must not have
    order two. Missing: opposite points, an equal point with another z added to one with z = 1, and differences of order two;
    the statement is false there (below) *)
Theorem C51_point_add_partial : forall P Q R o1 o2, projective_point P o1 -> projective_point Q o2 -> on_curve a b P -> on_curve a b Q -> chord_tangent a P Q R -> R <> None \/ P = None /\ Q = None ->
  match P, Q, pt_coords o1, pt_coords o2 with
  | Some P, Some Q, Some c1, Some c2 => c1 = c2 \/ c1 <> c2 /\ (unit_z c1 \/ unit_z c2) /\ fst P <> fst Q \/ (forall D, chord_tangent a (Some P) (Some (fst Q, - snd Q)) (Some D) -> snd D <> 0) /\ ~ unit_z c1 /\ ~ unit_z c2
  | _, _, _, _ => True
  end ->
  exists o, projective_point_add s o1 o2 = Some o /\ projective_point R o.
Proof.
  intros P Q R [z1 c1 k1] [z2 c2 k2] H1 H2 O1 O2 C NR H. unfold projective_point_add. cbn [pt_zero]. destruct Q as [Q |].
  2:{ destruct H2 as [E2 E2']. cbn [pt_zero pt_coords] in E2, E2'. subst z2 c2. assert (R = P) by (eapply C50_law_functional; [exact Hp | exact C | constructor]). subst R. destruct P as [P |].
      - destruct H1 as (E1 & c & E1' & X1). cbn [pt_zero pt_coords] in E1, E1'. subst z1 c1. exists (Pt false (Some c) k1). split; [apply copy_projective |]. cbn. split; [reflexivity |]. exists c. auto.
      - destruct H1 as (E1 & E1'). cbn [pt_zero pt_coords] in E1, E1'. subst z1 c1. exists (Pt true None k1). split; [reflexivity |]. split; reflexivity. }
  destruct H2 as (E2 & c & E2' & X2). cbn [pt_zero pt_coords] in E2, E2'. subst z2 c2. destruct P as [P |].
  2:{ destruct H1 as (E1 & E1'). cbn [pt_zero pt_coords] in E1, E1'. subst z1 c1. assert (R = Some Q) by (eapply C50_law_functional; [exact Hp | exact C | constructor]). subst R. exists (Pt false (Some c) k2). split; [apply copy_projective |]. cbn. split; [reflexivity |]. exists c. auto. }
  destruct H1 as (E1 & c' & E1' & X1). cbn [pt_zero pt_coords] in E1, E1', H. subst z1 c1. destruct R as [R |]; [| destruct NR as [NR | [NR _]]; congruence]. unfold pt_eq. cbn [pt_coords]. destruct (list_eq c' c) eqn:EL.
  - apply list_eq_iff in EL. subst c'. assert (P = Q) by (apply (projective_unique P Q c); assumption). subst Q. assert (N : snd P + snd P <> 0). { inversion C as [| | | ? ? ? ? ? ? ? N | ? ? ? ? ? N]; subst; [congruence | exact N]. }
    destruct (C51_double k1 P c X1 N) as (c3 & R' & E & C' & X). rewrite E. eexists. split; [reflexivity |]. pose proof (C50_law_functional _ Hp _ _ _ _ _ C C') as EQ. injection EQ as <-. split; [reflexivity |]. exists c3. auto.
  - assert (NE : c' <> c) by (intros NE; apply list_eq_iff in NE; congruence). destruct H as [H | [(_ & U & N) | (ND & U1 & U2)]]; [contradiction | |].
    + destruct (C51_mixed_addition k1 k2 P Q c' c X1 X2 N U) as (c3 & R' & E & C' & X). destruct X1 as (? & ? & ? & F1 & _), X2 as (? & ? & ? & F2 & _). apply forall2_3 in F1. destruct F1 as (u1 & u2 & u3 & -> & _ & _ & [A _]). apply forall2_3 in F2. destruct F2 as (v1 & v2 & v3 & -> & _ & _ & [B _]).
      assert (T : fe_eq u3 (w_one s) || fe_eq v3 (w_one s) = true). { rewrite (wcs_shape _ _ _ _ Hs). cbn [w_one]. destruct U as [(? & ? & ? & U) | (? & ? & ? & U)]; injection U as _ _ ->; cbn [fe_prime] in A, B; subst; unfold fe_eq; cbn [fe_value fe_prime]; rewrite !Z.eqb_refl; rewrite ?orb_true_r; reflexivity. }
      rewrite T, E. eexists. split; [reflexivity |]. pose proof (C50_law_functional _ Hp _ _ _ _ _ C C') as EQ. injection EQ as <-. split; [reflexivity |]. exists c3. auto.
    + destruct (C51_complete_addition k1 k2 P Q R c' c X1 X2 O1 O2 C ND) as (c3 & E & X). destruct X1 as (? & ? & ? & F1 & _), X2 as (? & ? & ? & F2 & _). apply forall2_3 in F1. destruct F1 as (u1 & u2 & [v3 q3] & -> & _ & _ & [A _]). apply forall2_3 in F2. destruct F2 as (w1 & w2 & [v3' q3'] & -> & _ & _ & [B _]). cbn [fe_prime] in A, B. subst q3 q3'.
      rewrite (wcs_shape _ _ _ _ Hs) in *. cbn [w_one]. unfold fe_eq. cbn [fe_value fe_prime]. rewrite Z.eqb_refl, !andb_true_r. destruct (Z.eqb_spec v3 1) as [-> |]; [destruct U1; eexists _, _, _; reflexivity |]. destruct (Z.eqb_spec v3' 1) as [-> |]; [destruct U2; eexists _, _, _; reflexivity |]. cbn [orb]. rewrite E. eexists. split; [reflexivity |]. split; [reflexivity |]. exists c3. auto.
Qed.
Theorem C51_convert_to_affine : forall (P : option (F * F)) o, projective_point P o -> pt_type o = PROJECTIVE ->
  projective_convert_to_affine s o = Some (match P with None => o | Some (x, y) => Pt false (Some [FE (val x) (Zpos p); FE (val y) (Zpos p); FE 1 (Zpos p)]) AFFINE end).
Proof.
  intros P [z c k] H T. cbn [pt_type] in T. subst k. unfold projective_convert_to_affine. cbn [pt_type kind_eqb negb]. destruct P as [[x y] |].
  2:{ destruct H as [E1 E2]. cbn [pt_zero pt_coords] in E1, E2. subst z c. reflexivity. }
  destruct H as (E1 & c' & E2 & X). cbn [pt_zero pt_coords] in E1, E2. subst z c. rewrite (copy_projective PROJECTIVE c'). cbn [pt_coords pt_zero]. destruct X as (X & Y & Z & F1 & N1 & EX1 & EY1). cbn [fst snd] in *. open3 F1. rewrite (wcs_shape _ _ _ _ Hs). cbn [w_one]. fsteps. rewrite E, E0, E1. clear E E0 E1. subst X Y. do 3 f_equal.
  assert (G1 : x * Z * (1 / Z) = x) by (field; exact N1). assert (G2 : y * Z * (1 / Z) = y) by (field; exact N1). rewrite G1, G2. reflexivity.
Qed.
Theorem C51_lshift : forall n (P R : F * F) o, projective_point (Some P) o -> doublings a n (Some P) (Some R) ->
  exists o', point_lshift (projective_double_general s) (formal_weierstrass s) o (Z.of_nat n) = Some o' /\ projective_point (Some R) o'.
Proof.
  intros n P R o H D. pose proof H as (Z & _). unfold point_lshift. rewrite Z, Nat2Z.id. clear Z. revert P o H D. induction n as [| n IH]; intros P o H D; inversion D as [| ? ? Q ? C D']; subst.
  - exists o. split; [reflexivity | exact H].
  - cbn [double_times]. destruct Q as [Q |].
    2:{ exfalso. clear - D'. remember None as X eqn:EX. remember (Some R) as Y eqn:EY. revert EX EY. induction D' as [| m A B C' HC HD IHD]; intros EX EY; [congruence |]. subst A. apply IHD; [| exact EY]. inversion HC; reflexivity. }
    assert (N : snd P + snd P <> 0). { inversion C as [| | | ? ? ? ? ? ? ? N | ? ? ? ? ? N]; subst; [congruence | exact N]. }
    destruct o as [z c k]. destruct H as (E1 & c' & E2 & X). cbn [pt_zero pt_coords] in E1, E2. subst z c. destruct (C51_double k P c' X N) as (c3 & Q' & E & C' & X'). rewrite E. pose proof (C50_law_functional _ Hp _ _ _ _ _ C C') as EQ. injection EQ as <-. apply (IH Q); [| exact D']. split; [reflexivity |]. exists c3. auto.
Qed.
Lemma zero_z (x y z : F) k (R : option (F * F)) : z = 0 -> ~ projective_point R (Pt false (Some [FE (val x) (Zpos p); FE (val y) (Zpos p); FE (val z) (Zpos p)]) k).
Proof.
  intros Z H. destruct R as [R |]; [| destruct H; discriminate]. destruct H as (_ & c & E & X & Y & Z' & F1 & N & _). cbn [pt_coords] in E. injection E as <-. apply forall2_3 in F1. destruct F1 as (u1 & u2 & u3 & EL & [_ A1] & [_ A2] & [_ A3]). injection EL as <- <- <-. cbn [fe_value] in A3. rewrite of_Z_val in A3. congruence.
Qed.
(** FINDING: adding a point with z = 1 to the same or the opposite point with another coordinate list gives z = 0, unflagged: it stands for no point *)
Theorem C51_mixed_same_x_refuted : forall (P Q : F * F) o1 o2, projective_point (Some P) o1 -> projective_point (Some Q) o2 -> fst P = fst Q -> pt_coords o1 <> pt_coords o2 ->
  (exists c, (pt_coords o1 = Some c \/ pt_coords o2 = Some c) /\ unit_z c) -> exists o, projective_point_add s o1 o2 = Some o /\ forall R : option (F * F), ~ projective_point R o.
Proof.
  intros [x1 y1] [x2 y2] [z1 c1 k1] [z2 c2 k2] (E1 & c & E1' & X1) (E2 & c' & E2' & X2) EX N U. cbn [pt_zero pt_coords fst] in *. subst z1 c1 z2 c2 x2. unfold projective_point_add, pt_eq. cbn [pt_zero pt_coords]. destruct (list_eq c c') eqn:EL; [apply list_eq_iff in EL; congruence |].
  destruct X1 as (X1 & Y1 & Z1 & F1 & N1 & EX1 & EY1), X2 as (X2 & Y2 & Z2 & F2 & N2 & EX2 & EY2). cbn [fst snd] in *. apply forall2_3 in F1. destruct F1 as (u1 & u2 & u3 & -> & H1 & H2 & H3). apply elem_raw in H1, H2, H3. destruct H1 as (v1 & -> & A1), H2 as (v2 & -> & A2), H3 as (v3 & -> & A3).
  apply forall2_3 in F2. destruct F2 as (t1 & t2 & t3 & -> & H1 & H2 & H3). apply elem_raw in H1, H2, H3. destruct H1 as (w1 & -> & B1), H2 as (w2 & -> & B2), H3 as (w3 & -> & B3).
  rewrite (wcs_shape _ _ _ _ Hs). unfold projective_add_z2_eq_1. cbn [pt_coords w_one]. unfold fe_eq. cbn [fe_value fe_prime]. rewrite Z.eqb_refl, !andb_true_r. destruct (Z.eqb_spec w3 1) as [E | NE].
  - rewrite orb_true_r. subst w3. assert (Z2 = 1) by congruence. subst Z2. fsteps. rewrite A1, A2, A3, B1, B2. eexists. split; [reflexivity |]. intros R. apply zero_z. rewrite <- EX1, <- EX2. ring.
  - destruct U as (c & [U1 | U1] & (? & ? & ? & U2)); [| injection U1 as <-; injection U2 as _ _ -> _; congruence]. injection U1 as <-. injection U2 as _ _ -> _. cbn [Z.eqb Pos.eqb orb]. assert (Z1 = 1) by congruence. subst Z1. fsteps. rewrite A1, A2, B1, B2, B3. eexists. split; [reflexivity |]. intros R. apply zero_z. rewrite <- EX1, <- EX2. ring.
Qed.
(** FINDING: the complete formulas return z = 0 for opposite points (not flagged zero) and when the difference has order two *)
Theorem C51_complete_refuted : forall k1 k2 (P Q : F * F) c1 c2, projective P c1 -> projective Q c2 -> on_curve a b (Some P) -> on_curve a b (Some Q) ->
  Q = (fst P, - snd P) \/ (exists D, fst P <> fst Q /\ chord_tangent a (Some P) (Some (fst Q, - snd Q)) (Some D) /\ snd D = 0) ->
  exists o, projective_add_general s (Pt false (Some c1) k1) (Pt false (Some c2) k2) = Some o /\ forall R : option (F * F), ~ projective_point R o.
Proof.
  intros k1 k2 [x1 y1] [x2 y2] c1 c2 H1 H2 O1 O2 H. cbn [fst snd] in H. destruct (complete_value k1 k2 x1 y1 x2 y2 c1 c2 H1 H2) as (X & Y & Z & Z1 & Z2 & E & N1 & N2 & E1 & E2 & E3). cbv zeta in E1, E2, E3. eexists. split; [exact E |]. intros R. apply zero_z. rewrite E3. destruct H as [H | ([x3 y3] & N & C & D)].
  - injection H as -> ->. unfold rcb_z. ring.
  - cbn [snd] in D. revert D. inversion C as [| | | ? ? ? ? ? ? l' N' L' E4 E5 |]; subst; [| congruence]. intros D. assert (DX : x2 - x1 <> 0) by (apply sub_nz; congruence). set (l := (y2 - y1) / (x2 - x1)). assert (L : l * (x2 - x1) = y2 - y1) by (unfold l; field; exact DX). destruct (rcb_chord x1 y1 x2 y2 l O1 O2 N L) as (_ & _ & K3). rewrite (K3 l' L'), D. ring.
Qed.
(** FINDING: an affine sum is never returned: both branches raise for points of two or three coordinates *)
Theorem C51_affine_refuted : forall o1 o2, pt_zero o1 = false -> pt_zero o2 = false -> affine_point_add s o1 o2 = None.
Proof.
  intros o1 o2 Z1 Z2. unfold affine_point_add. rewrite Z1, Z2. destruct (pt_eq o1 o2); [reflexivity |]. unfold affine_add_general. destruct (pt_coords o1) as [[| x1 [| y1 l1]] |]; try reflexivity. destruct (pt_coords o2) as [[| x2 [| y2 l2]] |]; try reflexivity.
  destruct (fe_sub y2 y1) as [dy |]; [| reflexivity]. destruct (fe_sub x2 x1) as [dx |]; [| reflexivity]. destruct (fe_div dy dx) as [l |]; [| reflexivity]. destruct (fe_mul l l) as [t |]; [| reflexivity]. destruct (fe_sub t x1) as [t1 |]; [| reflexivity]. destruct (fe_sub t1 x2) as [cx |]; [| reflexivity]. destruct (fe_sub x1 cx) as [d |]; [| reflexivity]. destruct (fe_mul l d) as [e |]; [| reflexivity]. destruct (fe_sub e y1) as [cy |]; reflexivity.
Qed.
Theorem C51_affine_generate_refuted : forall x y, new_affine s [x; y] false = None.
Proof. reflexivity. Qed.
End Projective.
Print Assumptions C51_mixed_same_x_refuted. Print Assumptions C51_complete_refuted.
Print Assumptions C51_mixed_addition. Print Assumptions C51_complete_addition. Print Assumptions C51_double. Print Assumptions C51_point_add_partial.
Print Assumptions C51_convert_to_affine. Print Assumptions C51_lshift. Print Assumptions C51_affine_refuted. Print Assumptions C51_affine_generate_refuted.

(** the hypotheses are met modulo 13 on y^2 = x^3 + 1: mixed, complete and doubling *)
Example C51_example : exists s o1 o2 o2' o3 o4 o5, wcs_new 13 0 1 = Some s /\ new_projective s [CInt 0; CInt 1; CInt 1] false = Some o1 /\ new_projective s [CInt 2; CInt 3; CInt 1] false = Some o2 /\ new_projective s [CInt 10; CInt 15; CInt 5] false = Some o2' /\
  projective (@of_Z 13 2, of_Z 3) [FE 10 13; FE 15 13; FE 5 13] /\
  projective_point_add s o1 o2 = Some o3 /\ option_map pt_coords (projective_convert_to_affine s o3) = Some (Some [FE 12 13; FE 0 13; FE 1 13]) /\
  projective_add_general s o1 o2' = Some o4 /\ option_map pt_coords (projective_convert_to_affine s o4) = Some (Some [FE 12 13; FE 0 13; FE 1 13]) /\
  projective_point_add s o2' o2' = Some o5 /\ option_map pt_coords (projective_convert_to_affine s o5) = Some (Some [FE 0 13; FE 1 13; FE 1 13]).
Proof.
  do 7 eexists. split; [vm_compute; reflexivity |]. split; [vm_compute; reflexivity |]. split; [vm_compute; reflexivity |]. split; [vm_compute; reflexivity |].
  split. { exists (of_Z 10), (of_Z 15), (of_Z 5). split; [repeat constructor |]. split; [intros E; apply (f_equal val) in E; discriminate E |]. split; apply val_inj; vm_compute; reflexivity. }
  split; [vm_compute; reflexivity |]. split; [vm_compute; reflexivity |]. split; [vm_compute; reflexivity |]. split; [vm_compute; reflexivity |]. split; vm_compute; reflexivity.
Qed.
