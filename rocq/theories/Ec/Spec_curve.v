(** What the coordinate systems are supposed to compute.
    The field is Fp p, the integers modulo p (Base/Fp); a point of a Weierstrass curve is None (infinity) or its affine coordinates. *)
From Coq Require Import ZArith List.
From Verif Require Import Base.Fp Ec.Model_reffield.
Import ListNotations.

Declare Scope fp_scope.
Delimit Scope fp_scope with fp.
Notation "a + b" := (f_add a b) : fp_scope.
Notation "a - b" := (f_sub a b) : fp_scope.
Notation "a * b" := (f_mul a b) : fp_scope.
Notation "a / b" := (f_div a b) : fp_scope.
Notation "- a" := (f_opp a) : fp_scope.
Notation "0" := (of_Z 0) : fp_scope.
Notation "1" := (of_Z 1) : fp_scope.

Section Spec.
Variable p : positive.
Notation F := (Fp p).
Local Open Scope fp_scope.

(** y^2 = x^3 + a x + b *)
Definition on_curve (a b : F) (P : option (F * F)) : Prop :=
  match P with None => True | Some (x, y) => y * y = x * x * x + a * x + b end.

(** the chord and tangent law; l is the slope *)
Inductive chord_tangent (a : F) : option (F * F) -> option (F * F) -> option (F * F) -> Prop :=
| ct_zero_l Q : chord_tangent a None Q Q
| ct_zero_r P : chord_tangent a P None P
| ct_opposite x y : chord_tangent a (Some (x, y)) (Some (x, - y)) None
| ct_chord x1 y1 x2 y2 x3 y3 l :
    x1 <> x2 -> l * (x2 - x1) = y2 - y1 ->
    x3 = l * l - x1 - x2 -> y3 = l * (x1 - x3) - y1 ->
    chord_tangent a (Some (x1, y1)) (Some (x2, y2)) (Some (x3, y3))
| ct_tangent x y x3 y3 l :
    y + y <> 0 -> l * (y + y) = x * x + x * x + x * x + a ->
    x3 = l * l - x - x -> y3 = l * (x - x3) - y ->
    chord_tangent a (Some (x, y)) (Some (x, y)) (Some (x3, y3)).

(** doubling n times *)
Inductive doublings (a : F) : nat -> option (F * F) -> option (F * F) -> Prop :=
| dbl_0 P : doublings a O P P
| dbl_S n P Q R : chord_tangent a P P Q -> doublings a n Q R -> doublings a (S n) P R.

(** the twisted Edwards curve with a = -1: y^2 - x^2 = 1 + d x^2 y^2, and its addition law *)
Definition on_edwards (d : F) (P : F * F) : Prop := let '(x, y) := P in y * y - x * x = 1 + d * (x * x) * (y * y).
Inductive edwards_add (d : F) : F * F -> F * F -> F * F -> Prop :=
| ed_add x1 y1 x2 y2 x3 y3 :
    1 + d * x1 * x2 * y1 * y2 <> 0 -> 1 - d * x1 * x2 * y1 * y2 <> 0 ->
    x3 * (1 + d * x1 * x2 * y1 * y2) = x1 * y2 + y1 * x2 ->
    y3 * (1 - d * x1 * x2 * y1 * y2) = y1 * y2 + x1 * x2 ->
    edwards_add d (x1, y1) (x2, y2) (x3, y3).

(** the twisted Edwards curve y^2 - x^2 = 1 + d x^2 y^2 is the image of y^2 = x^3 + a x + b under
    (x, y) |-> (u, v) = (s (x - alpha), s y) |-> (t u / v, (u - 1) / (u + 1)) when *)
Definition twist_parameters (a b alpha s ma mb t d : F) : Prop :=
  alpha * alpha * alpha + a * alpha + b = 0 /\ ((1 + 1 + 1) * alpha * alpha + a) * s * s = 1 /\ ma = (1 + 1 + 1) * alpha * s /\ mb = s /\
  t * t * s = - (ma + (1 + 1)) /\ d * (ma + (1 + 1)) = (1 + 1) - ma /\ t <> 0.
(** the image of a point, where it is defined *)
Definition twisted (alpha s t : F) (P : F * F) : F * F :=
  let '(x, y) := P in let u := s * (x - alpha) in let v := s * y in (t * (u / v), (u - 1) / (u + 1)).

(** the coordinate lists that stand for an affine point; the stored integers need not be canonical *)
Definition elem (a : F) (x : fe) : Prop := fe_prime x = Zpos p /\ of_Z (fe_value x) = a.
(** XYZZ: x = X/ZZ, y = Y/ZZZ, ZZ^3 = ZZZ^2, ZZ and ZZZ not zero *)
Definition xyzz (P : F * F) (c : list fe) : Prop :=
  exists X Y ZZ ZZZ, Forall2 elem [X; Y; ZZ; ZZZ] c /\ ZZ <> 0 /\ ZZZ <> 0 /\ ZZ * ZZ * ZZ = ZZZ * ZZZ /\ fst P * ZZ = X /\ snd P * ZZZ = Y.
(** projective: x = X/Z, y = Y/Z *)
Definition projective (P : F * F) (c : list fe) : Prop :=
  exists X Y Z, Forall2 elem [X; Y; Z] c /\ Z <> 0 /\ fst P * Z = X /\ snd P * Z = Y.
(** extended Edwards: x = X/Z, y = Y/Z, T Z = X Y *)
Definition extended (P : F * F) (c : list fe) : Prop :=
  exists X Y Z T, Forall2 elem [X; Y; Z; T] c /\ Z <> 0 /\ fst P * Z = X /\ snd P * Z = Y /\ T * Z = X * Y.
End Spec.
Arguments on_curve {p}. Arguments chord_tangent {p}. Arguments doublings {p}. Arguments on_edwards {p}. Arguments edwards_add {p}. Arguments twist_parameters {p}. Arguments twisted {p}.
Arguments elem {p}. Arguments xyzz {p}. Arguments projective {p}. Arguments extended {p}.
