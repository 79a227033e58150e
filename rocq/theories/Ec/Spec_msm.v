(** A group of points of a curve: an abelian group, each element of which has coordinates, and whose addition is the chord and
    tangent law on those coordinates. *)
From Coq Require Import ZArith List.
From Verif Require Import Base.Fp Ec.Spec_curve Ec.Spec_pippenger.

Record curve_points {p} (a b : Fp p) (g : abelian_group) (point : g -> option (Fp p * Fp p)) : Prop := {
  cp_injective : forall x y, point x = point y -> x = y;
  cp_on_curve : forall x, on_curve a b (point x);
  cp_zero : point gzero = None;
  cp_add : forall x y, chord_tangent a (point x) (point y) (point (gadd x y))
}.
(** no element of order two: no point (x, 0) *)
Definition no_order_two {p} {g : abelian_group} (point : g -> option (Fp p * Fp p)) : Prop := forall x X Y, point x = Some (X, Y) -> Y <> of_Z 0.
