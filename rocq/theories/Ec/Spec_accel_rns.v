(** Packed points in residue form: lane i of a batch of four coordinates, read as a point of the reference classes. *)
From Coq Require Import ZArith List.
From Verif Require Import Ec.Model_util Ec.Model_reffield Ec.Model_curve Ec.Model_accel Ec.Spec_rns377.
Import ListNotations.
Local Open Scope Z_scope.

(** the integers the four coordinates of a packed point stand for, lane by lane *)
Record lanes4 := Lanes { lx : nat -> Z; ly : nat -> Z; lz : nat -> Z; lt : nat -> Z }.
(** [a] is a batch of n rows; row i stands for the integer [f i], which lies in [0, bound) *)
Definition stands_for (n : nat) (bound : Z) (f : nat -> Z) (a : list (list Z)) : Prop :=
  rns_batch MODULI (map f (seq 0 n)) a /\ forall i, (i < n)%nat -> 0 <= f i < bound.
(** the x coordinates below [bx], the others below [b] *)
Definition packed_rns (n : nat) (bx b : Z) (v : lanes4) (c : coords) : Prop :=
  let '(x, y, z, t) := c in stands_for n bx (lx v) x /\ stands_for n b (ly v) y /\ stands_for n b (lz v) z /\ stands_for n b (lt v) t.
(** the reference point with the residues of lane i as coordinates *)
Definition lane_int_point (k : kind) (v : lanes4) (i : nat) : pt :=
  let r x := FE (x mod MODULUS_377_INT) MODULUS_377_INT in Pt false (Some [r (lx v i); r (ly v i); r (lz v i); r (lt v i)]) k.
