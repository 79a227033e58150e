(** Packed points: lane i of a batch of four coordinates, read as a point of the reference classes. *)
From Coq Require Import ZArith List.
From Verif Require Import Base.Fp Ec.Spec_chunks Ec.Model_util Ec.Model_reffield Ec.Model_curve Ec.Model_accel.
Import ListNotations.
Local Open Scope Z_scope.

Definition p377 : positive := Z.to_pos MODULUS_377_INT.
Notation F377 := (Fp p377).
(** every coordinate is a batch of n rows of k chunks, each row standing for an integer below [bound] *)
Definition within (k n : nat) (bound : Z) (a : list (list Z)) : Prop := chunked k a /\ length a = n /\ forall i, (i < n)%nat -> row a i < bound.
Definition packed (k n : nat) (bound : Z) (c : coords) : Prop :=
  let '(x, y, z, t) := c in within k n bound x /\ within k n bound y /\ within k n bound z /\ within k n bound t.
(** the reference point with the residues of lane i as coordinates *)
Definition residue (a : list (list Z)) (i : nat) : fe := FE (row a i mod MODULUS_377_INT) MODULUS_377_INT.
Definition lane_point (k : kind) (c : coords) (i : nat) : pt :=
  let '(x, y, z, t) := c in Pt false (Some [residue x i; residue y i; residue z i; residue t i]) k.
