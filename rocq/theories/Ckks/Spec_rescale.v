(** Specification vocabulary for rescaling. *)
From Coq Require Import ZArith List Lia.
Import ListNotations.
Local Open Scope Z_scope.

(** the integer nearest to x/q: floor(x/q + 1/2) *)
Definition nearest (q x : Z) : Z := (2 * x + q) / (2 * q).
Lemma nearest_spec : forall q x, 0 < q -> 2 * Z.abs (x - q * nearest q x) <= q.
Proof.
  intros q x Hq. unfold nearest. pose proof (Z.div_mod (2 * x + q) (2 * q) ltac:(lia)). pose proof (Z.mod_pos_bound (2 * x + q) (2 * q) ltac:(lia)). nia.
Qed.
(** for odd q no other integer is as near *)
Lemma nearest_unique : forall q x y, 0 < q -> Z.odd q = true -> 2 * Z.abs (x - q * y) <= q -> y = nearest q x.
Proof.
  intros q x y Hq O H. pose proof (nearest_spec q x Hq) as S. apply Z.odd_spec in O. destruct O as [k O].
  assert (2 * Z.abs (x - q * nearest q x) < q) by lia. nia.
Qed.
Lemma nearest_within : forall q x y, 0 < q -> 2 * Z.abs (x - q * y) < q -> y = nearest q x.
Proof.
  intros q x y Hq H. pose proof (nearest_spec q x Hq) as S. nia.
Qed.
(** dividing by the primes dropped one after the other *)
Definition nearest_all (dropped : list Z) (x : Z) : Z := fold_left (fun x q => nearest q x) dropped x.
