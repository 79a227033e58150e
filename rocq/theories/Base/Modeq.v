(** Congruence of integers.  Pure mathematics. *)
From Coq Require Import ZArith List Lia Setoid Morphisms.
From Verif Require Import Base.ZSum.
Import ListNotations.
Local Open Scope Z_scope.

(** [a] and [b] are congruent modulo [mod q]. *)
Definition eqm (q a b : Z) : Prop := (q | a - b).

Notation "a == b [mod q ]" := (eqm q a b) (at level 70, b at next level, q at level 200, format "a  ==  b  [mod  q ]").

Lemma eqm_ex q a b : a == b [mod q] <-> exists k, a = b + k * q.
Proof.
  unfold eqm, Z.divide. split; intros [k Hk]; exists k; lia.
Qed.

Lemma eqm_refl q a : a == a [mod q].
Proof. exists 0. lia. Qed.
Lemma eqm_sym q a b : a == b [mod q] -> b == a [mod q].
Proof. intros [k Hk]. exists (-k). lia. Qed.
Lemma eqm_trans q a b c : a == b [mod q] -> b == c [mod q] -> a == c [mod q].
Proof. intros [k Hk] [l Hl]. exists (k + l). lia. Qed.

Global Instance eqm_equiv q : Equivalence (eqm q).
Proof.
  split; [exact (eqm_refl q) | exact (eqm_sym q) | exact (eqm_trans q)].
Qed.

Global Instance eqm_add_mor q : Proper (eqm q ==> eqm q ==> eqm q) Z.add.
Proof. intros a b [k Hk] c d [l Hl]. exists (k + l). lia. Qed.
Global Instance eqm_sub_mor q : Proper (eqm q ==> eqm q ==> eqm q) Z.sub.
Proof. intros a b [k Hk] c d [l Hl]. exists (k - l). lia. Qed.
Global Instance eqm_opp_mor q : Proper (eqm q ==> eqm q) Z.opp.
Proof. intros a b [k Hk]. exists (- k). lia. Qed.
Global Instance eqm_mul_mor q : Proper (eqm q ==> eqm q ==> eqm q) Z.mul.
Proof.
  intros a b [k Hk] c d [l Hl]. exists (k * c + b * l).
  replace a with (b + k * q) by lia. replace c with (d + l * q) by lia. ring.
Qed.

Lemma eqm_eq q a b : a = b -> a == b [mod q].
Proof. intros ->. apply eqm_refl. Qed.

Lemma eqm_mod q a : a mod q == a [mod q].
Proof.
  destruct (Z.eq_dec q 0) as [->|Hq].
  - rewrite Zmod_0_r. apply eqm_refl.
  - exists (- (a / q)). rewrite (Z.div_mod a q Hq) at 2. ring.
Qed.

Lemma eqm_mod_iff q a b : 0 < q -> (a == b [mod q] <-> a mod q = b mod q).
Proof.
  intros Hq. split.
  - intros [k Hk]. replace a with (b + k * q) by lia. apply Z.mod_add. lia.
  - intros H. rewrite <- (eqm_mod q a), <- (eqm_mod q b), H. reflexivity.
Qed.

Lemma eqm_small q a b : 0 <= a < q -> 0 <= b < q -> a == b [mod q] -> a = b.
Proof.
  intros Ha Hb H. apply eqm_mod_iff in H; [|lia].
  rewrite (Z.mod_small a q Ha), (Z.mod_small b q Hb) in H. exact H.
Qed.

Lemma eqm_small_mod q a b : 0 < q -> a == b [mod q] -> 0 <= b < q -> a mod q = b.
Proof.
  intros Hq H Hb. apply eqm_mod_iff in H; [|exact Hq]. rewrite H. apply Z.mod_small. exact Hb.
Qed.

Lemma eqm_multiple q k : k * q == 0 [mod q].
Proof. exists k. lia. Qed.

Lemma eqm_q q : q == 0 [mod q].
Proof. exists 1. lia. Qed.

Lemma eqm_weaken q r a b : (r | q) -> a == b [mod q] -> a == b [mod r].
Proof. intros [c Hc] [k Hk]. exists (k * c). rewrite Hk, Hc. ring. Qed.

Lemma eqm_scale q c a b : a == b [mod q] -> c * a == c * b [mod c * q].
Proof. intros [k Hk]. exists k. rewrite <- Z.mul_sub_distr_l, Hk. ring. Qed.

Lemma eqm_zsum q n f g : (forall i, (i < n)%nat -> f i == g i [mod q]) -> zsum n f == zsum n g [mod q].
Proof.
  induction n as [|n IH]; intros H; cbn [zsum]; [reflexivity|].
  rewrite IH by (intros; apply H; lia). rewrite (H n) by lia. reflexivity.
Qed.

Lemma eqm_lsum q l1 l2 : Forall2 (eqm q) l1 l2 -> lsum l1 == lsum l2 [mod q].
Proof.
  induction 1 as [|x y xs ys Hxy HF IH]; cbn [lsum]; [reflexivity|].
  rewrite Hxy, IH. reflexivity.
Qed.

(** Two values that are congruent and close are equal. *)
Lemma eqm_close q a b : Z.abs (a - b) < q -> a == b [mod q] -> a = b.
Proof. intros H [k Hk]. assert (k = 0) by nia. subst k. lia. Qed.
