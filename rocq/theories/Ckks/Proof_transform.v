(** The transform is linear and multiplicative. *)
From Coq Require Import ZArith List Bool Lia Setoid.
From Verif Require Import Base.ZSum Base.Modeq Base.Lists Base.Bitrev Base.Nega Base.Powm Base.Word.
From Verif Require Import Ckks.Model_rns_utils Ckks.Spec_ntt Ckks.Spec_poly Ckks.Proof_ntt Ckks.Proof_ntt_ref.
Import ListNotations.
Local Open Scope Z_scope.

Lemma poly_add_length a b : length (poly_add a b) = length a.
Proof. unfold poly_add. rewrite map_length, seq_length. reflexivity. Qed.
Lemma poly_sub_length a b : length (poly_sub a b) = length a.
Proof. unfold poly_sub. rewrite map_length, seq_length. reflexivity. Qed.
Lemma poly_neg_length a : length (poly_neg a) = length a.
Proof. apply map_length. Qed.
Lemma poly_scale_length c a : length (poly_scale c a) = length a.
Proof. apply map_length. Qed.
Lemma poly_mul_length a b : length (poly_mul a b) = length a.
Proof. unfold poly_mul. rewrite map_length, seq_length. reflexivity. Qed.
Lemma poly_mod_length q a : length (poly_mod q a) = length a.
Proof. apply map_length. Qed.
Lemma transform_len L q psi a : length (transform L q psi a) = (2 ^ L)%nat.
Proof. unfold transform. rewrite map_length, seq_length. reflexivity. Qed.

Lemma co_add a b i : (i < length a)%nat -> co (poly_add a b) i = co a i + co b i.
Proof. intros H. unfold poly_add, co. rewrite nth_map_seq by exact H. reflexivity. Qed.
Lemma co_sub a b i : (i < length a)%nat -> co (poly_sub a b) i = co a i - co b i.
Proof. intros H. unfold poly_sub, co. rewrite nth_map_seq by exact H. reflexivity. Qed.
Lemma co_neg a i : co (poly_neg a) i = - co a i.
Proof. unfold co, poly_neg. change 0 with (- 0) at 1. apply map_nth. Qed.
Lemma co_scale c a i : co (poly_scale c a) i = c * co a i.
Proof. unfold co, poly_scale. rewrite <- (Z.mul_0_r c) at 1. apply map_nth. Qed.
Lemma co_mul a b k : (k < length a)%nat -> co (poly_mul a b) k = nega_coeff (length a) (co a) (co b) k.
Proof. intros H. unfold poly_mul, co. rewrite nth_map_seq by exact H. reflexivity. Qed.
Lemma co_mod q a i : co (poly_mod q a) i = co a i mod q.
Proof. unfold co, poly_mod. rewrite <- (Zmod_0_l q) at 1. apply (map_nth (fun x => x mod q)). Qed.

Lemma eval_co a x : eval a x = evalf (length a) (co a) x.
Proof. reflexivity. Qed.

Section Slots.
  Variables (L : nat) (q psi : Z).
  Hypothesis Hq : 0 < q.
  Hypothesis Hr : pw psi (2 ^ L) == -1 [mod q].
  Let slot (a : list Z) (j : nat) : Z := nth j (transform L q psi a) 0.

  Lemma slot_eval a j : (j < 2 ^ L)%nat -> nth j (transform L q psi a) 0 == eval a (pw psi (2 * brev L j + 1)) [mod q].
  Proof. intros Hj. unfold transform. rewrite nth_map_seq by exact Hj. apply eqm_mod. Qed.
  Lemma slot_range a j : (j < 2 ^ L)%nat -> 0 <= nth j (transform L q psi a) 0 < q.
  Proof. intros Hj. unfold transform. rewrite nth_map_seq by exact Hj. apply Z.mod_pos_bound. exact Hq. Qed.

  Lemma slot_eqm a b j : (j < 2 ^ L)%nat -> poly_eqm q a b -> nth j (transform L q psi a) 0 == nth j (transform L q psi b) 0 [mod q].
  Proof.
    intros Hj [E H]. rewrite !slot_eval by exact Hj. rewrite !eval_co, <- E. apply evalf_eqm; [exact H | reflexivity].
  Qed.
  Lemma slot_add a b j : (j < 2 ^ L)%nat -> length a = length b ->
    nth j (transform L q psi (poly_add a b)) 0 == nth j (transform L q psi a) 0 + nth j (transform L q psi b) 0 [mod q].
  Proof.
    intros Hj E. rewrite !slot_eval by exact Hj. rewrite !eval_co, poly_add_length, <- E. unfold evalf. rewrite <- zsum_add.
    apply eqm_eq. apply zsum_ext. intros i Hi. rewrite co_add by exact Hi. ring.
  Qed.
  Lemma slot_sub a b j : (j < 2 ^ L)%nat -> length a = length b ->
    nth j (transform L q psi (poly_sub a b)) 0 == nth j (transform L q psi a) 0 - nth j (transform L q psi b) 0 [mod q].
  Proof.
    intros Hj E. rewrite !slot_eval by exact Hj. rewrite !eval_co, poly_sub_length, <- E. unfold evalf. rewrite <- zsum_sub.
    apply eqm_eq. apply zsum_ext. intros i Hi. rewrite co_sub by exact Hi. ring.
  Qed.
  Lemma slot_neg a j : (j < 2 ^ L)%nat -> nth j (transform L q psi (poly_neg a)) 0 == - nth j (transform L q psi a) 0 [mod q].
  Proof.
    intros Hj. rewrite !slot_eval by exact Hj. rewrite !eval_co, poly_neg_length. unfold evalf. rewrite <- zsum_opp.
    apply eqm_eq. apply zsum_ext. intros i Hi. rewrite co_neg. ring.
  Qed.
  Lemma slot_scale c a j : (j < 2 ^ L)%nat -> nth j (transform L q psi (poly_scale c a)) 0 == c * nth j (transform L q psi a) 0 [mod q].
  Proof.
    intros Hj. rewrite !slot_eval by exact Hj. rewrite !eval_co, poly_scale_length. unfold evalf. rewrite <- zsum_mul_l.
    apply eqm_eq. apply zsum_ext. intros i Hi. rewrite co_scale. ring.
  Qed.
  Lemma slot_mul a b j : (j < 2 ^ L)%nat -> length a = (2 ^ L)%nat -> length b = (2 ^ L)%nat ->
    nth j (transform L q psi (poly_mul a b)) 0 == nth j (transform L q psi a) 0 * nth j (transform L q psi b) 0 [mod q].
  Proof.
    intros Hj Ha Hb. rewrite !slot_eval by exact Hj. rewrite !eval_co, poly_mul_length, Ha, Hb.
    rewrite <- (evalf_nega q (2 ^ L) (co a) (co b)) by (apply odd_power_root; exact Hr).
    apply eqm_eq. apply evalf_ext. intros i Hi. rewrite co_mul by lia. rewrite Ha. reflexivity.
  Qed.
  Lemma transform_mod a : transform L q psi (poly_mod q a) = transform L q psi a.
  Proof.
    apply (list_ext 0); [rewrite !transform_len; reflexivity |]. intros j Hj. rewrite transform_len in Hj.
    apply (eqm_small q); [apply slot_range; exact Hj | apply slot_range; exact Hj |]. apply slot_eqm; [exact Hj |].
    split; [apply poly_mod_length |]. intros i _. rewrite co_mod. apply eqm_mod.
  Qed.
  (** a column whose entries are congruent to the slots of [a] and reduced is the transform of [a] *)
  Lemma transform_intro y a : length y = (2 ^ L)%nat ->
    (forall j, (j < 2 ^ L)%nat -> 0 <= nth j y 0 < q /\ nth j y 0 == nth j (transform L q psi a) 0 [mod q]) -> y = transform L q psi a.
  Proof.
    intros Hy H. apply (list_ext 0); [rewrite transform_len; exact Hy |]. intros j Hj. rewrite Hy in Hj. destruct (H j Hj) as [B E].
    apply (eqm_small q); [exact B | apply slot_range; exact Hj | exact E].
  Qed.
End Slots.
