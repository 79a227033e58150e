(** C49 for copy of the Barrett and Montgomery elements. *)
From Coq Require Import ZArith List Bool Lia Znumtheory.
From Verif Require Import Base.ZSum Base.Modeq Ec.Model_reffield Ec.Prop_reffield.
Import ListNotations.
Local Open Scope Z_scope.

Lemma fb_new_ok p k v : 0 <= v < p -> 0 <= k -> exists x, fb_new v p (Some k) = Some x /\ fb_ok p k v x /\ fb_value x = v.
Proof.
  intros B Hk. unfold fb_new. destruct (Z.ltb_spec v 0); [lia |]. destruct (Z.leb_spec p v); [lia |]. cbn [orb]. cbv zeta. destruct (Z.ltb_spec (2 * k) 0); [lia |].
  eexists. split; [reflexivity |]. split; [| reflexivity]. split; [reflexivity |]. split; [reflexivity |]. split; [reflexivity |]. cbn [fb_value]. split; [lia | apply eqm_refl].
Qed.
Lemma fm_new_ok p k v : prime p -> 0 <= v < p -> 0 < k -> exists x, fm_new v p (Some k) = Some x /\ fm_att p k x /\ fm_value x = (v * 2 ^ k) mod p.
Proof.
  intros Hp B Hk. pose proof (prime_ge_2 p Hp) as P2. unfold fm_new. destruct (Z.ltb_spec v 0); [lia |]. destruct (Z.leb_spec p v); [lia |]. cbn [orb]. cbv zeta.
  replace (match k with 0 => Z.log2_up p | _ => k end) with k by (destruct k; [lia | reflexivity | lia]). destruct (Z.ltb_spec k 0); [lia |].
  rewrite powmod_ok by lia. eexists. split; [reflexivity |]. split; [| reflexivity]. split; [reflexivity |]. split; [reflexivity |]. split; reflexivity.
Qed.
(** copy(w): the same field, with value w, or w reduced, or w in Montgomery form; copy() is the element itself *)
Theorem C49_reduced_copy : forall p k v w, prime p -> p <> 2 -> 0 < k -> p <= 2 ^ k -> 0 <= v < p -> 0 < w <= p * p ->
  (exists x, fb_new v p (Some k) = Some x /\ fb_copy x None false = x /\ fb_copy x None true = x /\
    fb_value (fb_copy x (Some w) false) = w /\ fb_value (fb_copy x (Some w) true) = w mod p /\ forall r, fb_prime (fb_copy x (Some w) r) = p) /\
  (exists y, fm_new v p (Some k) = Some y /\ (forall t r, fm_copy y None t r = y) /\
    fm_value (fm_copy y (Some w) false false) = w /\ fm_value (fm_copy y (Some w) true false) = (w * 2 ^ k) mod p /\
    (forall t, 0 <= fm_value (fm_copy y (Some w) t true) < p /\ (fm_value (fm_copy y (Some w) t true) * 2 ^ k) mod p = w mod p) /\
    fm_value (change_montgomery_form (fm_copy y (Some w) true false)) = w mod p).
Proof.
  intros p k v w Hp N2 Hk HP B W. pose proof (prime_ge_2 p Hp) as P2. split.
  - destruct (fb_new_ok p k v B ltac:(lia)) as (x & E & O & _). exists x. split; [exact E |]. split; [reflexivity |]. split; [reflexivity |]. unfold fb_copy. destruct (Z.eqb_spec w 0); [lia |].
    split; [reflexivity |]. destruct (fb_reduce_ok p k v x w ltac:(lia) ltac:(lia) HP O ltac:(lia)) as [(_ & _ & _ & [L _] & R) U]. cbn [fb_value fb_with] in *.
    split; [| intros r; destruct O as (O & _); destruct r; exact O]. rewrite <- (Z.mod_small (fb_reduce x w) p) by lia. apply eqm_mod_iff; [lia | exact R].
  - destruct (fm_new_ok p k v Hp B Hk) as (y & E & A & _). exists y. split; [exact E |]. split; [intros; reflexivity |]. unfold fm_copy. destruct (Z.eqb_spec w 0); [lia |]. pose proof A as (A1 & A2 & A3 & A4).
    split; [reflexivity |]. split; [cbn [fm_with fm_value]; unfold fm_r, montgomeryize; rewrite A1, A2; reflexivity |]. split.
    + intros _. cbn [fm_with fm_value]. destruct (montgomery_ok p k y w Hp N2 ltac:(lia) HP A ltac:(lia)) as [M1 M2]. split; [exact M1 |]. apply eqm_mod_iff; [lia | exact M2].
    + set (c := fm_with y (montgomeryize (fm_r y) (fm_prime y) w)). assert (Ac : fm_att p k c) by (repeat split; assumption). unfold change_montgomery_form. change (fm_form c) with (fm_form y). rewrite A3. cbn [fm_value]. unfold de_montgomeryize.
      assert (Vc : fm_value c = (w * 2 ^ k) mod p) by (unfold c; cbn [fm_with fm_value]; unfold fm_r, montgomeryize; rewrite A1, A2; reflexivity). rewrite Vc.
      pose proof (Z.mod_pos_bound (w * 2 ^ k) p ltac:(lia)) as Bw. destruct (montgomery_ok p k c ((w * 2 ^ k) mod p) Hp N2 ltac:(lia) HP Ac ltac:(nia)) as [M1 M2].
      rewrite <- (Z.mod_small (fm_reduce c _) p) by exact M1. apply eqm_mod_iff; [lia |]. set (m := fm_reduce c ((w * 2 ^ k) mod p)) in *. assert (M3 : m * 2 ^ k == w * 2 ^ k [mod p]) by (eapply eqm_trans; [exact M2 | apply eqm_mod]).
      assert (D : (p | (m - w) * 2 ^ k)) by (unfold eqm in M3; replace ((m - w) * 2 ^ k) with (m * 2 ^ k - w * 2 ^ k) by ring; exact M3).
      destruct (prime_mult p Hp _ _ D) as [D1 | D2]; [exact D1 |]. exfalso. apply (two_unit p k Hp N2 ltac:(lia)). unfold eqm. rewrite Z.sub_0_r. exact D2.
Qed.
Example C49_reduced_copy_ex : exists x y, fb_new 3 13 (Some 4) = Some x /\ fm_new 3 13 (Some 4) = Some y /\ fb_value (fb_copy x (Some 100) true) = 9 /\
  fm_value (fm_copy y (Some 5) true false) = 2 /\ fm_value (change_montgomery_form (fm_copy y (Some 5) true false)) = 5.
Proof. eexists. eexists. split; [vm_compute; reflexivity |]. split; [vm_compute; reflexivity |]. repeat split; vm_compute; reflexivity. Qed.
Print Assumptions C49_reduced_copy.
(** FINDING: copy(0) of an element that is not zero is not zero, in these classes too *)
Theorem C49_reduced_copy_zero_refuted : forall x y, fb_value x <> 0 -> fm_value y <> 0 ->
  (forall r, fb_value (fb_copy x (Some 0) r) <> 0) /\ (forall t r, fm_value (fm_copy y (Some 0) t r) <> 0).
Proof. intros x y Hx Hy. split; intros; assumption. Qed.
Example C49_reduced_copy_zero_ex : exists x, fb_new 3 13 (Some 4) = Some x /\ fb_value (fb_copy x (Some 0) true) = 3.
Proof. eexists. split; [vm_compute; reflexivity | reflexivity]. Qed.
Print Assumptions C49_reduced_copy_zero_refuted.
