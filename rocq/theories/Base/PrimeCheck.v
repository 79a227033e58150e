(** A verified trial-division primality check, used to exhibit concrete primes. *)
From Coq Require Import ZArith Znumtheory Bool Lia.
Local Open Scope Z_scope.

Fixpoint trial_odd (fuel : nat) (d q : Z) : bool :=
  match fuel with
  | O => false
  | S f => if q <? d * d then true else if q mod d =? 0 then false else trial_odd f (d + 2) q
  end.
Definition prime_check (q : Z) : bool :=
  (q =? 2) || ((2 <? q) && negb (q mod 2 =? 0) && trial_odd (Z.to_nat (Z.sqrt q)) 3 q).

Lemma trial_odd_sound f : forall d q, 0 < d -> Z.odd d = true -> trial_odd f d q = true ->
  forall e, d <= e -> Z.odd e = true -> e * e <= q -> q mod e <> 0.
Proof.
  induction f as [|f IH]; intros d q Hd Ho H e He Hoe Hq; cbn [trial_odd] in H; [discriminate |].
  destruct (q <? d * d) eqn:E1; [apply Z.ltb_lt in E1; nia |].
  destruct (q mod d =? 0) eqn:E2; [discriminate |]. apply Z.eqb_neq in E2.
  destruct (Z.eq_dec e d) as [-> | N]; [exact E2 |].
  apply (IH (d + 2) q); auto; [lia | rewrite Z.odd_add, Ho; reflexivity |].
  assert (e <> d + 1); [| lia]. intros ->. rewrite Z.odd_add, Ho in Hoe. discriminate.
Qed.

Theorem prime_check_sound q : prime_check q = true -> prime q.
Proof.
  unfold prime_check. intros H. apply orb_prop in H. destruct H as [H | H]; [apply Z.eqb_eq in H; subst; exact prime_2 |].
  apply andb_prop in H. destruct H as [H H3]. apply andb_prop in H. destruct H as [H1 H2].
  apply Z.ltb_lt in H1. apply negb_true_iff, Z.eqb_neq in H2.
  assert (ND : forall e, 1 < e -> e * e <= q -> ~ (e | q)).
  { intros e He Hs Hd. destruct (Z.odd e) eqn:O.
    - apply (trial_odd_sound _ 3 q ltac:(lia) eq_refl H3 e); auto.
      + assert (e <> 2); [| lia]. intros ->. discriminate.
      + apply Z.mod_divide; [lia | exact Hd].
    - apply H2. apply Z.mod_divide; [lia |]. apply Z.divide_trans with e; [| exact Hd].
      rewrite <- Z.negb_even in O. apply negb_false_iff in O. apply Z.even_spec in O. destruct O as [k ->]. exists k. lia. }
  apply prime_alt. split; [lia |]. intros n Hn [m Hm].
  destruct (Z.le_gt_cases (n * n) q) as [Hs | Hs].
  - apply (ND n); [lia | exact Hs | exists m; exact Hm].
  - apply (ND m); [nia | nia | exists n; lia].
Qed.
