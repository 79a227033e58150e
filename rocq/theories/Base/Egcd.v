(** Extended Euclid on Z and modular inverses. *)
From Coq Require Import ZArith List Lia Znumtheory.
From Verif Require Import Base.Modeq.
Import ListNotations.
Local Open Scope Z_scope.

(** (g, u, v) with a*u + b*v = g *)
Fixpoint egcd (fuel : nat) (a b : Z) : Z * Z * Z :=
  match fuel with
  | O => (a, 1, 0)
  | S f => if b =? 0 then (a, 1, 0)
           else let '(g, u, v) := egcd f b (a mod b) in (g, v, u - (a / b) * v)
  end.

Lemma egcd_bezout f : forall a b g u v, egcd f a b = (g, u, v) -> a * u + b * v = g.
Proof.
  induction f as [|f IH]; intros a b g u v H; cbn [egcd] in H; [injection H; intros; subst; ring |].
  destruct (b =? 0) eqn:E; [injection H; intros; subst; ring |].
  apply Z.eqb_neq in E.
  destruct (egcd f b (a mod b)) as [[g' u'] v'] eqn:R. injection H; intros; subst.
  specialize (IH _ _ _ _ _ R). rewrite <- IH. rewrite (Z.div_mod a b E) at 1. ring.
Qed.

Lemma egcd_gcd k : forall f a b g u v, (2 * k + 1 <= f)%nat -> 0 <= a -> 0 <= b < 2 ^ Z.of_nat k ->
  egcd f a b = (g, u, v) -> g = Z.gcd a b.
Proof.
  induction k as [|k IH]; intros f a b g u v Hf Ha Hb H.
  - assert (b = 0) by (cbn in Hb; lia). subst b. destruct f as [|f]; cbn in H; injection H; intros; subst;
      rewrite Z.gcd_0_r; lia.
  - destruct f as [|[|f]]; try lia. cbn [egcd] in H.
    destruct (b =? 0) eqn:E; [apply Z.eqb_eq in E; subst b; injection H; intros; subst; rewrite Z.gcd_0_r; lia |].
    apply Z.eqb_neq in E.
    pose proof (Z.mod_pos_bound a b ltac:(lia)) as B1.
    destruct (a mod b =? 0) eqn:E2.
    { apply Z.eqb_eq in E2. injection H; intros; subst.
      rewrite Z.gcd_comm. rewrite <- Z.gcd_mod by lia. rewrite E2. cbn. lia. }
    apply Z.eqb_neq in E2.
    set (r := a mod b) in *.
    destruct (egcd f r (b mod r)) as [[g' u'] v'] eqn:R. injection H; intros; subst g v u.
    pose proof (Z.mod_pos_bound b r ltac:(lia)) as B2.
    assert (Hh : b mod r < 2 ^ Z.of_nat k).
    { replace (Z.of_nat (S k)) with (Z.of_nat k + 1) in Hb by lia. rewrite Z.pow_add_r in Hb by lia. change (2 ^ 1) with 2 in Hb.
      pose proof (Z.div_mod b r ltac:(lia)) as D.
      assert (1 <= b / r) by (apply Z.div_le_lower_bound; lia). nia. }
    rewrite (IH f r (b mod r) g' u' v'); [| lia | lia | lia | exact R].
    rewrite (Z.gcd_comm r). rewrite Z.gcd_mod by lia.
    unfold r. rewrite Z.gcd_mod by lia. apply Z.gcd_comm.
Qed.

(** the value of Python's [pow(x, -1, q)] for q >= 1; None is the ValueError "base is not invertible" *)
Definition inverse (x q : Z) : option Z :=
  let '(g, u, _) := egcd (Z.to_nat (2 * Z.log2_up (q + 1) + 1)) (x mod q) q in
  if g =? 1 then Some (u mod q) else None.

Lemma inverse_some x q y : 0 < q -> inverse x q = Some y -> 0 <= y < q /\ x * y == 1 [mod q].
Proof.
  intros Hq H. unfold inverse in H.
  destruct (egcd (Z.to_nat (2 * Z.log2_up (q + 1) + 1)) (x mod q) q) as [[g u] v] eqn:R.
  destruct (g =? 1) eqn:E; [| discriminate]. apply Z.eqb_eq in E. injection H; intros; subst.
  split; [apply Z.mod_pos_bound; lia |].
  pose proof (egcd_bezout _ _ _ _ _ _ R) as B.
  transitivity ((x mod q) * u); [apply eqm_mul_mor; [symmetry; apply eqm_mod | apply eqm_mod] |].
  apply eqm_ex. exists (- v). lia.
Qed.

Lemma inverse_total x q : 0 < q -> Z.gcd x q = 1 -> exists y, inverse x q = Some y.
Proof.
  intros Hq HG. unfold inverse.
  destruct (egcd (Z.to_nat (2 * Z.log2_up (q + 1) + 1)) (x mod q) q) as [[g u] v] eqn:R.
  assert (g = Z.gcd (x mod q) q).
  { eapply (egcd_gcd (Z.to_nat (Z.log2_up (q + 1)))); [| | | exact R].
    - pose proof (Z.log2_up_nonneg (q + 1)). lia.
    - apply Z.mod_pos_bound. lia.
    - rewrite Z2Nat.id by apply Z.log2_up_nonneg. pose proof (Z.log2_up_spec (q + 1) ltac:(lia)). lia. }
  rewrite Z.gcd_mod in H by lia. rewrite Z.gcd_comm, HG in H. subst g. cbn. eexists. reflexivity.
Qed.

Lemma inverse_none x q : 0 < q -> Z.gcd x q <> 1 -> inverse x q = None.
Proof.
  intros Hq HG. destruct (inverse x q) as [y |] eqn:E; [| reflexivity]. exfalso. apply HG.
  apply inverse_some in E; [| exact Hq]. destruct E as [_ E]. apply eqm_ex in E. destruct E as [k E].
  apply Z.bezout_1_gcd. exists y, (- k). lia.
Qed.

Lemma inverse_prime x q : prime q -> x mod q <> 0 -> exists y, inverse x q = Some y.
Proof.
  intros P H. pose proof (prime_ge_2 q P). apply inverse_total; [lia |].
  apply Zgcd_1_rel_prime. apply rel_prime_sym. apply prime_rel_prime; [exact P |].
  intros D. apply H. apply Z.mod_divide; [lia | exact D].
Qed.

(** cancellation of an invertible factor *)
Lemma eqm_cancel q c c' a b : c * c' == 1 [mod q] -> c * a == c * b [mod q] -> a == b [mod q].
Proof.
  intros HC H.
  transitivity ((c * c') * a); [symmetry; transitivity (1 * a); [apply eqm_mul_mor; [exact HC | reflexivity] | apply eqm_eq; ring] |].
  transitivity (c' * (c * a)); [apply eqm_eq; ring |].
  transitivity (c' * (c * b)); [apply eqm_mul_mor; [reflexivity | exact H] |].
  transitivity ((c * c') * b); [apply eqm_eq; ring |].
  transitivity (1 * b); [apply eqm_mul_mor; [exact HC | reflexivity] | apply eqm_eq; ring].
Qed.

Lemma inverse_unique q c a b : 0 < q -> 0 <= a < q -> 0 <= b < q -> c * a == 1 [mod q] -> c * b == 1 [mod q] -> a = b.
Proof.
  intros Hq Ha Hb H1 H2. apply (eqm_small q); auto. apply (eqm_cancel q c a); [exact H1 |].
  transitivity 1; [exact H1 | symmetry; exact H2].
Qed.
