(** C49: the reference field classes implement arithmetic modulo a prime.
    [value_of p e v] (Spec_reffield): the expression e over residues has the canonical value v. *)
From Coq Require Import ZArith List Bool Lia Znumtheory Zpow_facts.
From Verif Require Import Base.Modeq Base.Powm Base.Fermat Base.Egcd Ec.Model_reffield Ec.Spec_reffield.
Import ListNotations.
Local Open Scope Z_scope.

Definition lift2 {A} (f : A -> A -> option A) (x y : option A) : option A := match x, y with Some x, Some y => f x y | _, _ => None end.

Lemma powmod_ok b e m : 0 < m -> 0 <= e -> powmod b e m = Some (b ^ e mod m).
Proof. intros Hm He. unfold powmod. destruct (Z.eqb_spec m 0); [lia |]. destruct (Z.ltb_spec e 0); [lia |]. rewrite Zpow_mod_correct by lia. reflexivity. Qed.
Lemma fermat_inverse p y : prime p -> ~ (y == 0 [mod p]) -> y * y ^ (p - 2) == 1 [mod p].
Proof.
  intros Hp Hy. pose proof (prime_ge_2 p Hp). pose proof (fermat p y Hp Hy) as F. unfold pw in F. rewrite Z2Nat.id in F by lia. replace (p - 1) with (Z.succ (p - 2)) in F by lia. rewrite Z.pow_succ_r in F by lia. exact F.
Qed.
Lemma nz_residue p y : 0 <= y < p -> y <> 0 -> ~ (y == 0 [mod p]).
Proof. intros B N. apply small_nz. lia. Qed.
(** the quotient is unique *)
Lemma quotient_eqm p x y d : prime p -> ~ (y == 0 [mod p]) -> (d * y == x [mod p]) -> x * y ^ (p - 2) == d [mod p].
Proof. intros Hp Hy E. rewrite <- E. pose proof (fermat_inverse p y Hp Hy) as F. rewrite <- Z.mul_assoc. rewrite F. rewrite Z.mul_1_r. reflexivity. Qed.

Lemma value_range p e v : 1 < p -> value_of p e v -> 0 <= v < p.
Proof. intros Hp H. induction H; try assumption; apply Z.mod_pos_bound; lia. Qed.

(** ** FiniteFieldElement *)
Fixpoint eval_fe (p : Z) (e : expr) : option fe :=
  match e with
  | Leaf v => fe_new v p
  | Add a b => lift2 fe_add (eval_fe p a) (eval_fe p b)
  | Sub a b => lift2 fe_sub (eval_fe p a) (eval_fe p b)
  | Mul a b => lift2 fe_mul (eval_fe p a) (eval_fe p b)
  | Div a b => lift2 fe_div (eval_fe p a) (eval_fe p b)
  end.
Lemma fe_new_ok v p : 0 <= v < p -> fe_new v p = Some (FE v p).
Proof. intros H. unfold fe_new. destruct (Z.ltb_spec v 0); [lia |]. destruct (Z.leb_spec p v); [lia |]. reflexivity. Qed.

Theorem C49_field : forall p e v, prime p -> value_of p e v -> eval_fe p e = Some (FE v p).
Proof.
  intros p e v Hp H. pose proof (prime_ge_2 p Hp) as P2. induction H as [v B | a b x y Ha IHa Hb IHb | a b x y Ha IHa Hb IHb | a b x y Ha IHa Hb IHb | a b x y d Ha IHa Hb IHb N B E]; cbn [eval_fe].
  - apply fe_new_ok; exact B.
  - rewrite IHa, IHb. cbn [lift2]. unfold fe_add. cbn [fe_prime fe_value]. rewrite Z.eqb_refl. cbn [negb]. apply fe_new_ok. apply Z.mod_pos_bound; lia.
  - rewrite IHa, IHb. cbn [lift2]. unfold fe_sub. cbn [fe_prime fe_value]. rewrite Z.eqb_refl. cbn [negb]. apply fe_new_ok. apply Z.mod_pos_bound; lia.
  - rewrite IHa, IHb. cbn [lift2]. unfold fe_mul. cbn [fe_prime fe_value]. rewrite Z.eqb_refl. cbn [negb]. apply fe_new_ok. apply Z.mod_pos_bound; lia.
  - rewrite IHa, IHb. cbn [lift2]. unfold fe_div. cbn [fe_prime fe_value]. rewrite Z.eqb_refl. cbn [negb]. rewrite powmod_ok by lia. rewrite fe_new_ok by (apply Z.mod_pos_bound; lia). f_equal. f_equal.
    pose proof (value_range p b y ltac:(lia) Hb) as By. pose proof (value_range p a x ltac:(lia) Ha) as Bx. apply (eqm_small p); [apply Z.mod_pos_bound; lia | exact B |]. rewrite (eqm_mod p (x * _)). rewrite (eqm_mod p (y ^ _)). apply quotient_eqm; [exact Hp | apply nz_residue; assumption |]. rewrite <- E. symmetry. apply eqm_mod.
Qed.
Print Assumptions C49_field.

(** equality is equality of residues *)
Theorem C49_field_eq : forall p e e' v v', prime p -> value_of p e v -> value_of p e' v' -> forall x y, eval_fe p e = Some x -> eval_fe p e' = Some y -> (fe_eq x y = true <-> v mod p = v' mod p).
Proof.
  intros p e e' v v' Hp H H' x y E E'. rewrite (C49_field p e v Hp H) in E. rewrite (C49_field p e' v' Hp H') in E'. injection E as <-. injection E' as <-. unfold fe_eq. cbn [fe_value fe_prime]. rewrite Z.eqb_refl, andb_true_r, Z.eqb_eq. pose proof (prime_ge_2 p Hp). rewrite !Z.mod_small by (eapply value_range; [lia | eassumption]). reflexivity.
Qed.
Print Assumptions C49_field_eq.
(** exponentiation: non-negative and negative exponents *)
Theorem C49_field_pow : forall p x e, prime p -> 0 <= x < p -> 0 <= e -> fe_pow (FE x p) e = Some (FE (x ^ e mod p) p).
Proof. intros p x e Hp B He. pose proof (prime_ge_2 p Hp). unfold fe_pow. cbn [fe_value fe_prime]. rewrite powmod_ok by lia. apply fe_new_ok. apply Z.mod_pos_bound; lia. Qed.
Print Assumptions C49_field_pow.
Theorem C49_field_pow_negative : forall p x e, prime p -> 0 < x < p -> e < 0 -> exists v, fe_pow (FE x p) e = Some (FE v p) /\ 0 <= v < p /\ (v * x ^ (- e)) mod p = 1.
Proof.
  intros p x e Hp B He. pose proof (prime_ge_2 p Hp). unfold fe_pow. cbn [fe_value fe_prime]. unfold powmod. destruct (Z.eqb_spec p 0); [lia |]. destruct (Z.ltb_spec e 0); [| lia].
  destruct (inverse_prime x p Hp) as (i & Ei); [rewrite Z.mod_small; lia |]. rewrite Ei. destruct (inverse_some x p i ltac:(lia) Ei) as [Bi Hi]. rewrite Zpow_mod_correct by lia. exists (i ^ (- e) mod p). split; [apply fe_new_ok, Z.mod_pos_bound; lia |]. split; [apply Z.mod_pos_bound; lia |].
  rewrite <- (Z.mod_small 1 p) by lia. apply eqm_mod_iff; [lia |]. rewrite (eqm_mod p (i ^ _)). rewrite <- Z.pow_mul_l. rewrite Z.mul_comm. assert (G : forall n, 0 <= n -> (x * i) ^ n == 1 [mod p]). { intros j Hj. pattern j. apply natlike_ind; [apply eqm_refl | | exact Hj]. intros m Hm IH. rewrite Z.pow_succ_r by exact Hm. rewrite IH, Hi. reflexivity. } apply G. lia.
Qed.
Print Assumptions C49_field_pow_negative.
(** operands of different fields, and values outside the range, are rejected *)
Theorem C49_field_errors : forall x y v p, (fe_prime x <> fe_prime y -> fe_add x y = None /\ fe_sub x y = None /\ fe_mul x y = None /\ fe_div x y = None) /\ (fe_new v p = None <-> ~ 0 <= v < p) /\ (fe_set_value x v = None <-> ~ 0 <= v < fe_prime x).
Proof.
  intros x y v p. split; [| split].
  - intros N. unfold fe_add, fe_sub, fe_mul, fe_div. destruct (Z.eqb_spec (fe_prime x) (fe_prime y)); [contradiction |]. repeat split.
  - unfold fe_new. destruct (Z.ltb_spec v 0); destruct (Z.leb_spec p v); cbn [orb]; split; intros; (lia || discriminate || reflexivity).
  - unfold fe_set_value. destruct (Z.ltb_spec v 0); destruct (Z.leb_spec (fe_prime x) v); cbn [orb]; split; intros; (lia || discriminate || reflexivity).
Qed.
Print Assumptions C49_field_errors.
(** division by zero does not raise: it returns zero (x itself in the field of two elements) *)
Theorem C49_division_by_zero : forall p x, prime p -> 2 < p -> 0 <= x < p -> fe_div (FE x p) (FE 0 p) = Some (FE 0 p).
Proof. intros p x Hp H2 B. unfold fe_div. cbn [fe_prime fe_value]. rewrite Z.eqb_refl. cbn [negb]. rewrite powmod_ok by lia. rewrite Z.pow_0_l by lia. rewrite Z.mod_0_l by lia. rewrite Z.mul_0_r, Z.mod_0_l by lia. apply fe_new_ok. lia. Qed.
Print Assumptions C49_division_by_zero.
(** copy *)
Theorem C49_copy : forall x v, v <> 0 -> fe_value (fe_copy x (Some v)) = v /\ fe_prime (fe_copy x (Some v)) = fe_prime x /\ fe_copy x None = x.
Proof. intros x v N. unfold fe_copy. destruct (Z.eqb_spec v 0); [contradiction |]. repeat split. Qed.
Print Assumptions C49_copy.
(** FINDING: copy(0) keeps the old value *)
Theorem C49_copy_zero_refuted : forall x, fe_value x <> 0 -> fe_value (fe_copy x (Some 0)) <> 0.
Proof. intros x N. exact N. Qed.
Print Assumptions C49_copy_zero_refuted.

(** ** FiniteFieldElementBarrett *)
Fixpoint eval_fb (p : Z) (k : option Z) (e : expr) : option fb :=
  match e with
  | Leaf v => fb_new v p k
  | Add a b => lift2 fb_add (eval_fb p k a) (eval_fb p k b)
  | Sub a b => lift2 fb_sub (eval_fb p k a) (eval_fb p k b)
  | Mul a b => lift2 fb_mul (eval_fb p k a) (eval_fb p k b)
  | Div a b => lift2 fb_div (eval_fb p k a) (eval_fb p k b)
  end.
Lemma barrett_ok p k v w : 0 < p -> 0 <= k -> p <= 2 ^ k -> 0 <= v <= p * p -> 0 <= fb_reduce (FB w p (2 * k) (2 ^ (2 * k) / p)) v < p /\ (fb_reduce (FB w p (2 * k) (2 ^ (2 * k) / p)) v == v [mod p]).
Proof.
  intros Hp Hk HP Hv. unfold fb_reduce. cbn [fb_mu fb_two_k fb_prime]. cbv zeta. rewrite Z.shiftr_div_pow2 by lia. set (N := 2 ^ (2 * k)). assert (HN : p * p <= N) by (unfold N; replace (2 * k) with (k + k) by lia; rewrite Z.pow_add_r by lia; nia). assert (N0 : 0 < N) by (unfold N; apply Z.pow_pos_nonneg; lia).
  pose proof (Z.div_mod N p ltac:(lia)) as D1. pose proof (Z.mod_pos_bound N p ltac:(lia)) as B1. set (mu := N / p) in *. pose proof (Z.div_mod (v * mu) N ltac:(lia)) as D2. pose proof (Z.mod_pos_bound (v * mu) N ltac:(lia)) as B2. set (q := v * mu / N) in *. set (t := (v * mu) mod N) in *. set (s := N mod p) in *.
  assert (M0 : 0 <= mu) by (unfold mu; apply Z.div_pos; lia). assert (LO : 0 <= v - q * p) by nia. assert (HI : v - q * p < 2 * p).
  { assert (v * N < (q + 2) * p * N); [| nia]. assert (v * N = p * (v * mu) + v * s) by nia. assert (v * s <= v * (p - 1)) by nia. assert (v * p <= N * p) by nia. assert (p * (v * mu) = p * N * q + p * t) by nia. assert (p * t <= p * (N - 1)) by nia. nia. }
  destruct (Z.leb_spec p (v - q * p)); (split; [lia |]); [exists (- q - 1); ring | exists (- q); ring].
Qed.
Definition fb_ok (p k v : Z) (x : fb) : Prop := fb_prime x = p /\ fb_two_k x = 2 * k /\ fb_mu x = 2 ^ (2 * k) / p /\ 0 <= fb_value x <= p /\ (fb_value x == v [mod p]).
Lemma fb_reduce_ok p k a x v : 0 < p -> 0 <= k -> p <= 2 ^ k -> fb_ok p k a x -> 0 <= v <= p * p -> fb_ok p k v (fb_with x (fb_reduce x v)) /\ fb_reduce x v < p.
Proof.
  intros Hp Hk HP (E1 & E2 & E3 & _) Hv. destruct x as [w p' tk mu]. cbn [fb_prime fb_two_k fb_mu] in E1, E2, E3. subst. destruct (barrett_ok p k v w Hp Hk HP Hv) as [B R]. split; [| apply B]. split; [reflexivity |]. split; [reflexivity |]. split; [reflexivity |]. cbn [fb_value fb_with]. split; [lia | exact R].
Qed.

(** every expression evaluates to the right residue, in a representative between 0 and p inclusive *)
Theorem C49_barrett_partial : forall p k e v, prime p -> p <= 2 ^ k -> value_of p e v -> exists x, eval_fb p (Some k) e = Some x /\ 0 <= fb_value x <= p /\ fb_value x mod p = v.
Proof.
  intros p k e v Hp HP H. pose proof (prime_ge_2 p Hp) as P2. assert (Hk : 0 <= k) by (destruct (Z_lt_le_dec k 0); [rewrite Z.pow_neg_r in HP by lia; lia | lia]).
  assert (G : exists x, eval_fb p (Some k) e = Some x /\ fb_ok p k v x).
  2:{ destruct G as (x & E & _ & _ & _ & B & R). exists x. split; [exact E |]. split; [exact B |]. pose proof (value_range p e v ltac:(lia) H). rewrite <- (Z.mod_small v p) by lia. apply eqm_mod_iff; [lia | exact R]. }
  assert (BR : forall x y, 0 <= x <= p -> 0 <= y <= p -> 0 <= x * y <= p * p) by (intros; nia).
  induction H as [v B | a b x y Ha IHa Hb IHb | a b x y Ha IHa Hb IHb | a b x y Ha IHa Hb IHb | a b x y d Ha IHa Hb IHb N B E]; cbn [eval_fb].
  - unfold fb_new. destruct (Z.ltb_spec v 0); [lia |]. destruct (Z.leb_spec p v); [lia |]. cbn [orb]. cbv zeta. destruct (Z.ltb_spec (2 * k) 0); [lia |]. eexists. split; [reflexivity |]. split; [reflexivity |]. split; [reflexivity |]. split; [reflexivity |]. cbn [fb_value]. split; [lia | apply eqm_refl].
  - destruct IHa as (x' & Ex & Ox), IHb as (y' & Ey & Oy). rewrite Ex, Ey. cbn [lift2]. unfold fb_add. pose proof Ox as (E1 & E2 & E3 & Bx & Rx). destruct Oy as (F1 & F2 & F3 & By & Ry). rewrite E1, F1, Z.eqb_refl. cbn [negb]. eexists. split; [reflexivity |]. unfold fb_ok, fb_with. cbn [fb_prime fb_two_k fb_mu fb_value]. split; [exact E1 |]. split; [exact E2 |]. split; [exact E3 |].
    assert (R : fb_value x' + fb_value y' == (x + y) mod p [mod p]) by (rewrite (eqm_mod p (x + y)), Rx, Ry; reflexivity). destruct (Z.ltb_spec p (fb_value x' + fb_value y')); (split; [lia |]); [| exact R]. rewrite <- R. exists (-1). ring.
  - destruct IHa as (x' & Ex & Ox), IHb as (y' & Ey & Oy). rewrite Ex, Ey. cbn [lift2]. unfold fb_sub. pose proof Ox as (E1 & E2 & E3 & Bx & Rx). destruct Oy as (F1 & F2 & F3 & By & Ry). rewrite E1, F1, Z.eqb_refl. cbn [negb]. eexists. split; [reflexivity |]. unfold fb_ok, fb_with. cbn [fb_prime fb_two_k fb_mu fb_value]. split; [exact E1 |]. split; [exact E2 |]. split; [exact E3 |].
    assert (R : fb_value x' - fb_value y' == (x - y) mod p [mod p]) by (rewrite (eqm_mod p (x - y)), Rx, Ry; reflexivity). destruct (Z.ltb_spec (fb_value x') (fb_value y')); (split; [lia |]); [| exact R]. rewrite <- R. exists 1. ring.
  - destruct IHa as (x' & Ex & Ox), IHb as (y' & Ey & Oy). rewrite Ex, Ey. cbn [lift2]. unfold fb_mul. pose proof Ox as (E1 & E2 & E3 & Bx & Rx). destruct Oy as (F1 & F2 & F3 & By & Ry). rewrite E1, F1, Z.eqb_refl. cbn [negb]. eexists. split; [reflexivity |].
    destruct (fb_reduce_ok p k x x' (fb_value x' * fb_value y') ltac:(lia) Hk HP Ox (BR _ _ Bx By)) as [(G1 & G2 & G3 & G4 & G5) _]. split; [exact G1 |]. split; [exact G2 |]. split; [exact G3 |]. split; [exact G4 |]. rewrite G5. rewrite (eqm_mod p (x * y)), Rx, Ry. reflexivity.
  - destruct IHa as (x' & Ex & Ox), IHb as (y' & Ey & Oy). rewrite Ex, Ey. cbn [lift2]. unfold fb_div. pose proof Ox as (E1 & E2 & E3 & Bx & Rx). destruct Oy as (F1 & F2 & F3 & By & Ry). rewrite E1, F1, Z.eqb_refl. cbn [negb]. rewrite powmod_ok by lia. eexists. split; [reflexivity |].
    pose proof (Z.mod_pos_bound (fb_value y' ^ (p - 2)) p ltac:(lia)) as BI. destruct (fb_reduce_ok p k x x' (fb_value x' * (fb_value y' ^ (p - 2) mod p)) ltac:(lia) Hk HP Ox (BR _ (fb_value y' ^ (p - 2) mod p) Bx ltac:(lia))) as [(G1 & G2 & G3 & G4 & G5) _]. split; [exact G1 |]. split; [exact G2 |]. split; [exact G3 |]. split; [exact G4 |]. rewrite G5. rewrite (eqm_mod p (fb_value y' ^ _)).
    pose proof (value_range p b y ltac:(lia) Hb) as Byy. apply quotient_eqm; [exact Hp | rewrite Ry; apply nz_residue; assumption |]. rewrite Ry, Rx. rewrite <- E. symmetry. apply eqm_mod.
Qed.
Print Assumptions C49_barrett_partial.
(** products and quotients are canonical *)
Theorem C49_barrett_product : forall p k a b v, prime p -> p <= 2 ^ k -> value_of p (Mul a b) v \/ value_of p (Div a b) v -> exists x, (eval_fb p (Some k) (Mul a b) = Some x \/ eval_fb p (Some k) (Div a b) = Some x) /\ fb_value x = v.
Proof.
  intros p k a b v Hp HP H. pose proof (prime_ge_2 p Hp) as P2. assert (Hk : 0 <= k) by (destruct (Z_lt_le_dec k 0); [rewrite Z.pow_neg_r in HP by lia; lia | lia]).
  assert (CAN : forall e x w, eval_fb p (Some k) e = Some x -> value_of p e w -> fb_prime x = p -> fb_value x < p -> fb_value x = w). { intros e x w E V _ L. destruct (C49_barrett_partial p k e w Hp HP V) as (x' & E' & B' & M'). rewrite E in E'. injection E' as <-. rewrite <- M'. symmetry. apply Z.mod_small. lia. }
  assert (ATT : forall e x, eval_fb p (Some k) e = Some x -> fb_prime x = p /\ fb_two_k x = 2 * k /\ fb_mu x = 2 ^ (2 * k) / p).
  { induction e as [w | e1 IH1 e2 IH2 | e1 IH1 e2 IH2 | e1 IH1 e2 IH2 | e1 IH1 e2 IH2]; intros x; cbn [eval_fb].
    - unfold fb_new. destruct (_ || _); [discriminate |]. cbv zeta. destruct (_ <? 0); [discriminate |]. injection 1 as <-. split; [reflexivity |]. split; reflexivity.
    - destruct (eval_fb p (Some k) e1) as [x1|], (eval_fb p (Some k) e2) as [x2|]; cbn [lift2]; try discriminate. unfold fb_add. destruct (negb _); [discriminate |]. injection 1 as <-. exact (IH1 x1 eq_refl).
    - destruct (eval_fb p (Some k) e1) as [x1|], (eval_fb p (Some k) e2) as [x2|]; cbn [lift2]; try discriminate. unfold fb_sub. destruct (negb _); [discriminate |]. injection 1 as <-. exact (IH1 x1 eq_refl).
    - destruct (eval_fb p (Some k) e1) as [x1|], (eval_fb p (Some k) e2) as [x2|]; cbn [lift2]; try discriminate. unfold fb_mul. destruct (negb _); [discriminate |]. injection 1 as <-. exact (IH1 x1 eq_refl).
    - destruct (eval_fb p (Some k) e1) as [x1|], (eval_fb p (Some k) e2) as [x2|]; cbn [lift2]; try discriminate. unfold fb_div. destruct (negb _); [discriminate |]. destruct (powmod _ _ _); [| discriminate]. injection 1 as <-. exact (IH1 x1 eq_refl). }
  destruct H as [H | H]; pose proof (C49_barrett_partial p k _ v Hp HP H) as (x & Ex & _ & _); exists x; (split; [tauto |]); apply (CAN _ _ _ Ex H (proj1 (ATT _ _ Ex))).
  - inversion H as [| | | ? ? u w Ha Hb |]; subst. destruct (C49_barrett_partial p k a u Hp HP Ha) as (x1 & E1 & B1 & _). destruct (C49_barrett_partial p k b w Hp HP Hb) as (x2 & E2 & B2 & _). cbn [eval_fb] in Ex. rewrite E1, E2 in Ex. cbn [lift2] in Ex. unfold fb_mul in Ex. destruct (negb _); [discriminate |]. injection Ex as <-. cbn [fb_with fb_value].
    destruct (ATT a x1 E1) as (A1 & A2 & A3). apply (fb_reduce_ok p k (fb_value x1) x1); try assumption; try lia; [split; [exact A1 |]; split; [exact A2 |]; split; [exact A3 |]; split; [exact B1 | apply eqm_refl] | nia].
  - inversion H as [| | | | ? ? u w d Ha Hb N B E]; subst. destruct (C49_barrett_partial p k a _ Hp HP Ha) as (x1 & E1 & B1 & _). destruct (C49_barrett_partial p k b _ Hp HP Hb) as (x2 & E2 & B2 & _). cbn [eval_fb] in Ex. rewrite E1, E2 in Ex. cbn [lift2] in Ex. unfold fb_div in Ex. destruct (negb _); [discriminate |]. destruct (ATT a x1 E1) as (A1 & A2 & A3). rewrite A1 in Ex. rewrite powmod_ok in Ex by lia. injection Ex as <-. cbn [fb_with fb_value].
    pose proof (Z.mod_pos_bound (fb_value x2 ^ (p - 2)) p ltac:(lia)) as BI. apply (fb_reduce_ok p k (fb_value x1) x1); try assumption; try lia; [split; [exact A1 |]; split; [exact A2 |]; split; [exact A3 |]; split; [exact B1 | apply eqm_refl] | nia].
Qed.
Print Assumptions C49_barrett_product.
(** FINDING: a + (p - a) is represented by p, which is not equal to the element 0 *)
Theorem C49_barrett_add_refuted : forall p k a, 0 < a < p -> 0 <= k -> exists x z, eval_fb p (Some k) (Add (Leaf a) (Leaf (p - a))) = Some x /\ eval_fb p (Some k) (Leaf 0) = Some z /\ fb_value x = p /\ fb_eq x z = false.
Proof.
  intros p k a Ha Hk. cbn [eval_fb]. unfold fb_new. destruct (Z.ltb_spec a 0); [lia |]. destruct (Z.leb_spec p a); [lia |]. destruct (Z.ltb_spec (p - a) 0); [lia |]. destruct (Z.leb_spec p (p - a)); [lia |]. destruct (Z.ltb_spec 0 0); [lia |]. destruct (Z.leb_spec p 0); [lia |]. cbn [orb]. cbv zeta. destruct (Z.ltb_spec (2 * k) 0); [lia |]. cbn [lift2]. unfold fb_add. cbn [fb_prime fb_value]. rewrite Z.eqb_refl. cbn [negb]. replace (a + (p - a)) with p by ring. rewrite Z.ltb_irrefl.
  eexists. eexists. split; [reflexivity |]. split; [reflexivity |]. split; [reflexivity |]. unfold fb_eq. cbn [fb_with fb_value]. destruct (Z.eqb_spec p 0); [lia | reflexivity].
Qed.
Print Assumptions C49_barrett_add_refuted.

(** ** FiniteFieldElementMontgomery *)
Fixpoint eval_fm (p : Z) (k : option Z) (e : expr) : option fm :=
  match e with
  | Leaf v => fm_new v p k
  | Add a b => lift2 fm_add (eval_fm p k a) (eval_fm p k b)
  | Sub a b => lift2 fm_sub (eval_fm p k a) (eval_fm p k b)
  | Mul a b => lift2 fm_mul (eval_fm p k a) (eval_fm p k b)
  | Div a b => lift2 fm_div (eval_fm p k a) (eval_fm p k b)
  end.
Lemma land_mask v k : 0 <= k -> Z.land v (2 ^ k - 1) = v mod 2 ^ k.
Proof. intros H. rewrite <- Z.land_ones by exact H. rewrite Z.ones_equiv. reflexivity. Qed.
Lemma two_unit p k : prime p -> p <> 2 -> 0 <= k -> ~ (2 ^ k == 0 [mod p]).
Proof.
  intros Hp N Hk H. unfold eqm in H. rewrite Z.sub_0_r in H. apply (prime_power_prime p 2 k) in H; [congruence | exact Hk | exact Hp | exact prime_2].
Qed.
Definition n_prime (p k : Z) : Z := (2 ^ k * ((2 ^ k) ^ (p - 2) mod p) - 1) / p.
Definition fm_att (p k : Z) (x : fm) : Prop := fm_prime x = p /\ fm_k x = k /\ fm_form x = true /\ fm_n_prime x = n_prime p k.
Lemma n_prime_ok p k : prime p -> p <> 2 -> 0 <= k -> n_prime p k * p == -1 [mod 2 ^ k].
Proof.
  intros Hp N Hk. pose proof (prime_ge_2 p Hp) as P2. pose proof (fermat_inverse p (2 ^ k) Hp (two_unit p k Hp N Hk)) as F. assert (D : (p | 2 ^ k * ((2 ^ k) ^ (p - 2) mod p) - 1)). { assert (E : 2 ^ k * ((2 ^ k) ^ (p - 2) mod p) == 1 [mod p]) by (rewrite (eqm_mod p ((2 ^ k) ^ (p - 2))); exact F). exact E. }
  unfold n_prime. destruct D as [c Hc]. rewrite Hc, Z.div_mul by lia. exists ((2 ^ k) ^ (p - 2) mod p). lia.
Qed.
Lemma montgomery_ok p k x v : prime p -> p <> 2 -> 0 <= k -> p <= 2 ^ k -> fm_att p k x -> 0 <= v <= p * p -> 0 <= fm_reduce x v < p /\ (fm_reduce x v * 2 ^ k == v [mod p]).
Proof.
  intros Hp N2 Hk HP (E1 & E2 & _ & E4) Hv. pose proof (prime_ge_2 p Hp) as P2. unfold fm_reduce, fm_r. rewrite E1, E2, E4. cbv zeta. rewrite !land_mask by exact Hk. rewrite Z.shiftr_div_pow2 by exact Hk. set (r := 2 ^ k) in *. assert (R0 : 0 < r) by (unfold r; apply Z.pow_pos_nonneg; lia).
  set (m := (v mod r * n_prime p k) mod r). pose proof (Z.mod_pos_bound (v mod r * n_prime p k) r R0) as Bm. fold m in Bm.
  assert (D : v + m * p == 0 [mod r]). { unfold m. rewrite (eqm_mod r (v mod r * n_prime p k)), (eqm_mod r v). rewrite <- Z.mul_assoc. rewrite (n_prime_ok p k Hp N2 Hk). apply eqm_eq. ring. }
  destruct D as [u Hu]. replace (v + m * p) with (u * r) by lia. rewrite Z.div_mul by lia. assert (U0 : 0 <= u) by nia. assert (U1 : u < 2 * p) by nia.
  assert (C : u * r == v [mod p]) by (exists m; lia). destruct (Z.leb_spec p u); (split; [lia |]); [| exact C]. rewrite <- C. exists (- r). ring.
Qed.
Definition fm_ok (p k v : Z) (x : fm) : Prop := fm_att p k x /\ 0 <= fm_value x <= p /\ (fm_value x == v * 2 ^ k [mod p]).

(** every expression evaluates to the Montgomery form of the right residue, and leaving Montgomery form gives the canonical residue *)
Theorem C49_montgomery_partial : forall p k e v, prime p -> p <> 2 -> 0 < k -> p <= 2 ^ k -> value_of p e v ->
  exists x, eval_fm p (Some k) e = Some x /\ 0 <= fm_value x <= p /\ fm_value x mod p = (v * 2 ^ k) mod p /\ fm_value (change_montgomery_form x) = v.
Proof.
  intros p k e v Hp N2 Hk HP H. pose proof (prime_ge_2 p Hp) as P2.
  assert (TU : ~ (2 ^ k == 0 [mod p])) by (apply two_unit; try assumption; lia).
  assert (G : exists x, eval_fm p (Some k) e = Some x /\ fm_ok p k v x).
  2:{ destruct G as (x & E & A & B & R). exists x. split; [exact E |]. split; [exact B |]. split; [apply eqm_mod_iff; [lia | exact R] |]. pose proof (value_range p e v ltac:(lia) H) as BV. unfold change_montgomery_form. pose proof A as (_ & _ & -> & _). cbn [fm_value]. unfold de_montgomeryize. destruct (montgomery_ok p k x (fm_value x) Hp N2 ltac:(lia) HP A ltac:(nia)) as [B' R'].
      apply (eqm_small p); [exact B' | exact BV |]. apply (prime_cancel p (2 ^ k) _ _ Hp TU). rewrite (Z.mul_comm (2 ^ k)), R', R. apply eqm_eq. ring. }
  assert (BR : forall x y, 0 <= x <= p -> 0 <= y <= p -> 0 <= x * y <= p * p) by (intros; nia).
  assert (CAN : forall y z, y * 2 ^ k == z * 2 ^ k [mod p] -> y == z [mod p]) by (intros y z E; apply (prime_cancel p (2 ^ k) _ _ Hp TU); rewrite !(Z.mul_comm (2 ^ k)); exact E).
  induction H as [v B | a b x y Ha IHa Hb IHb | a b x y Ha IHa Hb IHb | a b x y Ha IHa Hb IHb | a b x y d Ha IHa Hb IHb N B E]; cbn [eval_fm].
  - unfold fm_new. destruct (Z.ltb_spec v 0); [lia |]. destruct (Z.leb_spec p v); [lia |]. cbn [orb]. cbv zeta. replace (match k with 0 => Z.log2_up p | _ => k end) with k by (destruct k; [lia | reflexivity | lia]). destruct (Z.ltb_spec k 0); [lia |]. rewrite powmod_ok by lia. eexists. split; [reflexivity |]. split; [split; [reflexivity |]; split; [reflexivity |]; split; reflexivity |]. cbn [fm_value]. unfold montgomeryize. pose proof (Z.mod_pos_bound (v * 2 ^ k) p ltac:(lia)). split; [lia | apply eqm_mod].
  - destruct IHa as (x' & Ex & Ax & Bx & Rx), IHb as (y' & Ey & Ay & By & Ry). rewrite Ex, Ey. cbn [lift2]. unfold fm_add. pose proof Ax as (E1 & _). pose proof Ay as (F1 & _ & F3 & _). rewrite E1, F1, F3, Z.eqb_refl. cbn [negb orb]. eexists. split; [reflexivity |]. split; [exact Ax |]. cbn [fm_with fm_value].
    assert (R : fm_value x' + fm_value y' == (x + y) mod p * 2 ^ k [mod p]) by (rewrite (eqm_mod p (x + y)), Rx, Ry; apply eqm_eq; ring). destruct (Z.ltb_spec p (fm_value x' + fm_value y')); (split; [lia |]); [| exact R]. rewrite <- R. exists (-1). ring.
  - destruct IHa as (x' & Ex & Ax & Bx & Rx), IHb as (y' & Ey & Ay & By & Ry). rewrite Ex, Ey. cbn [lift2]. unfold fm_sub. pose proof Ax as (E1 & _). pose proof Ay as (F1 & _ & F3 & _). rewrite E1, F1, F3, Z.eqb_refl. cbn [negb orb]. eexists. split; [reflexivity |]. split; [exact Ax |]. cbn [fm_with fm_value].
    assert (R : fm_value x' - fm_value y' == (x - y) mod p * 2 ^ k [mod p]) by (rewrite (eqm_mod p (x - y)), Rx, Ry; apply eqm_eq; ring). destruct (Z.ltb_spec (fm_value x') (fm_value y')); (split; [lia |]); [| exact R]. rewrite <- R. exists 1. ring.
  - destruct IHa as (x' & Ex & Ax & Bx & Rx), IHb as (y' & Ey & Ay & By & Ry). rewrite Ex, Ey. cbn [lift2]. unfold fm_mul. pose proof Ax as (E1 & _). pose proof Ay as (F1 & _ & F3 & _). rewrite E1, F1, F3, Z.eqb_refl. cbn [negb orb]. eexists. split; [reflexivity |]. split; [exact Ax |]. cbn [fm_with fm_value].
    destruct (montgomery_ok p k x' (fm_value x' * fm_value y') Hp N2 ltac:(lia) HP Ax (BR _ _ Bx By)) as [B' R']. split; [lia |]. apply CAN. rewrite R', Rx, Ry, (eqm_mod p (x * y)). apply eqm_eq. ring.
  - destruct IHa as (x' & Ex & Ax & Bx & Rx), IHb as (y' & Ey & Ay & By & Ry). rewrite Ex, Ey. cbn [lift2]. unfold fm_div. pose proof Ax as (E1 & E2 & _). pose proof Ay as (F1 & _ & F3 & _). rewrite E1, F1, F3, Z.eqb_refl. cbn [negb]. rewrite powmod_ok by lia. eexists. split; [reflexivity |]. split; [exact Ax |]. cbn [fm_with fm_value]. unfold montgomeryize, fm_r, de_montgomeryize. rewrite E2.
    destruct (montgomery_ok p k x' (fm_value y') Hp N2 ltac:(lia) HP Ax ltac:(nia)) as [By' Ry']. set (w := fm_reduce x' (fm_value y')) in *. assert (Rw : w == y [mod p]) by (apply CAN; rewrite Ry', Ry; reflexivity).
    set (ib := (w ^ (p - 2) mod p * 2 ^ k) mod p). pose proof (Z.mod_pos_bound (w ^ (p - 2) mod p * 2 ^ k) p ltac:(lia)) as BI. fold ib in BI. destruct (montgomery_ok p k x' (fm_value x' * ib) Hp N2 ltac:(lia) HP Ax (BR (fm_value x') ib Bx ltac:(lia))) as [B' R']. split; [lia |]. apply CAN. rewrite R', Rx. unfold ib. rewrite (eqm_mod p (_ * 2 ^ k)), (eqm_mod p (w ^ _)).
    pose proof (value_range p b y ltac:(lia) Hb) as Byy. assert (Q : x * w ^ (p - 2) == d [mod p]). { apply quotient_eqm; [exact Hp | rewrite Rw; apply nz_residue; assumption |]. rewrite Rw. rewrite <- E. symmetry. apply eqm_mod. }
    rewrite <- Q. apply eqm_eq. ring.
Qed.
Print Assumptions C49_montgomery_partial.
(** FINDING: a + (p - a) is again p *)
Theorem C49_montgomery_add_refuted : exists x z, eval_fm 7 (Some 3) (Add (Leaf 2) (Leaf 5)) = Some x /\ eval_fm 7 (Some 3) (Leaf 0) = Some z /\ fm_value x = 7 /\ fm_eq x z = false.
Proof. eexists. eexists. split; [vm_compute; reflexivity |]. split; [vm_compute; reflexivity |]. split; reflexivity. Qed.
Print Assumptions C49_montgomery_add_refuted.
(** FINDING: exponentiation ignores the Montgomery form: 2 ** 2 gives an element that is neither 4 nor its Montgomery form *)
Theorem C49_montgomery_pow_refuted : exists x r, fm_new 2 7 (Some 4) = Some x /\ fm_pow x 2 = Some r /\ fe_value r <> 4 /\ fe_value r <> (4 * 2 ^ 4) mod 7.
Proof. eexists. eexists. split; [vm_compute; reflexivity |]. split; [vm_compute; reflexivity |]. split; vm_compute; discriminate. Qed.
Print Assumptions C49_montgomery_pow_refuted.
(** changing the form twice gives the element back *)
Theorem C49_montgomery_form : forall p k v, prime p -> p <> 2 -> 0 < k -> p <= 2 ^ k -> 0 <= v < p ->
  exists x, fm_new v p (Some k) = Some x /\ change_montgomery_form (change_montgomery_form x) = x /\ fm_value (change_montgomery_form x) = v.
Proof.
  intros p k v Hp N2 Hk HP B. pose proof (prime_ge_2 p Hp) as P2. destruct (C49_montgomery_partial p k (Leaf v) v Hp N2 Hk HP (V_leaf p v B)) as (x & E & _ & _ & C). cbn [eval_fm] in E. exists x. split; [exact E |]. split; [| exact C].
  unfold fm_new in E. destruct (Z.ltb_spec v 0); [lia |]. destruct (Z.leb_spec p v); [lia |]. cbn [orb] in E. cbv zeta in E. replace (match k with 0 => Z.log2_up p | _ => k end) with k in E by (destruct k; [lia | reflexivity | lia]). destruct (Z.ltb_spec k 0); [lia |]. rewrite powmod_ok in E by lia. injection E as <-.
  unfold change_montgomery_form at 2. cbn [fm_form fm_prime fm_k fm_n_prime]. unfold change_montgomery_form at 1. cbn [fm_form fm_prime fm_k fm_n_prime fm_value]. unfold change_montgomery_form in C. cbn [fm_form fm_value] in C. unfold fm_r. cbn [fm_k]. rewrite C. reflexivity.
Qed.
Print Assumptions C49_montgomery_form.

(** the hypotheses are met: (3 + 6 * 5) / 2 - 4 modulo 7 *)
Example C49_example : value_of 7 (Sub (Div (Add (Leaf 3) (Mul (Leaf 6) (Leaf 5))) (Leaf 2)) (Leaf 4)) 2 /\ prime 7 /\
  eval_fe 7 (Sub (Div (Add (Leaf 3) (Mul (Leaf 6) (Leaf 5))) (Leaf 2)) (Leaf 4)) = Some (FE 2 7) /\
  option_map fb_value (eval_fb 7 (Some 3) (Sub (Div (Add (Leaf 3) (Mul (Leaf 6) (Leaf 5))) (Leaf 2)) (Leaf 4))) = Some 2 /\
  option_map (fun x => fm_value (change_montgomery_form x)) (eval_fm 7 (Some 3) (Sub (Div (Add (Leaf 3) (Mul (Leaf 6) (Leaf 5))) (Leaf 2)) (Leaf 4))) = Some 2.
Proof.
  assert (P7 : prime 7). { apply prime_intro; [lia |]. intros n Hn. assert (n = 1 \/ n = 2 \/ n = 3 \/ n = 4 \/ n = 5 \/ n = 6) as [-> | [-> | [-> | [-> | [-> | ->]]]]] by lia; apply Zgcd_1_rel_prime; reflexivity. }
  split; [| split; [exact P7 |]; split; [vm_compute; reflexivity |]; split; vm_compute; reflexivity].
  change 2 with ((6 - 4) mod 7) at 2. apply V_sub; [| apply V_leaf; lia]. apply (V_div 7 _ _ ((3 + (6 * 5) mod 7) mod 7) 2 6); [| apply V_leaf; lia | lia | lia | reflexivity]. apply V_add; [apply V_leaf; lia |]. apply V_mul; apply V_leaf; lia.
Qed.
