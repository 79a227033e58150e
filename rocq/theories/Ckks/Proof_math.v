From Coq Require Import ZArith Znumtheory List Bool Lia Setoid Zpow_facts.
From Verif Require Import Base.ZSum Base.Modeq Base.Lists Base.Powm Base.Egcd Base.Fermat Base.Order Ckks.Model_math.
Import ListNotations.
Local Open Scope Z_scope.

Lemma Zpow_mod_pw x n q : 0 < q -> Zpow_mod x (Z.of_nat n) q = pw x n mod q.
Proof. intros Hq. rewrite Zpow_mod_correct by lia. reflexivity. Qed.

(** *** Prime factors *)
Lemma divide_out_spec p : 2 <= p -> forall f n, 1 <= n -> n < 2 ^ Z.of_nat f ->
  exists k : nat, n = p ^ Z.of_nat k * divide_out f p n /\ 1 <= divide_out f p n /\ ~ (p | divide_out f p n).
Proof.
  intros Hp. induction f as [|f IH]; intros n Hn Hf; [cbn in Hf; lia |]. cbn [divide_out].
  destruct (n mod p =? 0) eqn:E.
  - apply Z.eqb_eq in E. pose proof (Z.div_mod n p ltac:(lia)) as D. rewrite E, Z.add_0_r in D.
    assert (1 <= n / p) by nia. rewrite Nat2Z.inj_succ, Z.pow_succ_r in Hf by lia.
    destruct (IH (n / p) H ltac:(nia)) as (k & K1 & K2 & K3). exists (S k). split; [| auto].
    rewrite Nat2Z.inj_succ, Z.pow_succ_r by lia. rewrite <- Z.mul_assoc, <- K1. exact D.
  - apply Z.eqb_neq in E. exists 0%nat. split; [rewrite Z.pow_0_r; ring |]. split; [exact Hn |].
    intros D. apply E. apply Z.mod_divide; [lia | exact D].
Qed.
Lemma strip_spec p n : 2 <= p -> 1 <= n -> exists k : nat, n = p ^ Z.of_nat k * strip p n /\ 1 <= strip p n /\ ~ (p | strip p n).
Proof.
  intros Hp Hn. apply divide_out_spec; [exact Hp | exact Hn |].
  pose proof (Z.log2_nonneg n). rewrite Z2Nat.id by lia. pose proof (Z.log2_spec n ltac:(lia)). unfold Z.succ in H0. lia.
Qed.

(** the prime divisors of n are p (when it divides) and those of strip p n *)
Lemma strip_divisors p n r : prime p -> 1 <= n -> prime r -> ((r | n) <-> (r = p /\ (p | n)) \/ (r | strip p n)).
Proof.
  intros Pp Hn Pr. destruct (strip_spec p n (prime_ge_2 p Pp) Hn) as (k & E & S1 & ND). split.
  - intros D. rewrite E in D. apply prime_mult in D; [| exact Pr]. destruct D as [D | D]; [| right; exact D].
    left. destruct k as [|k].
    { exfalso. rewrite Z.pow_0_r in D. apply Z.divide_1_r in D. pose proof (prime_ge_2 r Pr). lia. }
    split.
    + apply (prime_power_prime r p (Z.of_nat (S k))); [lia | exact Pr | exact Pp | exact D].
    + rewrite E. rewrite Nat2Z.inj_succ, Z.pow_succ_r by lia. exists (p ^ Z.of_nat k * strip p n). ring.
  - intros [[-> D] | D]; [exact D |]. rewrite E. apply Z.divide_mul_r. exact D.
Qed.

Lemma prime_divisor n : 1 < n -> exists p, prime p /\ (p | n).
Proof.
  intros Hn. destruct (prime_divisor_Z (Z.to_nat n) ltac:(lia)) as (p & Pp & _ & D). rewrite Z2Nat.id in D by lia. exists p. auto.
Qed.
Lemma no_small_divisor_prime n p : 1 < n -> (forall r, prime r -> (r | n) -> p <= r) -> 0 < p -> n < p * p -> prime n.
Proof.
  intros Hn H Hp Hlt. destruct (prime_divisor n Hn) as (s & Ps & [m Hm]). pose proof (prime_ge_2 s Ps).
  destruct (Z.eq_dec m 1) as [-> | N]; [rewrite Z.mul_1_l in Hm; rewrite Hm; exact Ps |]. exfalso.
  assert (1 < m) by nia. destruct (prime_divisor m H1) as (t & Pt & Dt). pose proof (Z.divide_pos_le t m ltac:(lia) Dt).
  assert (p <= s) by (apply H; [exact Ps | exists m; exact Hm]).
  assert (p <= t) by (apply H; [exact Pt |]; destruct Dt as [c Hc]; exists (c * s); rewrite Hm, Hc; ring).
  nia.
Qed.

Lemma trial_spec f : forall p n fs n' fs', 3 <= p -> Z.odd p = true -> 1 <= n -> ~ (2 | n) ->
  (forall r, prime r -> (r | n) -> p <= r) -> n < (p + 2 * Z.of_nat f) * (p + 2 * Z.of_nat f) ->
  trial f p n fs = (n', fs') ->
  1 <= n' /\ (1 < n' -> prime n') /\
  (forall r, (In r fs' \/ (1 < n' /\ r = n')) <-> (In r fs \/ (prime r /\ (r | n)))).
Proof.
  induction f as [|f IH]; intros p n fs n' fs' Hp Ho Hn H2 Hr Hf H; cbn [trial] in H.
  - injection H as <- <-. assert (PN : 1 < n -> prime n) by (intros; apply (no_small_divisor_prime n p); auto; lia).
    split; [exact Hn |]. split; [exact PN |]. intros r. split; [intros [I | [I ->]]; [left; exact I | right; split; [auto | apply Z.divide_refl]] |].
    intros [I | [Pr D]]; [left; exact I |]. right. pose proof (prime_ge_2 r Pr). pose proof (Z.divide_pos_le r n ltac:(lia) D).
    split; [lia |]. apply prime_div_prime; auto. apply PN. lia.
  - destruct (p * p <=? n) eqn:E.
    + apply Z.leb_le in E.
      assert (PP : (p | n) -> prime p).
      { intros D. destruct (prime_divisor p ltac:(lia)) as (s & Ps & Ds).
        assert (p <= s) by (apply Hr; [exact Ps | eapply Z.divide_trans; eassumption]).
        pose proof (Z.divide_pos_le s p ltac:(lia) Ds). replace p with s by lia. exact Ps. }
      destruct (strip_spec p n ltac:(lia) Hn) as (k & Ek & S1 & ND).
      assert (DV : forall r, prime r -> ((r | n) <-> (r = p /\ (p | n)) \/ (r | strip p n))).
      { intros r Pr. destruct (Znumtheory.Zdivide_dec p n) as [D | D].
        - apply strip_divisors; auto.
        - assert (strip p n = n) as ->.
          { destruct k as [|k]; [rewrite Z.pow_0_r, Z.mul_1_l in Ek; symmetry; exact Ek |]. exfalso. apply D. rewrite Ek.
            rewrite Nat2Z.inj_succ, Z.pow_succ_r by lia. exists (p ^ Z.of_nat k * strip p n). ring. }
          tauto. }
      assert (SL : strip p n <= n). { rewrite Ek at 2. assert (1 <= p ^ Z.of_nat k) by (apply (Z.pow_le_mono_r p 0); lia). nia. }
      assert (SD : (strip p n | n)) by (exists (p ^ Z.of_nat k); exact Ek).
      apply IH in H; [| lia | rewrite Z.odd_add, Ho; reflexivity | exact S1 | intros D; apply H2; eapply Z.divide_trans; eassumption | |].
      * destruct H as (A & B & C). split; [exact A |]. split; [exact B |]. intros r. rewrite C.
        assert (IN : In r (if n mod p =? 0 then p :: fs else fs) <-> (r = p /\ (p | n)) \/ In r fs).
        { destruct (n mod p =? 0) eqn:E0.
          - apply Z.eqb_eq in E0. apply Z.mod_divide in E0; [| lia]. cbn. split; [intros [-> | I]; auto | intros [[-> _] | I]; auto].
          - apply Z.eqb_neq in E0. split; [auto |]. intros [[-> D] | I]; [| exact I]. exfalso. apply E0. apply Z.mod_divide; [lia | exact D]. }
        rewrite IN. split.
        -- intros [[[-> D] | I] | [Pr D]]; auto. right. split; [exact Pr |]. apply DV; auto.
        -- intros [I | [Pr D]]; auto. apply DV in D; [| exact Pr]. destruct D as [D | D]; auto.
      * intros r Pr D. assert (p <= r) by (apply Hr; [exact Pr | eapply Z.divide_trans; eassumption]).
        assert (r <> p) by (intros ->; contradiction).
        assert (r <> p + 1); [| lia]. intros ->.
        assert (Even : Z.even (p + 1) = true) by (rewrite Z.even_add, <- Z.negb_odd, Ho; reflexivity).
        apply Z.even_spec in Even. destruct Even as [c Hc].
        assert (D2 : (2 | p + 1)) by (exists c; lia).
        apply H2. eapply Z.divide_trans; [exact D2 |]. eapply Z.divide_trans; [exact D | exact SD].
      * rewrite Nat2Z.inj_succ in Hf. nia.
    + apply Z.leb_gt in E. injection H as <- <-.
      assert (PN : 1 < n -> prime n) by (intros; apply (no_small_divisor_prime n p); auto; lia).
      split; [exact Hn |]. split; [exact PN |]. intros r. split; [intros [I | [I ->]]; [left; exact I | right; split; [auto | apply Z.divide_refl]] |].
      intros [I | [Pr D]]; [left; exact I |]. right. pose proof (prime_ge_2 r Pr). pose proof (Z.divide_pos_le r n ltac:(lia) D).
      split; [lia |]. apply prime_div_prime; auto. apply PN. lia.
Qed.

Lemma prime_factors_spec n : 1 <= n -> forall r, In r (prime_factors n) <-> prime r /\ (r | n).
Proof.
  intros Hn r. unfold prime_factors.
  destruct (strip_spec 2 n ltac:(lia) Hn) as (k & Ek & S1 & ND).
  destruct (trial (Z.to_nat (Z.sqrt (strip 2 n))) 3 (strip 2 n) (if n mod 2 =? 0 then [2] else [])) as [n' fs'] eqn:T.
  apply trial_spec in T; [| lia | reflexivity | exact S1 | exact ND | |].
  - destruct T as (A & B & C).
    assert (R : In r (if 1 <? n' then n' :: fs' else fs') <-> In r fs' \/ (1 < n' /\ r = n')).
    { destruct (1 <? n') eqn:E; [apply Z.ltb_lt in E; cbn; split; [intros [-> | I]; auto | intros [I | [_ ->]]; auto] |].
      apply Z.ltb_ge in E. split; [auto |]. intros [I | [I _]]; [exact I | lia]. }
    rewrite R, C. clear R.
    assert (IN : In r (if n mod 2 =? 0 then [2] else []) <-> r = 2 /\ (2 | n)).
    { destruct (n mod 2 =? 0) eqn:E0.
      - apply Z.eqb_eq in E0. apply Z.mod_divide in E0; [| lia]. cbn. split; [intros [<- | []]; auto | intros [-> _]; auto].
      - apply Z.eqb_neq in E0. split; [intros [] |]. intros [_ D]. apply E0. apply Z.mod_divide; [lia | exact D]. }
    rewrite IN. split.
    + intros [[-> D] | [Pr D]]; [split; [exact prime_2 | exact D] |]. split; [exact Pr |]. rewrite Ek. apply Z.divide_mul_r. exact D.
    + intros [Pr D]. apply (strip_divisors 2 n r prime_2 Hn Pr) in D. destruct D as [[-> D] | D]; auto.
  - intros q Pq D. pose proof (prime_ge_2 q Pq). assert (q <> 2) by (intros ->; contradiction). lia.
  - pose proof (Z.sqrt_nonneg (strip 2 n)). rewrite Z2Nat.id by lia. pose proof (Z.sqrt_spec (strip 2 n) ltac:(lia)) as SQ. unfold Z.succ in SQ. cbv zeta in SQ.
    set (sq := Z.sqrt (strip 2 n)) in *. clearbody sq. nia.
Qed.

(** *** Generators *)
Definition gen_test (q phi g : Z) : bool := forallb (fun p => negb (Zpow_mod g (phi / p) q =? 1)) (prime_factors phi).

Lemma first_generator_spec q phi fs fuel : forall g0,
  match first_generator fuel g0 q phi fs with
  | Some g => g0 <= g < g0 + Z.of_nat fuel /\ forallb (fun p => negb (Zpow_mod g (phi / p) q =? 1)) fs = true
  | None => forall g, g0 <= g < g0 + Z.of_nat fuel -> forallb (fun p => negb (Zpow_mod g (phi / p) q =? 1)) fs = false
  end.
Proof.
  induction fuel as [|f IH]; intros g0; cbn [first_generator]; [intros g Hg; lia |].
  destruct (forallb _ fs) eqn:E; [split; [lia | exact E] |].
  specialize (IH (g0 + 1)). destruct (first_generator f (g0 + 1) q phi fs) as [g |].
  - destruct IH as [A B]. split; [lia | exact B].
  - intros g Hg. destruct (Z.eq_dec g g0) as [-> | N]; [exact E | apply IH; lia].
Qed.

Lemma gen_test_ord q g : prime q -> 2 <= g < q -> (gen_test q (q - 1) g = true <-> ord q g (Z.to_nat (q - 1))).
Proof.
  intros Hq Hg. assert (Q : 1 < q) by (destruct Hq; lia).
  unfold gen_test. rewrite forallb_forall. split.
  - intros H. apply ord_check; [lia | apply fermat; [exact Hq | apply small_nz; lia] |].
    intros p Pp Dp E. assert (D : (Z.of_nat p | q - 1)). { apply divide_nat_Z in Dp. rewrite Z2Nat.id in Dp by lia. exact Dp. }
    pose proof (nprime_ge2 p Pp).
    assert (I : In (Z.of_nat p) (prime_factors (q - 1))) by (apply prime_factors_spec; [lia | split; [exact Pp | exact D]]).
    specialize (H _ I). apply negb_true_iff, Z.eqb_neq in H. apply H.
    replace ((q - 1) / Z.of_nat p) with (Z.of_nat (Z.to_nat (q - 1) / p)) by (rewrite Nat2Z.inj_div, Z2Nat.id by lia; reflexivity).
    rewrite Zpow_mod_pw by lia. apply eqm_small_mod; [lia | exact E | lia].
  - intros [O1 O2] p I. apply prime_factors_spec in I; [| lia]. destruct I as [Pp [c Hc]]. pose proof (prime_ge_2 p Pp).
    apply negb_true_iff, Z.eqb_neq. intros E.
    replace ((q - 1) / p) with (Z.of_nat (Z.to_nat c)) in E by (rewrite Hc, Z.div_mul by lia; rewrite Z2Nat.id by nia; reflexivity).
    rewrite Zpow_mod_pw in E by lia. assert (E1 : pw g (Z.to_nat c) == 1 [mod q]) by (rewrite <- (eqm_mod q (pw _ _)), E; reflexivity).
    apply O2 in E1. apply divide_nat_Z in E1. rewrite !Z2Nat.id in E1 by nia. apply Z.divide_pos_le in E1; nia.
Qed.

Lemma find_generator_spec q : prime q -> 2 < q -> exists g, find_generator q = Some g /\ 2 <= g < q /\ ord q g (Z.to_nat (q - 1)).
Proof.
  intros Hq Q. unfold find_generator. destruct (Z.eqb_spec q 2) as [E | _]; [lia |].
  pose proof (first_generator_spec q (q - 1) (prime_factors (q - 1)) (Z.to_nat (q - 2)) 2) as F.
  destruct (first_generator _ 2 q (q - 1) _) as [g |].
  - destruct F as [B T]. exists g. split; [reflexivity |]. split; [lia |]. apply gen_test_ord; [exact Hq | lia | exact T].
  - exfalso. destruct (ord_exists q Hq (Z.to_nat (q - 1)) (Nat.divide_refl _)) as [y Oy].
    assert (Oy' : ord q (y mod q) (Z.to_nat (q - 1))) by (apply (ord_eqm q y); [symmetry; apply eqm_mod | exact Oy]).
    pose proof (Z.mod_pos_bound y q ltac:(lia)) as B.
    assert (y mod q <> 0). { intros E. apply (ord_nz q (y mod q) (Z.to_nat (q - 1))); [lia | lia | exact Oy' |]. rewrite E. reflexivity. }
    assert (y mod q <> 1). { intros E. rewrite E in Oy'. destruct Oy' as [_ O2]. assert (D : pw 1 1 == 1 [mod q]) by reflexivity. apply O2 in D.
      apply Nat.divide_1_r in D. lia. }
    specialize (F (y mod q) ltac:(lia)). assert (T : gen_test q (q - 1) (y mod q) = true) by (apply gen_test_ord; [exact Hq | lia | exact Oy']).
    unfold gen_test in T. congruence.
Qed.

(** *** Roots of unity *)
Lemma power_chain_spec c : forall curr r2 q, power_chain c curr r2 q = map (fun i => Nat.iter i (fun x => (x * r2) mod q) curr) (seq 0 c).
Proof.
  induction c as [|c IH]; intros curr r2 q; [reflexivity |]. cbn [power_chain seq map]. f_equal. rewrite IH, <- seq_shift, map_map.
  apply map_ext. intros i. clear. induction i as [|i IH]; [reflexivity |]. cbn [Nat.iter nat_rect] in *. unfold Nat.iter in *. cbn. rewrite <- IH. reflexivity.
Qed.

Lemma min_list_spec l : l <> [] -> exists x, min_list l = Some x /\ In x l /\ forall y, In y l -> x <= y.
Proof.
  destruct l as [|a l]; [congruence |]. intros _. cbn [min_list]. exists (fold_left Z.min l a). split; [reflexivity |].
  revert a. induction l as [|b l IH]; intros a; cbn [fold_left].
  - split; [left; reflexivity |]. intros y [<- | []]. lia.
  - destruct (IH (Z.min a b)) as [I M]. split.
    + destruct I as [E | I]; [| right; right; exact I]. destruct (Z.min_spec a b) as [[_ E'] | [_ E']]; rewrite E' in *; cbn; auto.
    + intros y Hy. specialize (M (Z.min a b) (or_introl eq_refl)).
      destruct Hy as [<- | [<- | Hy]]; [lia | lia |]. destruct (IH (Z.min a b)) as [_ M']. apply M'. right. exact Hy.
Qed.

Lemma land_pred_even m : 2 <= m -> Z.land m (m - 1) = 0 -> exists k, 1 <= k /\ m = 2 ^ k.
Proof.
  intros Hm H. exists (Z.log2 m). pose proof (Z.log2_spec m ltac:(lia)) as [A B].
  assert (K : 1 <= Z.log2 m). { assert (1 = Z.log2 2) as -> by reflexivity. apply Z.log2_le_mono. exact Hm. }
  split; [exact K |]. destruct (Z.eq_dec m (2 ^ Z.log2 m)) as [E | N]; [exact E |]. exfalso.
  assert (T : Z.testbit (Z.land m (m - 1)) (Z.log2 m) = true).
  { rewrite Z.land_spec. apply andb_true_intro. split; [apply Z.bit_log2; lia |].
    replace (Z.log2 m) with (Z.log2 (m - 1)); [apply Z.bit_log2; lia |]. apply Z.log2_unique; lia. }
  rewrite H, Z.bits_0 in T. discriminate.
Qed.

Lemma gcd_nat_Z a b : Z.gcd (Z.of_nat a) (Z.of_nat b) = Z.of_nat (Nat.gcd a b).
Proof.
  apply Z.gcd_unique; [lia | | |].
  - apply divide_nat_Z. apply Nat.gcd_divide_l.
  - apply divide_nat_Z. apply Nat.gcd_divide_r.
  - intros z D1 D2. rewrite <- (Z.divide_abs_l z) in *. set (w := Z.abs z) in *. assert (0 <= w) by lia.
    rewrite <- (Z2Nat.id w) in * by lia. apply divide_nat_Z in D1, D2. apply divide_nat_Z. apply Nat.gcd_greatest; assumption.
Qed.

Lemma odd_coprime_pow2 j k : (1 <= k)%nat -> (Nat.gcd j (2 ^ k) = 1%nat <-> Nat.odd j = true).
Proof.
  intros Hk. split.
  - intros G. destruct (Nat.odd j) eqn:E; [reflexivity |]. exfalso. rewrite <- Nat.negb_even in E. apply negb_false_iff in E. apply Nat.even_spec in E.
    destruct E as [c Hc]. assert (D : Nat.divide 2 (Nat.gcd j (2 ^ k))).
    { apply Nat.gcd_greatest; [exists c; lia |]. destruct k as [|k]; [lia |]. rewrite Nat.pow_succ_r'. exists (2 ^ k)%nat. lia. }
    rewrite G in D. apply Nat.divide_1_r in D. lia.
  - intros O. rewrite Nat.gcd_comm. apply nprime_coprime_pow; [exact prime_2 |]. intros [c Hc]. rewrite Hc, Nat.odd_mul in O.
    rewrite andb_false_r in O. discriminate.
Qed.

(** the candidates are exactly the reduced elements of order m *)
Lemma candidates_spec m q r : prime q -> 2 <= m -> (m | q - 1) -> ord q r (Z.to_nat m) -> 0 <= r < q ->
  let l := if Z.land m (m - 1) =? 0 then power_chain (Z.to_nat (m / 2)) r ((r * r) mod q) q
           else map (fun k => Zpow_mod r (Z.of_nat k) q) (filter (fun k => Z.gcd (Z.of_nat k) m =? 1) (seq 1 (Z.to_nat (m - 1)))) in
  forall x, In x l <-> 0 <= x < q /\ ord q x (Z.to_nat m).
Proof.
  intros Hq Hm Hd Or Br l x. assert (Q : 1 < q) by (destruct Hq; lia).
  set (N := Z.to_nat m) in *. assert (HN : (2 <= N)%nat) by lia.
  assert (KEY : In x l <-> exists j, (1 <= j < N)%nat /\ Nat.gcd j N = 1%nat /\ x = pw r j mod q).
  { unfold l. destruct (Z.eqb_spec (Z.land m (m - 1)) 0) as [E | E].
    - destruct (land_pred_even m Hm E) as (k & Hk & Ek).
      assert (EN : N = (2 ^ Z.to_nat k)%nat). { apply Nat2Z.inj. unfold N. rewrite Z2Nat.id by lia. rewrite Nat2Z.inj_pow, Z2Nat.id by lia. exact Ek. }
      assert (EN2 : N = (2 * Z.to_nat (m / 2))%nat).
      { unfold N. rewrite Ek. replace k with (1 + (k - 1)) by lia. rewrite Z.pow_add_r by lia. change (2 ^ 1) with 2.
        rewrite (Z.mul_comm 2), Z.div_mul by lia. rewrite Z2Nat.inj_mul by (try lia; apply Z.pow_nonneg; lia). lia. }
      rewrite power_chain_spec, in_map_iff.
      assert (CH : forall i, Nat.iter i (fun x => (x * ((r * r) mod q)) mod q) r == pw r (2 * i + 1) [mod q]).
      { induction i as [|i IH]; [change (2 * 0 + 1)%nat with 1%nat; rewrite pw_1; reflexivity |]. unfold Nat.iter in *. cbn [nat_rect]. rewrite eqm_mod, IH, eqm_mod.
        replace (2 * S i + 1)%nat with (2 * i + 1 + 2)%nat by lia. rewrite (pw_add r (2 * i + 1) 2). unfold pw at 3. rewrite Z.pow_2_r. reflexivity. }
      assert (CB : forall i, 0 <= Nat.iter i (fun x => (x * ((r * r) mod q)) mod q) r < q).
      { destruct i; [cbn; lia |]. unfold Nat.iter. cbn [nat_rect]. apply Z.mod_pos_bound. lia. }
      split.
      + intros (i & <- & Hi). apply in_seq in Hi. exists (2 * i + 1)%nat. split; [lia |]. split.
        * rewrite EN. apply odd_coprime_pow2; [lia |]. rewrite Nat.odd_add, Nat.odd_mul. reflexivity.
        * symmetry. apply eqm_small_mod; [lia | symmetry; apply CH | apply CB].
      + intros (j & Hj & G & ->). rewrite EN in G. apply odd_coprime_pow2 in G; [| lia]. apply Nat.odd_spec in G. destruct G as [i Hi].
        exists i. split; [| apply in_seq; lia]. rewrite Hi. symmetry. apply eqm_small_mod; [lia | symmetry; apply CH | apply CB].
    - rewrite in_map_iff. split.
      + intros (k & <- & Hk). apply filter_In in Hk. destruct Hk as [Hk G]. apply in_seq in Hk. apply Z.eqb_eq in G.
        exists k. split; [lia |]. split; [| apply Zpow_mod_pw; lia].
        rewrite <- (Z2Nat.id m) in G by lia. rewrite gcd_nat_Z in G. fold N in G. lia.
      + intros (j & Hj & G & ->). exists j. split; [apply Zpow_mod_pw; lia |]. apply filter_In. split; [apply in_seq; lia |].
        apply Z.eqb_eq. rewrite <- (Z2Nat.id m) by lia. rewrite gcd_nat_Z. fold N. rewrite G. reflexivity. }
  rewrite KEY. split.
  - intros (j & Hj & G & ->). split; [apply Z.mod_pos_bound; lia |].
    apply (ord_eqm q (pw r j)); [symmetry; apply eqm_mod |]. apply (ord_pw_coprime q r N j); [lia | exact Or | exact G].
  - intros [Bx Ox]. destruct (ord_generates q r x N Hq ltac:(lia) Or (proj1 Ox)) as (j & Hj & Ej). exists j.
    assert (G : Nat.gcd j N = 1%nat) by (apply (ord_pw_coprime q r N j); [lia | exact Or |]; apply (ord_eqm q x); assumption).
    split; [| split; [exact G |]].
    + destruct j; [rewrite Nat.gcd_0_l in G; lia | lia].
    + symmetry. apply eqm_small_mod; [lia | symmetry; exact Ej | exact Bx].
Qed.

Lemma root_of_unity_spec m q : prime q -> 2 <= m -> (m | q - 1) ->
  exists r, root_of_unity m q = Some r /\ 0 <= r < q /\ ord q r (Z.to_nat m) /\ forall x, 0 <= x < q -> ord q x (Z.to_nat m) -> r <= x.
Proof.
  intros Hq Hm Hd. assert (Q : 1 < q) by (destruct Hq; lia). assert (Q2 : 2 < q) by (apply Z.divide_pos_le in Hd; lia).
  unfold root_of_unity. replace ((q - 1) mod m) with 0 by (symmetry; apply Z.mod_divide; [lia | exact Hd]). cbn [Z.eqb negb].
  destruct (find_generator_spec q Hq Q2) as (g & Eg & Bg & Og). rewrite Eg.
  set (r := Zpow_mod g ((q - 1) / m) q).
  destruct Hd as [c Hc]. assert (C : 0 < c) by nia.
  assert (Er : r = pw g (Z.to_nat c) mod q).
  { unfold r. replace ((q - 1) / m) with (Z.of_nat (Z.to_nat c)) by (rewrite Hc, Z.div_mul by lia; lia). apply Zpow_mod_pw. lia. }
  assert (Or : ord q r (Z.to_nat m)).
  { apply (ord_eqm q (pw g (Z.to_nat c))); [rewrite Er; symmetry; apply eqm_mod |]. apply ord_pow; [lia |].
    replace (Z.to_nat c * Z.to_nat m)%nat with (Z.to_nat (q - 1)) by (rewrite Hc, Z2Nat.inj_mul by lia; reflexivity). exact Og. }
  assert (Br : 0 <= r < q) by (rewrite Er; apply Z.mod_pos_bound; lia).
  pose proof (candidates_spec m q r Hq Hm ltac:(exists c; exact Hc) Or Br) as CS. cbv zeta in CS.
  destruct (min_list_spec (if Z.land m (m - 1) =? 0 then power_chain (Z.to_nat (m / 2)) r ((r * r) mod q) q
    else map (fun k => Zpow_mod r (Z.of_nat k) q) (filter (fun k => Z.gcd (Z.of_nat k) m =? 1) (seq 1 (Z.to_nat (m - 1)))))) as (x & Ex & Ix & Mx).
  { intros E. pose proof (proj2 (CS r) (conj Br Or)) as I. rewrite E in I. exact I. }
  exists x. split; [exact Ex |]. apply CS in Ix. destruct Ix as [Bx Ox]. split; [exact Bx |]. split; [exact Ox |].
  intros y By Oy. apply Mx. apply CS. split; assumption.
Qed.
