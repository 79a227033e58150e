(** Multiplicative order modulo a prime; the units form a cyclic group. *)
From Coq Require Import ZArith Znumtheory List Lia Setoid Morphisms Arith Wf_nat.
From Verif Require Import Base.ZSum Base.Modeq Base.Egcd Base.Powm Base.Fermat.
Import ListNotations.
Local Open Scope Z_scope.

Definition nprime (p : nat) : Prop := prime (Z.of_nat p).

Lemma divide_nat_Z a b : Nat.divide a b <-> (Z.of_nat a | Z.of_nat b).
Proof.
  split.
  - intros [c ->]. exists (Z.of_nat c). lia.
  - intros [c Hc]. destruct (Nat.eq_dec a 0) as [-> | N]; [exists 0%nat; lia |].
    assert (0 <= c) by nia. exists (Z.to_nat c). nia.
Qed.

Lemma prime_divisor_Z : forall n : nat, (1 < n)%nat -> exists p, prime p /\ 0 < p /\ (p | Z.of_nat n).
Proof.
  intros n. induction n as [n IH] using lt_wf_ind. intros Hn.
  destruct (prime_dec (Z.of_nat n)) as [P | NP]; [exists (Z.of_nat n); split; [exact P |]; split; [lia | apply Z.divide_refl] |].
  destruct (not_prime_divide (Z.of_nat n) ltac:(lia) NP) as (d & Hd & Hdiv).
  destruct (IH (Z.to_nat d) ltac:(lia) ltac:(lia)) as (p & Pp & P0 & Hp). exists p. split; [exact Pp |]. split; [exact P0 |].
  rewrite Z2Nat.id in Hp by lia. apply Z.divide_trans with d; assumption.
Qed.
Lemma nprime_divisor n : (1 < n)%nat -> exists p, nprime p /\ Nat.divide p n.
Proof.
  intros Hn. destruct (prime_divisor_Z n Hn) as (p & Pp & P0 & Hp). exists (Z.to_nat p). unfold nprime. rewrite Z2Nat.id by lia.
  split; [exact Pp |]. apply divide_nat_Z. rewrite Z2Nat.id by lia. exact Hp.
Qed.
Lemma nprime_ge2 p : nprime p -> (2 <= p)%nat.
Proof. unfold nprime. intros H. apply prime_ge_2 in H. lia. Qed.

(** exponents killing x are closed under gcd *)
Lemma pw_gcd q x : forall b a, pw x a == 1 [mod q] -> pw x b == 1 [mod q] -> pw x (Nat.gcd a b) == 1 [mod q].
Proof.
  intros b. induction b as [b IH] using lt_wf_ind. intros a Ha Hb.
  destruct (Nat.eq_dec b 0) as [-> | N]; [rewrite Nat.gcd_0_r; exact Ha |].
  rewrite Nat.gcd_comm. rewrite <- Nat.gcd_mod by exact N. rewrite Nat.gcd_comm.
  apply IH; [apply Nat.mod_upper_bound; exact N | exact Hb |].
  rewrite (Nat.div_mod a b N) in Ha. rewrite pw_add, pw_mul, Hb, pw_one, Z.mul_1_l in Ha. exact Ha.
Qed.

(** x has order exactly N *)
Definition ord (q x : Z) (N : nat) : Prop := pw x N == 1 [mod q] /\ forall k, pw x k == 1 [mod q] -> Nat.divide N k.

Lemma ord_check q x N : (0 < N)%nat -> pw x N == 1 [mod q] ->
  (forall p, nprime p -> Nat.divide p N -> ~ (pw x (N / p) == 1 [mod q])) -> ord q x N.
Proof.
  intros HN H1 H. split; [exact H1 |]. intros k Hk.
  pose proof (pw_gcd q x k N H1 Hk) as G. set (d := Nat.gcd N k) in *.
  destruct (Nat.gcd_divide N k) as [[c Hc] Dk]. fold d in Hc, Dk.
  destruct (Nat.eq_dec c 1) as [-> | N1]; [rewrite Nat.mul_1_l in Hc; rewrite Hc; exact Dk |]. exfalso.
  assert (1 < c)%nat by (destruct c as [|[|c]]; lia).
  destruct (nprime_divisor c H0) as (p & Pp & [e He]). pose proof (nprime_ge2 p Pp).
  apply (H p Pp); [exists (e * d)%nat; rewrite Hc, He; lia |].
  replace (N / p)%nat with (e * d)%nat by (rewrite Hc, He; replace (e * p * d)%nat with (e * d * p)%nat by lia; rewrite Nat.div_mul by lia; reflexivity).
  rewrite Nat.mul_comm, pw_mul, G. rewrite pw_one. reflexivity.
Qed.

Lemma ord_one q : ord q 1 1.
Proof. split; [rewrite pw_one; reflexivity |]. intros k _. apply Nat.divide_1_l. Qed.

Lemma ord_pow q x a b : (0 < a)%nat -> ord q x (a * b) -> ord q (pw x a) b.
Proof.
  intros Ha [H1 H2]. split; [rewrite <- pw_mul; exact H1 |]. intros k Hk. rewrite <- pw_mul in Hk.
  destruct (H2 _ Hk) as [c Hc]. exists c. nia.
Qed.

Lemma ord_mul q x y a b : Nat.gcd a b = 1%nat -> ord q x a -> ord q y b -> ord q (x * y) (a * b).
Proof.
  intros G [X1 X2] [Y1 Y2]. split.
  - rewrite pw_mul_base. rewrite (pw_mul x a b), X1, pw_one. rewrite (Nat.mul_comm a b), pw_mul, Y1, pw_one. reflexivity.
  - intros k Hk. rewrite pw_mul_base in Hk.
    assert (A : Nat.divide a k).
    { apply (Nat.gauss a b k); [| exact G]. apply X2.
      assert (E : pw (pw x k * pw y k) b == 1 [mod q]) by (rewrite Hk, pw_one; reflexivity).
      rewrite pw_mul_base, <- !pw_mul in E. rewrite (Nat.mul_comm k b) in E. rewrite (pw_mul y b k), Y1, pw_one, Z.mul_1_r in E. exact E. }
    assert (B : Nat.divide b k).
    { apply (Nat.gauss b a k); [| rewrite Nat.gcd_comm; exact G]. apply Y2.
      assert (E : pw (pw x k * pw y k) a == 1 [mod q]) by (rewrite Hk, pw_one; reflexivity).
      rewrite pw_mul_base, <- !pw_mul in E. rewrite (Nat.mul_comm k a) in E. rewrite (pw_mul x a k), X1, pw_one, Z.mul_1_l in E. exact E. }
    destruct A as [c ->]. assert (B' : Nat.divide b c) by (apply (Nat.gauss b a c); [rewrite Nat.mul_comm; exact B | rewrite Nat.gcd_comm; exact G]).
    destruct B' as [e ->]. exists e. lia.
Qed.

(** n = p^e * m with p not dividing m *)
Lemma split_prime p : (2 <= p)%nat -> forall n, (0 < n)%nat -> exists e m, (n = p ^ e * m)%nat /\ ~ Nat.divide p m.
Proof.
  intros Hp n. induction n as [n IH] using lt_wf_ind. intros Hn.
  destruct (Nat.eq_dec (n mod p) 0) as [D | ND].
  - apply Nat.mod_divide in D; [| lia]. destruct D as [c Hc].
    destruct (IH c ltac:(nia) ltac:(nia)) as (e & m & E & F). exists (S e), m. split; [rewrite Nat.pow_succ_r', Hc, E; lia | exact F].
  - exists 0%nat, n. split; [cbn; lia |]. intros D. apply ND. apply Nat.mod_divide; [lia | exact D].
Qed.
Lemma nprime_coprime_pow p e m : nprime p -> ~ Nat.divide p m -> Nat.gcd (p ^ e) m = 1%nat.
Proof.
  intros Pp ND. set (g := Nat.gcd (p ^ e) m). destruct (Nat.gcd_divide (p ^ e) m) as [D1 D2]. fold g in D1, D2.
  destruct (Nat.eq_dec g 0) as [E0 | N0].
  { exfalso. apply Nat.gcd_eq_0 in E0. destruct E0 as [E0 _]. apply Nat.pow_nonzero in E0; [exact E0 | pose proof (nprime_ge2 p Pp); lia]. }
  destruct (Nat.eq_dec g 1) as [E1 | N1]; [exact E1 |]. exfalso.
  destruct (nprime_divisor g ltac:(lia)) as (r & Pr & Dr).
  assert (Dp : Nat.divide r (p ^ e)) by (eapply Nat.divide_trans; eassumption).
  assert (R : r = p).
  { clear - Dp Pp Pr. induction e as [|e IH].
    - cbn in Dp. apply Nat.divide_1_r in Dp. pose proof (nprime_ge2 r Pr). lia.
    - rewrite Nat.pow_succ_r' in Dp. apply divide_nat_Z in Dp. rewrite Nat2Z.inj_mul in Dp.
      apply prime_mult in Dp; [| exact Pr]. destruct Dp as [D | D].
      + apply prime_div_prime in D; [lia | exact Pr | exact Pp].
      + apply IH. apply divide_nat_Z. exact D. }
  subst r. apply ND. eapply Nat.divide_trans; eassumption.
Qed.
Lemma nprime_divides_pow p r e : nprime p -> nprime r -> Nat.divide r (p ^ e) -> r = p.
Proof.
  intros Pp Pr. induction e as [|e IH]; intros Dp.
  - cbn in Dp. apply Nat.divide_1_r in Dp. pose proof (nprime_ge2 r Pr). lia.
  - rewrite Nat.pow_succ_r' in Dp. apply divide_nat_Z in Dp. rewrite Nat2Z.inj_mul in Dp.
    apply prime_mult in Dp; [| exact Pr]. destruct Dp as [D | D].
    + apply prime_div_prime in D; [lia | exact Pr | exact Pp].
    + apply IH. apply divide_nat_Z. exact D.
Qed.

(** for every divisor N' of q-1 there is an element of order N' *)
Theorem ord_exists q : prime q -> forall N', Nat.divide N' (Z.to_nat (q - 1)) -> exists y, ord q y N'.
Proof.
  intros Hq N'. assert (Q : 1 < q) by (destruct Hq; lia).
  induction N' as [N' IH] using lt_wf_ind. intros HD.
  assert (HN : (0 < Z.to_nat (q - 1))%nat) by lia.
  assert (HN' : (0 < N')%nat) by (destruct HD as [c Hc]; destruct N'; lia).
  destruct (Nat.eq_dec N' 1) as [-> | N1]; [exists 1; apply ord_one |].
  destruct (nprime_divisor N' ltac:(lia)) as (p & Pp & Dp). pose proof (nprime_ge2 p Pp) as P2.
  destruct (split_prime p P2 N' HN') as (e & m & E & ND).
  destruct e as [|e]. { exfalso. apply ND. replace m with N' by (rewrite E; cbn; lia). exact Dp. }
  assert (PE : (p ^ S e <> 0)%nat) by (apply Nat.pow_nonzero; lia).
  assert (PE0 : (p ^ e <> 0)%nat) by (apply Nat.pow_nonzero; lia).
  assert (PS : (p ^ S e = p * p ^ e)%nat) by apply Nat.pow_succ_r'.
  destruct (IH m ltac:(nia)) as [y2 O2]. { eapply Nat.divide_trans; [| exact HD]. exists (p ^ S e)%nat. lia. }
  assert (O1 : exists y1, ord q y1 (p ^ S e)).
  { destruct HD as [c Hc]. set (N := Z.to_nat (q - 1)) in *.
    assert (HNp : N = (p ^ S e * (c * m))%nat) by (rewrite Hc, E; lia).
    destruct (exists_nonroot q (p ^ e * (c * m)) Hq ltac:(nia)) as (t & Ht & NR).
    { assert (Z.of_nat (p ^ e * (c * m)) < Z.of_nat N); [| lia]. apply Nat2Z.inj_lt. rewrite HNp, PS. nia. }
    exists (pw t (c * m)). apply ord_check; [lia | |].
    - rewrite <- pw_mul, Nat.mul_comm, <- HNp. apply fermat; [exact Hq | apply small_nz; lia].
    - intros r Pr Dr. rewrite (nprime_divides_pow p r (S e) Pp Pr Dr). replace (p ^ S e / p)%nat with (p ^ e)%nat by (rewrite PS, (Nat.mul_comm p), Nat.div_mul by lia; reflexivity).
      rewrite <- pw_mul, Nat.mul_comm. exact NR. }
  destruct O1 as [y1 O1]. exists (y1 * y2). rewrite E. apply ord_mul; [apply nprime_coprime_pow; assumption | exact O1 | exact O2].
Qed.

Lemma ord_eqm q x y N : x == y [mod q] -> ord q x N -> ord q y N.
Proof.
  intros E [H1 H2]. split; [rewrite <- E; exact H1 |]. intros k Hk. apply H2. rewrite E. exact Hk.
Qed.

Lemma ord_nz q x N : 1 < q -> (0 < N)%nat -> ord q x N -> ~ (x == 0 [mod q]).
Proof.
  intros Q HN [H1 _] E. rewrite E in H1. destruct N as [|N]; [lia |]. rewrite pw_S, Z.mul_0_l in H1.
  apply (small_nz q 1); [lia |]. symmetry. exact H1.
Qed.

(** powers below the order are distinct *)
Lemma ord_pw_inj q x N i j : prime q -> (0 < N)%nat -> ord q x N -> (i < N)%nat -> (j < N)%nat -> pw x i == pw x j [mod q] -> i = j.
Proof.
  intros Hq HN O Hi Hj.
  assert (Q : 1 < q) by (destruct Hq; lia).
  assert (G : forall i j, (i <= j)%nat -> (j < N)%nat -> pw x i == pw x j [mod q] -> i = j).
  { intros a b Hab Hb E. replace b with (a + (b - a))%nat in E by lia. rewrite pw_add in E.
    assert (E' : pw x a * 1 == pw x a * pw x (b - a) [mod q]) by (rewrite Z.mul_1_r; exact E).
    apply prime_cancel in E'; [| exact Hq | apply pw_nz; [exact Hq | apply (ord_nz q x N Q HN O)]].
    symmetry in E'. destruct O as [_ O]. destruct (O _ E') as [c Hc]. destruct c; nia. }
  intros E. destruct (Nat.le_ge_cases i j) as [L | L]; [apply G; assumption |]. symmetry. apply G; try assumption. symmetry. exact E.
Qed.

(** every N-th root of unity is a power of any element of order N *)
Lemma ord_generates q x y N : prime q -> (0 < N)%nat -> ord q x N -> pw y N == 1 [mod q] -> exists j, (j < N)%nat /\ y == pw x j [mod q].
Proof.
  intros Hq HN O Hy. assert (Q : 1 < q) by (destruct Hq; lia).
  set (powers := map (fun j => pw x j mod q) (seq 0 N)).
  destruct (in_dec Z.eq_dec (y mod q) powers) as [I | NI].
  - unfold powers in I. apply in_map_iff in I. destruct I as (j & E & Hj). apply in_seq in Hj. exists j. split; [lia |].
    apply eqm_mod_iff; [lia | symmetry; exact E].
  - exfalso.
    assert (Z0 : Forall (fun c => c == 0 [mod q]) (xn1 N)).
    { apply (roots_bound q Hq (y mod q :: powers)).
      - unfold xn1, powers. cbn [length]. rewrite app_length, repeat_length, map_length, seq_length. cbn [length]. lia.
      - constructor; [exact NI |]. unfold powers. apply nodup_map_in; [| apply seq_NoDup].
        intros i j Hi Hj E. apply in_seq in Hi, Hj. apply (ord_pw_inj q x N); try assumption; try lia. apply eqm_mod_iff; [lia | exact E].
      - intros z [<- | Hz]; [apply Z.mod_pos_bound; lia |]. unfold powers in Hz. apply in_map_iff in Hz. destruct Hz as (j & <- & _).
        apply Z.mod_pos_bound. lia.
      - intros z Hz. rewrite xn1_eval by exact HN. destruct Hz as [<- | Hz].
        + rewrite eqm_mod, Hy. reflexivity.
        + unfold powers in Hz. apply in_map_iff in Hz. destruct Hz as (j & <- & _). rewrite eqm_mod, <- pw_mul, Nat.mul_comm, pw_mul.
          destruct O as [O1 _]. rewrite O1, pw_one. reflexivity. }
    unfold xn1 in Z0. inversion_clear Z0 as [|? ? A _]. apply (small_nz q 1 ltac:(lia)).
    assert (E : 1 = - -1) by reflexivity. rewrite E, A. reflexivity.
Qed.

(** which powers have full order *)
Lemma ord_pw_coprime q x N j : (0 < N)%nat -> ord q x N -> (ord q (pw x j) N <-> Nat.gcd j N = 1%nat).
Proof.
  intros HN [O1 O2]. split.
  - intros [P1 P2]. set (g := Nat.gcd j N). destruct (Nat.gcd_divide j N) as [[a Ha] [b Hb]]. fold g in Ha, Hb.
    assert (G : g <> 0%nat) by (intros E; rewrite E, Nat.mul_0_r in Hb; lia).
    assert (D : Nat.divide N b).
    { apply P2. rewrite <- pw_mul. replace (j * b)%nat with (N * a)%nat by (rewrite Ha, Hb; lia). rewrite pw_mul, O1, pw_one. reflexivity. }
    destruct D as [c Hc]. assert (b <> 0)%nat by (intros E; rewrite E in Hb; lia).
    assert (E : (N * (c * g) = N * 1)%nat) by (rewrite Hc in Hb; lia). apply Nat.mul_cancel_l in E; [| lia]. apply Nat.eq_mul_1 in E. apply E.
  - intros G. split; [rewrite <- pw_mul, Nat.mul_comm, pw_mul, O1, pw_one; reflexivity |].
    intros k Hk. rewrite <- pw_mul in Hk. apply O2 in Hk. apply (Nat.gauss N j k Hk). rewrite Nat.gcd_comm. exact G.
Qed.
