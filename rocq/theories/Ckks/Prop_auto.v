(** C37: automorphisms and conjugation in NTT form. *)
From Coq Require Import ZArith Znumtheory List Bool Lia.
From Verif Require Import Base.ZSum Base.Modeq Base.Lists Base.Bitrev Base.Nega Base.Powm Base.Word Base.PrimeCheck.
From Verif Require Import Ckks.Model_rns_utils Ckks.Model_math Ckks.Model_ntt_cpu Ckks.Model_scheme Ckks.Model_auto Ckks.Spec_ntt Ckks.Spec_poly.
From Verif Require Import Ckks.Proof_ntt_ref Ckks.Proof_ntt_cpu Ckks.Proof_transform Ckks.Proof_auto Ckks.Prop_ntt_cpu Ckks.Proof_slots Ckks.Proof_encrypt Ckks.Prop_encrypt.
Import ListNotations.
Local Open Scope Z_scope.

Lemma auto_slots L ms A a g : (L <= 31)%nat -> Forall (cpu_admissible L) ms -> slots L ms A a -> 0 <= g < 2 ^ 32 -> g mod 2 = 1 ->
  exists B, apply_automorphism_ntt A g = Some B /\ slots L ms B (fun i => poly_auto g (a i)).
Proof.
  intros HL HA [LA S] Hg Ho. unfold apply_automorphism_ntt.
  destruct (Z.leb_spec 0 g); [| lia]. destruct (Z.ltb_spec g (2 ^ 32)); [| lia]. cbn [andb]. eexists. split; [reflexivity |].
  split; [rewrite map_length; exact LA |]. intros i Hi. destruct (S i Hi) as [Lai E]. split; [rewrite poly_auto_length; exact Lai |].
  rewrite (nth_map_lt _ _ _ _ []) by lia. rewrite E, T_length. pose proof (adm L ms HA i Hi) as Ai. pose proof (admissible_gt1 L _ Ai).
  unfold T. apply automorphism_column; try assumption; [lia | apply psi_of_root; exact Ai].
Qed.
Lemma flip_slots L ms A a : Forall (cpu_admissible L) ms -> slots L ms A a -> slots L ms (flip A) (fun i => poly_auto (-1) (a i)).
Proof.
  intros HA [LA S]. unfold flip. split; [rewrite map_length; exact LA |]. intros i Hi. destruct (S i Hi) as [Lai E]. split; [rewrite poly_auto_length; exact Lai |].
  rewrite (nth_map_lt _ _ _ _ []) by lia. rewrite E. pose proof (adm L ms HA i Hi) as Ai. pose proof (admissible_gt1 L _ Ai).
  unfold T. apply flip_column; try assumption; [lia | apply psi_of_root; exact Ai].
Qed.
Lemma slots_same L ms A B a : slots L ms A a -> slots L ms B a -> A = B.
Proof.
  intros [LA SA] [LB SB]. apply (list_ext []); [lia |]. intros i Hi. destruct (SA i ltac:(lia)) as [_ ->], (SB i ltac:(lia)) as [_ ->]. reflexivity.
Qed.
Lemma ntt_slots L ms cols A : Forall (cpu_admissible L) ms -> length cols = length ms -> Forall (fun c => length c = (2 ^ L)%nat) cols ->
  ntt_negacyclic_poly cols ms = Some A -> slots L ms A (fun i => nth i cols []).
Proof.
  intros HA LC HC E. destruct (ntt_poly_slots L ms HA cols LC) as (B & EB & SB).
  - intros i Hi. rewrite Forall_forall in HC. apply HC, nth_In. lia.
  - rewrite E in EB. injection EB as <-. exact SB.
Qed.

(** C37: for every odd 32-bit g, degree 2^L and primes: permuting the transform of the polynomials a_i gives the transform of
    the polynomials a_i(X^g) *)
Theorem C37_automorphism : forall L moduli cols A g, (L <= 31)%nat -> Forall (cpu_admissible L) moduli ->
  length cols = length moduli -> Forall (fun c => length c = (2 ^ L)%nat) cols -> 0 <= g < 2 ^ 32 -> g mod 2 = 1 ->
  ntt_negacyclic_poly cols moduli = Some A ->
  exists B, apply_automorphism_ntt A g = Some B /\ ntt_negacyclic_poly (map (poly_auto g) cols) moduli = Some B.
Proof.
  intros L moduli cols A g HL HA LC HC Hg Ho E. pose proof (ntt_slots L moduli cols A HA LC HC E) as S.
  destruct (auto_slots L moduli A _ g HL HA S Hg Ho) as (B & EB & SB). exists B. split; [exact EB |].
  destruct (ntt_poly_slots L moduli HA (map (poly_auto g) cols)) as (C & EC & SC).
  - rewrite map_length. exact LC.
  - intros i Hi. rewrite (nth_map_lt _ _ _ _ []) by lia. rewrite poly_auto_length. rewrite Forall_forall in HC. apply HC, nth_In. lia.
  - rewrite EC. f_equal. apply (slots_same L moduli _ _ _ SC). eapply slots_ext; [| exact SB]. intros i Hi. cbn beta. rewrite (nth_map_lt _ _ _ _ []) by lia. reflexivity.
Qed.
Print Assumptions C37_automorphism.

(** C37: reversing the transform is the automorphism X -> X^-1 *)
Theorem C37_conjugation : forall L moduli cols A, Forall (cpu_admissible L) moduli ->
  length cols = length moduli -> Forall (fun c => length c = (2 ^ L)%nat) cols -> ntt_negacyclic_poly cols moduli = Some A ->
  ntt_negacyclic_poly (map (poly_auto (-1)) cols) moduli = Some (flip A).
Proof.
  intros L moduli cols A HA LC HC E. pose proof (ntt_slots L moduli cols A HA LC HC E) as S.
  pose proof (flip_slots L moduli A _ HA S) as SB.
  destruct (ntt_poly_slots L moduli HA (map (poly_auto (-1)) cols)) as (C & EC & SC).
  - rewrite map_length. exact LC.
  - intros i Hi. rewrite (nth_map_lt _ _ _ _ []) by lia. rewrite poly_auto_length. rewrite Forall_forall in HC. apply HC, nth_In. lia.
  - rewrite EC. f_equal. apply (slots_same L moduli _ _ _ SC). eapply slots_ext; [| exact SB]. intros i Hi. cbn beta. rewrite (nth_map_lt _ _ _ _ []) by lia. reflexivity.
Qed.
Print Assumptions C37_conjugation.

Lemma poly_auto_period g g' a : g == g' [mod 2 * Z.of_nat (length a)] -> poly_auto g a = poly_auto g' a.
Proof.
  intros E. unfold poly_auto. apply map_ext_in. intros k Hk. apply in_seq in Hk. apply zsum_ext. intros i Hi.
  replace ((Z.of_nat i * g) mod (2 * Z.of_nat (length a))) with ((Z.of_nat i * g') mod (2 * Z.of_nat (length a))); [reflexivity |].
  apply eqm_mod_iff; [lia |]. rewrite E. reflexivity.
Qed.
(** C37: the reversal and the general automorphism with g = 2n - 1 (that is, -1 modulo 2n) are the same permutation *)
Theorem C37_reversal_is_automorphism : forall L moduli cols A, (L <= 31)%nat -> Forall (cpu_admissible L) moduli ->
  length cols = length moduli -> Forall (fun c => length c = (2 ^ L)%nat) cols -> ntt_negacyclic_poly cols moduli = Some A ->
  apply_automorphism_ntt A (2 * 2 ^ Z.of_nat L - 1) = Some (flip A).
Proof.
  intros L moduli cols A HL HA LC HC E. pose proof (ntt_slots L moduli cols A HA LC HC E) as S.
  assert (P : 0 < 2 ^ Z.of_nat L <= 2 ^ 31) by (split; [apply Z.pow_pos_nonneg; lia | apply Z.pow_le_mono_r; lia]).
  destruct (auto_slots L moduli A _ (2 * 2 ^ Z.of_nat L - 1) HL HA S) as (B & EB & SB).
  - lia.
  - replace (2 * 2 ^ Z.of_nat L - 1) with (1 + (2 ^ Z.of_nat L - 1) * 2) by lia. rewrite Z.mod_add by lia. reflexivity.
  - rewrite EB. f_equal. apply (slots_same L moduli _ _ _ SB). eapply slots_ext; [| exact (flip_slots L moduli A _ HA S)].
    intros i Hi. cbn beta. apply poly_auto_period. rewrite Forall_forall in HC. rewrite (HC (nth i cols [])) by (apply nth_In; lia).
    apply eqm_ex. exists (-1). rewrite Nat2Z.inj_pow. lia.
Qed.
Print Assumptions C37_reversal_is_automorphism.

(** C37: a(X^g) on monomials: X^i goes to X^(i*g mod 2n), with X^(n+k) = -X^k *)
Theorem C37_monomial : forall n i g k, (i < n)%nat -> (k < n)%nat ->
  let x := map (fun j => if (j =? i)%nat then 1 else 0) (seq 0 n) in
  let r := (Z.of_nat i * g) mod (2 * Z.of_nat n) in
  co (poly_auto g x) k = (if r =? Z.of_nat k then 1 else if r =? Z.of_nat (k + n) then -1 else 0).
Proof.
  intros n i g k Hi Hk x r. assert (Lx : length x = n) by (unfold x; rewrite map_length, seq_length; reflexivity).
  rewrite co_auto by lia. rewrite Lx. assert (Cx : forall j, (j < n)%nat -> co x j = if (j =? i)%nat then 1 else 0) by (intros j Hj; unfold co, x; rewrite nth_map_seq by exact Hj; reflexivity).
  rewrite (zsum_single n i); [| exact Hi |].
  - rewrite Cx, Nat.eqb_refl by exact Hi. reflexivity.
  - intros j Hj NE. rewrite Cx by exact Hj. destruct (Nat.eqb_spec j i); [contradiction |]. cbv zeta. repeat match goal with |- context [Z.eqb ?a ?b] => destruct (Z.eqb a b) end; reflexivity.
Qed.
Print Assumptions C37_monomial.

Theorem C37_out_of_range_rejected : forall A g, g < 0 \/ 2 ^ 32 <= g -> apply_automorphism_ntt A g = None.
Proof.
  intros A g H. unfold apply_automorphism_ntt. destruct (Z.leb_spec 0 g); [| reflexivity]. destruct (Z.ltb_spec g (2 ^ 32)); [lia | reflexivity].
Qed.
Print Assumptions C37_out_of_range_rejected.

(** an even g is not rejected but permutes nothing sensible: the result is not the transform of a(X^g) *)
Theorem C37_even_refuted : ~ forall L moduli cols A B g, (L <= 31)%nat -> Forall (cpu_admissible L) moduli ->
  length cols = length moduli -> Forall (fun c => length c = (2 ^ L)%nat) cols -> 0 <= g < 2 ^ 32 ->
  ntt_negacyclic_poly cols moduli = Some A -> apply_automorphism_ntt A g = Some B -> ntt_negacyclic_poly (map (poly_auto g) cols) moduli = Some B.
Proof.
  intros H. destruct C32_example_moduli as [[_ HS] _]. assert (A97 : Forall (cpu_admissible 2) [97]) by (inversion HS as [|x l [A _] _]; constructor; [exact A | constructor]).
  destruct (ntt_negacyclic_poly [[1; 2; 3; 4]] [97]) as [A|] eqn:E; [| vm_compute in E; discriminate].
  destruct (apply_automorphism_ntt A 2) as [B|] eqn:E'; [| discriminate].
  specialize (H 2%nat [97] [[1; 2; 3; 4]] A B 2 ltac:(lia) A97 eq_refl ltac:(repeat constructor) ltac:(lia) E E').
  vm_compute in E. injection E as <-. vm_compute in E'. injection E' as <-. vm_compute in H. discriminate.
Qed.
Print Assumptions C37_even_refuted.

Example C37_example : match ntt_negacyclic_poly [[1; 2; 3; 4]; [5; 6; 7; 8]] [97; 193] with
  | Some A => apply_automorphism_ntt A 5 = ntt_negacyclic_poly [[1; -2; 3; -4]; [5; -6; 7; -8]] [97; 193] /\
              Some (flip A) = ntt_negacyclic_poly [[1; -4; -3; -2]; [5; -8; -7; -6]] [97; 193]
  | None => False end.
Proof. vm_compute. split; reflexivity. Qed.
