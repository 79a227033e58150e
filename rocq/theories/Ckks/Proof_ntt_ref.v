From Coq Require Import ZArith Znumtheory List Bool Lia Setoid.
From Verif Require Import Base.ZSum Base.Modeq Base.Lists Base.Bitrev Base.Nega Base.Powm Base.Word Base.Egcd Base.Fermat.
From Verif Require Import Ckks.Model_rns_utils Ckks.Model_rns Ckks.Spec_ntt Ckks.Proof_bitrev Ckks.Proof_ntt.
Import ListNotations.
Local Open Scope Z_scope.

Lemma mod_exp_loop_spec q p : 0 < q -> forall r x, mod_exp_loop r x p q = (r * x ^ Zpos p) mod q.
Proof.
  intros Hq. induction p as [p IH | p IH |]; intros r x; cbn [ mod_exp_loop].
  - rewrite IH. change (Z.pos p~1) with (1 + 2 * Z.pos p). rewrite Z.pow_add_r, Z.pow_mul_r, Z.pow_1_r, Z.pow_2_r by lia.
    apply eqm_mod_iff; [exact Hq |]. change (((x * x) mod q) ^ Z.pos p) with (((x * x) mod q) ^ Z.of_N (N.pos p)).
    replace (Z.pos p) with (Z.of_nat (Pos.to_nat p)) by lia. fold (pw ((x * x) mod q) (Pos.to_nat p)). fold (pw (x * x) (Pos.to_nat p)).
    replace (Z.of_N (N.pos p)) with (Z.of_nat (Pos.to_nat p)) by lia. fold (pw ((x * x) mod q) (Pos.to_nat p)).
    rewrite !eqm_mod. apply eqm_eq. ring.
  - rewrite IH. change (Z.pos p~0) with (2 * Z.pos p). rewrite Z.pow_mul_r, Z.pow_2_r by lia.
    apply eqm_mod_iff; [exact Hq |]. replace (Z.pos p) with (Z.of_nat (Pos.to_nat p)) by lia.
    fold (pw ((x * x) mod q) (Pos.to_nat p)). fold (pw (x * x) (Pos.to_nat p)). rewrite !eqm_mod. reflexivity.
  - rewrite Z.pow_1_r. reflexivity.
Qed.
Lemma mod_exp_spec x n q : 1 < q -> mod_exp x (Z.of_nat n) q = pw x n mod q.
Proof.
  intros Hq. unfold mod_exp, pw. destruct (Z.of_nat n) as [|p|p] eqn:E; [rewrite Z.pow_0_r, Z.mod_small by lia; reflexivity | | lia].
  rewrite mod_exp_loop_spec by lia. rewrite Z.mul_1_l. reflexivity.
Qed.

Lemma is_power_of_two_pow k : 0 <= k -> is_power_of_two (2 ^ k) = true.
Proof.
  intros Hk. unfold is_power_of_two. assert (P : 0 < 2 ^ k) by (apply Z.pow_pos_nonneg; lia).
  apply andb_true_intro. split; [apply Z.ltb_lt; exact P |]. apply Z.eqb_eq.
  replace (2 ^ k - 1) with (Z.ones k) by (rewrite Z.ones_equiv; lia).
  rewrite Z.land_ones by exact Hk. apply Z.mod_same. lia.
Qed.
(** and only powers of two are accepted *)
Lemma is_power_of_two_only x : is_power_of_two x = true -> exists k, 0 <= k /\ x = 2 ^ k.
Proof.
  unfold is_power_of_two. intros H. apply andb_prop in H. destruct H as [H1 H2]. apply Z.ltb_lt in H1. apply Z.eqb_eq in H2.
  exists (Z.log2 x). split; [apply Z.log2_nonneg |]. pose proof (Z.log2_spec x H1) as [A B].
  destruct (Z.eq_dec x (2 ^ Z.log2 x)) as [E | N]; [exact E |]. exfalso.
  set (k := Z.log2 x) in *. assert (K : 0 <= k) by apply Z.log2_nonneg.
  assert (T : Z.testbit (Z.land x (x - 1)) k = true).
  { rewrite Z.land_spec. apply andb_true_intro. split.
    - apply Z.bit_log2. exact H1.
    - replace k with (Z.log2 (x - 1)); [apply Z.bit_log2; lia |]. apply Z.log2_unique; [exact K |]. lia. }
  rewrite H2, Z.bits_0 in T. discriminate.
Qed.

(** the search for a root succeeds and returns a root of X^n = -1 *)
Section Root.
  Variables (q : Z) (n k : nat).
  Hypothesis Hq : prime q.
  Hypothesis Hnk : q - 1 = Z.of_nat (2 * (n * k)).
  Hypothesis Hn : (0 < n)%nat.

  Lemma root_q : 1 < q /\ (0 < k)%nat.
  Proof. assert (1 < q) by (destruct Hq; lia). split; [assumption |]. destruct k; lia. Qed.

  Lemma candidate_root t : 2 <= t < q -> mod_exp (mod_exp t (Z.of_nat k) q) (Z.of_nat n) q <> 1 ->
    pw (mod_exp t (Z.of_nat k) q) n == -1 [mod q].
  Proof.
    intros Ht H. destruct root_q as [Q K]. rewrite !mod_exp_spec in * by exact Q.
    assert (E : pw (pw t k mod q) n == pw t (n * k) [mod q]) by (rewrite eqm_mod, (Nat.mul_comm n k), pw_mul; reflexivity).
    assert (S : pw t (n * k) * pw t (n * k) == 1 [mod q]).
    { rewrite <- pw_add. replace (n * k + n * k)%nat with (Z.to_nat (q - 1)) by lia.
      apply fermat; [exact Hq | apply small_nz; lia]. }
    destruct (square_one q _ Hq S) as [O | O].
    - exfalso. apply H. rewrite <- (Z.mod_small 1 q) by lia. apply eqm_mod_iff; [lia |]. rewrite E. exact O.
    - rewrite E. exact O.
  Qed.

  Lemma primitive_root_loop_sound fuel : forall t psi, 2 <= t -> t + Z.of_nat fuel <= q ->
    primitive_root_loop fuel t (Z.of_nat n) (Z.of_nat k) q = Some psi -> 0 <= psi < q /\ pw psi n == -1 [mod q].
  Proof.
    induction fuel as [|f IH]; intros t psi H2 Hf H; cbn [primitive_root_loop] in H; [discriminate |].
    destruct (mod_exp (mod_exp t (Z.of_nat k) q) (Z.of_nat n) q =? 1) eqn:E; cbn [negb] in H.
    - apply (IH (t + 1) psi); [lia | lia | exact H].
    - apply Z.eqb_neq in E. injection H as <-. destruct root_q as [Q K]. split.
      + rewrite mod_exp_spec by exact Q. apply Z.mod_pos_bound. lia.
      + apply candidate_root; [lia | exact E].
  Qed.
  Lemma primitive_root_loop_complete fuel : forall t t0, t <= t0 < t + Z.of_nat fuel ->
    mod_exp (mod_exp t0 (Z.of_nat k) q) (Z.of_nat n) q <> 1 ->
    exists psi, primitive_root_loop fuel t (Z.of_nat n) (Z.of_nat k) q = Some psi.
  Proof.
    induction fuel as [|f IH]; intros t t0 Hr H; [lia |]. cbn [primitive_root_loop].
    destruct (mod_exp (mod_exp t (Z.of_nat k) q) (Z.of_nat n) q =? 1) eqn:E; cbn [negb]; [| eexists; reflexivity].
    apply (IH (t + 1) t0); [| exact H]. assert (t <> t0); [| lia]. intros ->. apply Z.eqb_eq in E. contradiction.
  Qed.
  Lemma primitive_root_loop_total : exists psi, primitive_root_loop (Z.to_nat (q - 2)) 2 (Z.of_nat n) (Z.of_nat k) q = Some psi.
  Proof.
    destruct root_q as [Q K].
    destruct (exists_nonroot q (n * k) Hq ltac:(nia) ltac:(nia)) as (t & Ht & N).
    apply (primitive_root_loop_complete _ 2 t); [lia |].
    rewrite !mod_exp_spec by exact Q. intros E. apply N.
    rewrite (Nat.mul_comm n k), pw_mul. rewrite <- (eqm_mod q (pw t k)). rewrite <- (eqm_mod q (pw _ n)), E. reflexivity.
  Qed.
End Root.

Lemma half_double n : Z.shiftr (2 * n) 1 = n.
Proof. rewrite Z.shiftr_div_pow2 by lia. change (2 ^ 1) with 2. rewrite Z.mul_comm. apply Z.div_mul. lia. Qed.

Lemma ntt_prime_facts L q : prime q -> q mod (2 * 2 ^ Z.of_nat L) = 1 -> exists k, q - 1 = Z.of_nat (2 * (2 ^ L * k)) /\ (q - 1) / (2 * 2 ^ Z.of_nat L) = Z.of_nat k.
Proof.
  intros Hq Hm. assert (1 < q) by (destruct Hq; lia). assert (P : 0 < 2 ^ Z.of_nat L) by (apply Z.pow_pos_nonneg; lia).
  pose proof (Z.div_mod q (2 * 2 ^ Z.of_nat L) ltac:(lia)) as E. rewrite Hm in E.
  assert (0 <= q / (2 * 2 ^ Z.of_nat L)) by (apply Z.div_pos; lia).
  exists (Z.to_nat (q / (2 * 2 ^ Z.of_nat L))). split.
  - rewrite Nat2Z.inj_mul, Nat2Z.inj_mul, Nat2Z.inj_pow. rewrite Z2Nat.id by lia. change (Z.of_nat 2) with 2. lia.
  - rewrite Z2Nat.id by lia. replace (q - 1) with (q / (2 * 2 ^ Z.of_nat L) * (2 * 2 ^ Z.of_nat L)) by lia. rewrite Z.div_mul by lia. reflexivity.
Qed.

Lemma primitive_root_spec L q : prime q -> q mod (2 * 2 ^ Z.of_nat L) = 1 ->
  exists psi, primitive_root (2 * 2 ^ Z.of_nat L) q = Some psi /\ 0 <= psi < q /\ pw psi (2 ^ L) == -1 [mod q].
Proof.
  intros Hq Hm. destruct (ntt_prime_facts L q Hq Hm) as (k & E & Ek). pose proof (pow2_ge1 L) as P1.
  unfold primitive_root. rewrite Ek, half_double.
  assert (IP : is_power_of_two (2 * 2 ^ Z.of_nat L) = true).
  { replace (2 * 2 ^ Z.of_nat L) with (2 ^ (Z.of_nat L + 1)) by (rewrite Z.pow_add_r by lia; lia). apply is_power_of_two_pow. lia. }
  rewrite IP. cbn [negb].
  replace ((q - 1) mod (2 * 2 ^ Z.of_nat L)) with 0.
  2: { rewrite E. rewrite Nat2Z.inj_mul, Nat2Z.inj_mul, Nat2Z.inj_pow. change (Z.of_nat 2) with 2.
       replace (2 * (2 ^ Z.of_nat L * Z.of_nat k)) with (Z.of_nat k * (2 * 2 ^ Z.of_nat L)) by ring. symmetry. apply Z.mod_mul.
       assert (0 < 2 ^ Z.of_nat L) by (apply Z.pow_pos_nonneg; lia). lia. }
  cbn [negb Z.eqb]. replace (2 ^ Z.of_nat L) with (Z.of_nat (2 ^ L)) by (rewrite Nat2Z.inj_pow; reflexivity).
  destruct (primitive_root_loop_total q (2 ^ L) k Hq E ltac:(lia)) as [psi H]. exists psi. split; [exact H |].
  apply (primitive_root_loop_sound q (2 ^ L) k Hq E ltac:(lia) (Z.to_nat (q - 2)) 2); [lia | | exact H].
  destruct Hq; lia.
Qed.

Lemma fold_left_map {A B C} (f : A -> C -> A) (g : B -> C) l : forall a, fold_left f (map g l) a = fold_left (fun a x => f a (g x)) l a.
Proof. induction l as [|x l IH]; intros a; [reflexivity |]. cbn. apply IH. Qed.
Lemma rev_seq_map L : rev (seq 0 L) = map (fun s => L - 1 - s)%nat (seq 0 L).
Proof.
  apply (list_ext 0%nat); [rewrite rev_length, map_length; reflexivity |].
  intros i Hi. rewrite rev_length, seq_length in Hi. rewrite rev_nth by (rewrite seq_length; exact Hi).
  rewrite seq_length, seq_nth by lia. rewrite nth_map_seq by exact Hi. lia.
Qed.

(** what __post_init__ establishes *)
Record ntt_ok (L : nat) (q psi : Z) (p : ntt_params) : Prop := {
  no_q : nt_q p = q;
  no_n : nt_n p = (2 ^ L)%nat;
  no_root : pw psi (2 ^ L) == -1 [mod q];
  no_tab : forall i, (i < 2 ^ L)%nat -> nth i (nt_psis p) 0 == pw psi (brev L i) [mod q];
  no_inv : exists psi', psi * psi' == 1 [mod q] /\
             forall i, (i < 2 ^ L)%nat -> nth i (nt_psis_inv p) 0 == pw psi' (S (brev L i)) [mod q];
  no_ninv : 2 ^ Z.of_nat L * nt_n_inv p == 1 [mod q] }.

Lemma nth_firstn_rev_skip {A} (l : list A) d i n : length l = n -> (1 <= i < n)%nat -> nth i (firstn 1 l ++ rev (skipn 1 l)) d = nth (n - i) l d.
Proof.
  intros Hl Hi. destruct l as [|x l]; [cbn in Hl; lia |]. cbn [firstn skipn app]. cbn in Hl.
  destruct i as [|i]; [lia |]. cbn [nth]. rewrite rev_nth by lia. replace (n - S i)%nat with (S (length l - S i)) by lia. reflexivity.
Qed.

Lemma mk_ntt_spec L q : (1 <= L)%nat -> prime q -> q mod (2 * 2 ^ Z.of_nat L) = 1 ->
  exists p psi, mk_ntt (2 ^ L) q = Some p /\ 0 <= psi < q /\ ntt_ok L q psi p.
Proof.
  intros HL Hq Hm. assert (Q : 1 < q) by (destruct Hq; lia).
  destruct (primitive_root_spec L q Hq Hm) as (psi & Hpsi & Bpsi & Rpsi).
  assert (ZN : Z.of_nat (2 ^ L) = 2 ^ Z.of_nat L) by (rewrite Nat2Z.inj_pow; reflexivity).
  assert (P : 0 < 2 ^ Z.of_nat L) by (apply Z.pow_pos_nonneg; lia).
  assert (N2 : (2 <= 2 ^ L)%nat) by (apply (Nat.pow_le_mono_r 2 1 L); lia).
  assert (NI : exists y, inverse_mod (2 ^ Z.of_nat L) q = Some y /\ 2 ^ Z.of_nat L * y == 1 [mod q]).
  { destruct (inverse_prime (2 ^ Z.of_nat L) q Hq) as [y Hy].
    - destruct (ntt_prime_facts L q Hq Hm) as (k & E & _). rewrite Nat2Z.inj_mul, Nat2Z.inj_mul, ZN in E. change (Z.of_nat 2) with 2 in E.
      assert (1 <= Z.of_nat k) by (destruct k; lia). rewrite Z.mod_small by nia. lia.
    - exists y. split; [exact Hy |]. apply inverse_some in Hy; [apply Hy | lia]. }
  destruct NI as (ninv & EN & NN).
  unfold mk_ntt. rewrite ZN. rewrite is_power_of_two_pow by lia. cbn [negb]. rewrite Hm. cbn [negb Z.eqb Pos.eqb]. rewrite EN, Hpsi.
  set (psis := map (fun i => mod_exp psi (Z.of_nat i) q) (seq 0 (2 ^ L))).
  assert (LP : length psis = (2 ^ L)%nat) by (unfold psis; rewrite map_length, seq_length; reflexivity).
  assert (NP : forall i, (i < 2 ^ L)%nat -> nth i psis 0 == pw psi i [mod q]).
  { intros i Hi. unfold psis. rewrite nth_map_seq by exact Hi. rewrite mod_exp_spec by exact Q. apply eqm_mod. }
  set (inv0 := firstn 1 psis ++ rev (skipn 1 psis)).
  assert (L0 : length inv0 = (2 ^ L)%nat).
  { unfold inv0. rewrite app_length, rev_length, firstn_length, skipn_length. lia. }
  destruct (Nat.ltb_spec (length inv0) 2) as [HX | _]; [lia |].
  set (psi' := - pw psi (2 ^ L - 1)).
  assert (HI : psi * psi' == 1 [mod q]).
  { unfold psi'. transitivity (- (psi * pw psi (2 ^ L - 1))); [apply eqm_eq; ring |]. rewrite <- pw_S.
    replace (S (2 ^ L - 1)) with (2 ^ L)%nat by lia. rewrite Rpsi. reflexivity. }
  assert (NI0 : nth 0 inv0 0 == 1 [mod q]).
  { unfold inv0. rewrite app_nth1 by (rewrite firstn_length; lia). rewrite nth_firstn_lt by lia. rewrite NP by lia. reflexivity. }
  assert (NI' : forall i, (1 <= i < 2 ^ L)%nat -> nth i inv0 0 == - pw psi' i [mod q]).
  { intros i Hi. unfold inv0. rewrite (nth_firstn_rev_skip psis 0 i (2 ^ L)) by (auto; lia). rewrite NP by lia.
    assert (E : pw psi i * pw psi' i == 1 [mod q]) by (rewrite <- pw_mul_base, HI, pw_one; reflexivity).
    apply (eqm_cancel q (pw psi i) (pw psi' i)); [exact E |].
    rewrite <- pw_add. replace (i + (2 ^ L - i))%nat with (2 ^ L)%nat by lia. rewrite Rpsi.
    transitivity (- (pw psi i * pw psi' i)); [rewrite E; reflexivity | apply eqm_eq; ring]. }
  assert (NN1 : nth 1 inv0 0 == - psi' [mod q]) by (rewrite NI' by lia; rewrite pw_1; reflexivity).
  eexists. exists psi. split; [reflexivity |]. split; [exact Bpsi |]. constructor; cbn [nt_q nt_n nt_psis nt_psis_inv nt_n_inv].
  - reflexivity.
  - reflexivity.
  - exact Rpsi.
  - intros i Hi. rewrite (bit_reversal_array_spec 0 L psis LP), nth_map_seq by exact Hi. apply NP. apply brev_lt.
  - exists psi'. split; [exact HI |]. intros i Hi. rewrite nth_map_seq by exact Hi.
    rewrite (bit_reversal_array_spec 0 L inv0 L0).
    destruct (Nat.eqb_spec i 0) as [-> | N].
    + rewrite nth_map_seq by lia. rewrite brev_0. rewrite eqm_mod, NI0, eqm_mod, NN1. rewrite pw_1. apply eqm_eq. ring.
    + rewrite nth_map_seq by exact Hi. rewrite eqm_mod, NN1. rewrite NI'.
      * rewrite pw_S. apply eqm_eq. ring.
      * pose proof (brev_lt L i). assert (brev L i <> 0)%nat; [| lia]. intros E. apply N. apply (brev_inj L); [lia | lia |]. rewrite brev_0. exact E.
  - exact NN.
Qed.

Lemma ct_is_run L q p c : nt_q p = q -> iterative_cooley_tukey p c L = fst (ct_run L q (nt_psis p) L c).
Proof. intros <-. unfold iterative_cooley_tukey, ct_run. rewrite rev_seq_map, fold_left_map. reflexivity. Qed.
Lemma gs_is_run L q p c : nt_q p = q -> iterative_gentleman_sande p c L = fst (gs_run q (nt_psis_inv p) L c).
Proof. intros <-. reflexivity. Qed.

Section Main.
  Variables (L : nat) (q psi : Z) (p : ntt_params).
  Hypothesis HL : (1 <= L)%nat.
  Hypothesis Hq : 1 < q.
  Hypothesis OK : ntt_ok L q psi p.

  Lemma forward_transform a : length a = (2 ^ L)%nat -> forward p a = transform L q psi a.
  Proof.
    intros Ha. unfold forward, num_bits. rewrite Ha, log2_pow2. rewrite (ct_is_run L q p a (no_q _ _ _ _ OK)).
    apply ct_eval; [exact Hq | exact (no_root _ _ _ _ OK) | exact (no_tab _ _ _ _ OK) | exact Ha | lia].
  Qed.
  Lemma forward_length a : length a = (2 ^ L)%nat -> length (forward p a) = (2 ^ L)%nat.
  Proof. intros Ha. rewrite forward_transform by exact Ha. unfold transform. rewrite map_length, seq_length. reflexivity. Qed.
  Lemma backward_length a : length a = (2 ^ L)%nat -> length (backward p a) = (2 ^ L)%nat.
  Proof.
    intros Ha. unfold backward, num_bits. rewrite map_length, Ha, log2_pow2, (gs_is_run L q p a (no_q _ _ _ _ OK)).
    apply gs_shape; [exact Hq | exact Ha | lia].
  Qed.
  Lemma nth_map_in {A B} (f : A -> B) l d d' i : (i < length l)%nat -> nth i (map f l) d' = f (nth i l d).
  Proof. intros H. rewrite (nth_indep _ d' (f d)) by (rewrite map_length; exact H). apply map_nth. Qed.

  Lemma backward_forward a : length a = (2 ^ L)%nat -> backward p (forward p a) = map (fun x => x mod q) a.
  Proof.
    intros Ha. destruct (no_inv _ _ _ _ OK) as (psi' & HI & HT).
    apply (list_ext 0); [rewrite map_length, Ha; apply backward_length, forward_length, Ha |].
    intros i Hi. rewrite backward_length in Hi by (apply forward_length; exact Ha).
    rewrite (nth_map_in _ a 0 0) by lia.
    pose proof (forward_length a Ha) as LF.
    unfold backward, num_bits. rewrite LF, log2_pow2, (gs_is_run L q p _ (no_q _ _ _ _ OK)).
    destruct (gs_shape L q Hq (nt_psis_inv p) L (forward p a) LF (le_n L)) as [LG _].
    rewrite (nth_map_in _ _ 0 0) by lia. rewrite (no_q _ _ _ _ OK).
    apply eqm_mod_iff; [lia |].
    unfold forward, num_bits. rewrite Ha, log2_pow2, (ct_is_run L q p a (no_q _ _ _ _ OK)).
    rewrite (gs_ct L q psi psi' Hq HI (nt_psis p) (nt_psis_inv p) (no_tab _ _ _ _ OK) HT a Ha L (le_n L) i Hi).
    rewrite Nat.sub_diag. cbn [ct_run seq fold_left fst].
    transitivity (2 ^ Z.of_nat L * nt_n_inv p * nth i a 0); [apply eqm_eq; ring |].
    rewrite (no_ninv _ _ _ _ OK). apply eqm_eq. ring.
  Qed.

  Lemma forward_backward y : length y = (2 ^ L)%nat -> forward p (backward p y) = map (fun x => x mod q) y.
  Proof.
    intros Hy. destruct (no_inv _ _ _ _ OK) as (psi' & HI & HT).
    pose proof (backward_length y Hy) as LB. pose proof (forward_length _ LB) as LF.
    apply (list_ext 0); [rewrite map_length, Hy; exact LF |].
    intros i Hi. rewrite LF in Hi. rewrite (nth_map_in _ y 0 0) by lia.
    assert (R : 0 <= nth i (forward p (backward p y)) 0 < q).
    { rewrite forward_transform by exact LB. unfold transform. rewrite nth_map_seq by exact Hi. apply Z.mod_pos_bound. lia. }
    symmetry. apply eqm_small_mod; [lia | | exact R].
    unfold forward, num_bits. rewrite LB, log2_pow2, (ct_is_run L q p _ (no_q _ _ _ _ OK)).
    symmetry.
    rewrite (ct_gs L q psi psi' Hq HI (nt_psis p) (nt_psis_inv p) (no_tab _ _ _ _ OK) HT y (nt_n_inv p) (backward p y) Hy LB); [| | apply le_n | exact Hi].
    - rewrite Nat.sub_diag. cbn [gs_run seq fold_left fst].
      transitivity (2 ^ Z.of_nat L * nt_n_inv p * nth i y 0); [apply eqm_eq; ring |].
      rewrite (no_ninv _ _ _ _ OK). apply eqm_eq. ring.
    - intros j Hj. unfold backward, num_bits. rewrite Hy, log2_pow2, (gs_is_run L q p _ (no_q _ _ _ _ OK)).
      destruct (gs_shape L q Hq (nt_psis_inv p) L y Hy (le_n L)) as [LG _].
      rewrite (nth_map_in _ _ 0 0) by lia. rewrite (no_q _ _ _ _ OK), eqm_mod. apply eqm_eq. ring.
  Qed.
End Main.

(** *** Ring structure *)
Lemma odd_power_root L q psi m : pw psi (2 ^ L) == -1 [mod q] -> pw (psi ^ Z.of_nat (2 * m + 1)) (2 ^ L) == -1 [mod q].
Proof.
  intros H. change (psi ^ Z.of_nat (2 * m + 1)) with (pw psi (2 * m + 1)). rewrite <- pw_mul, Nat.mul_comm, pw_mul, H.
  apply pw_neg1_odd. rewrite Nat.odd_add, Nat.odd_mul. reflexivity.
Qed.

Lemma transform_mul L q psi a b : 0 < q -> pw psi (2 ^ L) == -1 [mod q] -> length a = (2 ^ L)%nat -> length b = (2 ^ L)%nat ->
  transform L q psi (nega_mul q a b) = pointwise_mul q (transform L q psi a) (transform L q psi b).
Proof.
  intros Hq Hr Ha Hb. unfold pointwise_mul, transform. rewrite map_length, seq_length.
  apply map_ext_in. intros j Hj. apply in_seq in Hj. rewrite !nth_map_seq by lia.
  apply eqm_mod_iff; [exact Hq |]. rewrite !eqm_mod. rewrite !eval_evalf, Ha, Hb.
  assert (LM : length (nega_mul q a b) = (2 ^ L)%nat) by (unfold nega_mul; rewrite map_length, seq_length; exact Ha). rewrite LM.
  rewrite <- (evalf_nega q (2 ^ L) (fun i => nth i a 0) (fun i => nth i b 0)) by (apply odd_power_root; exact Hr).
  apply evalf_eqm; [| reflexivity]. intros i Hi. unfold nega_mul. rewrite nth_map_seq by lia. rewrite Ha. apply eqm_mod.
Qed.
