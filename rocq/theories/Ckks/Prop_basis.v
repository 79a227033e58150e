(** C34: fast basis conversion. *)
From Coq Require Import ZArith Znumtheory List Bool Lia.
From Verif Require Import Base.ZSum Base.Modeq Base.Lists Base.Fermat Base.PrimeCheck Base.Crt.
From Verif Require Import Ckks.Model_rns_utils Ckks.Prop_crt Ckks.Model_barrett Ckks.Spec_barrett Ckks.Proof_barrett Ckks.Prop_barrett Ckks.Model_scheme Ckks.Model_basis Ckks.Proof_basis.
Import ListNotations.
Local Open Scope Z_scope.

Definition at_indices (chain : list Z) (idx : list nat) : list Z := map (fun i => nth i chain 0) idx.
Definition product_of (ms : list Z) : Z := fold_right Z.mul 1 ms.

(** part of C34: for every chain, table of planned conversions and entry of the table, if the source moduli are pairwise
    coprime, below 2^31 and among the moduli on which the Barrett kernel is exact (C23_reduction_correct_moduli; all up to
    2^27), and the target moduli are below 2^31 and at least 1020 times the number of source moduli (at most 4112), then the
    residues of any list of integers in [0, Q) are mapped to the residues of x + u*Q, with one 0 <= u < #source per
    coefficient, common to all target moduli.
    Missing: source moduli on which the Barrett kernel is wrong (C34_refuted), and smaller targets. *)
Theorem C34_basis_change_partial : forall chain plans index from to xs,
  Forall (fun pl => Forall (fun i => (i < length chain)%nat) (fst pl ++ snd pl) /\ coprime_moduli (at_indices chain (fst pl))) plans ->
  nth_error plans index = Some (from, to) ->
  let source := at_indices chain from in
  let target := at_indices chain to in
  let Q := product_of source in
  source <> [] -> Z.of_nat (length source) <= 4112 ->
  Forall (fun q => 1 < q < 2 ^ 31 /\ barrett_exact q) source ->
  Forall (fun p => 1 < p < 2 ^ 31 /\ 1020 * Z.of_nat (length source) <= p) target ->
  Forall (fun x => 0 <= x < Q) xs ->
  exists constants, basis_precompute_constants chain plans = Some constants /\
  exists us, length us = length xs /\ Forall (fun u => 0 <= u < Z.of_nat (length source)) us /\
    basis_change constants (residue_array xs source) index =
      Some (residue_array (map (fun p => fst p + snd p * Q) (combine xs us)) target).
Proof.
  intros chain plans index from to xs HP HI source target Q NE HK HS HT HX.
  assert (TOT : exists constants, basis_precompute_constants chain plans = Some constants).
  { apply sequence_opt_total. intros o Ho. apply in_map_iff in Ho. destruct Ho as (pl & <- & Hpl). rewrite Forall_forall in HP.
    destruct (HP pl Hpl) as [H1 H2]. apply Forall_app in H1. destruct H1 as [H1 H1']. rewrite !select_total by assumption.
    unfold basis_precompute. destruct (q_hat_inv_spec _ H2) as (inv & E & _). unfold at_indices in E. rewrite E. discriminate. }
  destruct TOT as (constants & EC). exists constants. split; [exact EC |].
  pose proof (nth_error_In _ _ HI) as Hin. assert (Hidx : (index < length plans)%nat) by (apply nth_error_Some; rewrite HI; discriminate).
  rewrite Forall_forall in HP. destruct (HP _ Hin) as [H1 H2]. cbn [fst snd] in H1, H2. apply Forall_app in H1. destruct H1 as [H1 H1'].
  fold source in H2.
  destruct (basis_precompute_ok source target H2) as (c & Ec).
  assert (EN : nth_error constants index = Some c).
  { unfold basis_precompute_constants in EC. destruct (sequence_opt_nth _ _ c EC) as [L N]. rewrite map_length in *. specialize (N index Hidx).
    rewrite (nth_map_lt _ _ _ _ (from, to)) in N by exact Hidx. rewrite (nth_error_nth plans index (from, to) HI) in N. cbn [fst snd] in N.
    rewrite !select_total in N by assumption. fold (at_indices chain from) (at_indices chain to) source target in N. rewrite Ec in N.
    injection N as N. rewrite (nth_error_nth' constants c) by lia. rewrite <- N. reflexivity. }
  unfold basis_change. rewrite EN.
  assert (EQ : Q = lprod source) by reflexivity.
  destruct (basis_change_entries source target H2 NE HS HT HK (residue_array xs source) (fun j => nth j xs 0) (length xs) c Ec) as (out & EO & LO & LN & HE).
  - apply map_length.
  - apply degree_residue. exact NE.
  - intros j Hj. rewrite Forall_forall in HX. apply HX, nth_In, Hj.
  - intros i j Hi Hj. apply ent_residue; assumption.
  - assert (US : forall m, (m <= length xs)%nat -> exists us, length us = m /\ Forall (fun u => 0 <= u < Z.of_nat (length source)) us /\
      forall j, (j < m)%nat -> forall p, (p < length target)%nat -> ent out p j = (nth j xs 0 + nth j us 0 * Q) mod nth p target 0).
    { induction m as [|m IH]; intros Hm; [exists []; split; [reflexivity |]; split; [constructor |]; intros j Hj; lia |].
      destruct IH as (us & L & F & N); [lia |]. destruct (HE m ltac:(lia)) as (u & Hu & E). exists (us ++ [u]). rewrite app_length. cbn [length].
      split; [lia |]. split; [apply Forall_app; split; [exact F | constructor; [exact Hu | constructor]] |].
      intros j Hj p Hp. destruct (Nat.eq_dec j m) as [-> | D].
      - rewrite app_nth2 by lia. rewrite L, Nat.sub_diag. cbn [nth]. rewrite EQ. apply E. exact Hp.
      - rewrite app_nth1 by lia. apply N; [lia | exact Hp]. }
    destruct (US (length xs) (le_n _)) as (us & L & F & N). exists us. split; [exact L |]. split; [exact F |]. rewrite EO. f_equal.
    apply (nth_ext _ _ [] []); [unfold residue_array; rewrite map_length; exact LO |]. intros p Hp. rewrite LO in Hp.
    apply (nth_ext _ _ 0 0).
    + rewrite LN by exact Hp. unfold residue_array. rewrite (nth_map_lt _ _ _ _ 0) by exact Hp. rewrite !map_length, combine_length. lia.
    + intros j Hj. rewrite LN in Hj by exact Hp. fold (ent out p j). rewrite (N j Hj p Hp).
      assert (LC : length (combine xs us) = length xs) by (rewrite combine_length; lia).
      unfold residue_array. rewrite (nth_map_lt _ _ _ _ 0) by exact Hp. rewrite (nth_map_lt _ _ _ _ 0) by (rewrite map_length; lia).
      rewrite (nth_map_lt _ _ _ _ (0, 0)) by lia. rewrite combine_nth by lia. reflexivity.
Qed.
Print Assumptions C34_basis_change_partial.

(** the full claim fails: with the 30-bit primes 536903681 and 536924161 as the source, the Barrett constant of the first
    is one too large, and an integer whose first residue is 536883201 is converted to a value that is none of x, x + Q *)
Theorem C34_refuted : ~ forall source target xs,
  Forall (fun q => prime q /\ q < 2 ^ 31) (source ++ target) -> coprime_moduli (source ++ target) ->
  source <> [] -> Forall (fun p => 1020 * Z.of_nat (length source) <= p) target ->
  Forall (fun x => 0 <= x < product_of source) xs ->
  exists c us, basis_precompute source target = Some c /\ Forall (fun u => 0 <= u < Z.of_nat (length source)) us /\ length us = length xs /\
    basis_change_with c (residue_array xs source) = Some (residue_array (map (fun p => fst p + snd p * product_of source) (combine xs us)) target).
Proof.
  intros H. specialize (H [536903681; 536924161] [1073740609] [536883201]).
  destruct H as (c & us & E1 & F & L & E2).
  - constructor; [split; [apply prime_check_sound; vm_compute; reflexivity | lia] |].
    constructor; [split; [apply prime_check_sound; vm_compute; reflexivity | lia] |].
    constructor; [split; [apply prime_check_sound; vm_compute; reflexivity | lia] | constructor].
  - cbn [app]. split; [constructor; [lia | constructor; [lia | constructor; [lia | constructor]]] |].
    constructor; [constructor; [reflexivity | constructor; [reflexivity | constructor]] |].
    constructor; [constructor; [reflexivity | constructor] |]. constructor; [constructor |]. constructor.
  - discriminate.
  - constructor; [cbn [length]; lia | constructor].
  - constructor; [cbn; lia | constructor].
  - destruct us as [|u [|? ?]]; [discriminate | | discriminate]. rewrite Forall_cons_iff in F. destruct F as [Hu _]. cbn [length] in Hu.
    assert (U : u = 0 \/ u = 1) by lia. vm_compute in E1. injection E1 as <-. destruct U as [-> | ->]; vm_compute in E2; discriminate.
Qed.
Print Assumptions C34_refuted.

(** conversions that were not planned, a wrong number of residue columns and bases with a common factor are errors *)
Theorem C34_rejections : forall chain plans constants A index,
  (basis_precompute_constants chain plans = Some constants -> (length plans <= index)%nat -> basis_change constants A index = None) /\
  (forall c, nth_error constants index = Some c -> length A <> length (bs_q_hat_inv_mod_q c) -> basis_change constants A index = None) /\
  (forall q t target, 1 < q -> basis_precompute (q * t :: q :: target) target = None).
Proof.
  intros chain plans constants A index. split; [| split].
  - intros E H. unfold basis_precompute_constants in E. destruct constants as [| c0 cs]; [unfold basis_change; destruct index; reflexivity |].
    destruct (sequence_opt_nth _ _ c0 E) as [L _]. rewrite map_length in L. unfold basis_change.
    assert (EN : nth_error (c0 :: cs) index = None) by (apply nth_error_None; lia). rewrite EN. reflexivity.
  - intros c E H. unfold basis_change, basis_change_with. rewrite E. destruct (Nat.eqb_spec (length A) (length (bs_q_hat_inv_mod_q c))); [contradiction | reflexivity].
  - intros q t target Hq. unfold basis_precompute, compute_q_hat_inv_mod_q. cbn [map sequence_opt].
    assert (R : inverse_mod (product (q * t :: q :: target) / q) q = None).
    { unfold inverse_mod, Egcd.inverse. destruct (Egcd.inverse (product (q * t :: q :: target) / q) q) as [y |] eqn:E; [| exact E].
      exfalso. apply Egcd.inverse_some in E; [| lia]. destruct E as [_ E].
      rewrite product_lprod in E. unfold lprod in E. cbn [fold_right] in E. fold (lprod target) in E.
      replace (q * t * (q * lprod target)) with (q * t * lprod target * q) in E by ring. rewrite Z.div_mul in E by lia.
      destruct E as [z E]. assert (D : (q | 1)) by (exists (t * lprod target * y - z); nia). apply Z.divide_1_r_nonneg in D; lia. }
    rewrite R. destruct (inverse_mod (product (q * t :: q :: target) / (q * t)) (q * t)); reflexivity.
Qed.
Print Assumptions C34_rejections.

(** two 30-bit primes to two others, with overflow counts 0 and 1 *)
Example C34_example_hyp : let chain := [1073740609; 1073739937; 1073739649; 1073738753] in
  coprime_moduli (at_indices chain [0; 1]%nat) /\ Forall (fun q => 1 < q < 2 ^ 31 /\ barrett_exact q) (at_indices chain [0; 1]%nat).
Proof.
  cbv zeta. unfold at_indices. cbn [map nth]. split.
  - split; [constructor; [lia | constructor; [lia | constructor]] |]. constructor; [constructor; [reflexivity | constructor] |]. constructor; [constructor |]. constructor.
  - constructor; [split; [lia |] | constructor; [split; [lia |] | constructor]]; intros z Hz; revert z Hz; apply C23_reduction_correct_moduli; (lia || (left; vm_compute; reflexivity)).
Qed.
Example C34_example : let chain := [1073740609; 1073739937; 1073739649; 1073738753] in
  let Q := 1073740609 * 1073739937 in
  exists c, basis_precompute_constants chain [([0; 1], [2; 3])]%nat = Some c /\
    basis_change c (residue_array [5; 1073740609 * 1073739930 + 3] [1073740609; 1073739937]) 0 = Some (residue_array [5 + Q; 1073740609 * 1073739930 + 3] [1073739649; 1073738753]).
Proof. eexists. split; [vm_compute; reflexivity |]. vm_compute. reflexivity. Qed.
