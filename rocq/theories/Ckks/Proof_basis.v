From Coq Require Import ZArith Znumtheory List Bool Lia.
From Verif Require Import Base.ZSum Base.Modeq Base.Lists Base.Word Base.Fermat Base.Crt.
From Verif Require Import Ckks.Model_rns_utils Ckks.Prop_crt Ckks.Model_barrett Ckks.Spec_barrett Ckks.Proof_barrett Ckks.Model_scheme Ckks.Model_bat Ckks.Proof_bat Ckks.Model_basis.
Import ListNotations.
Local Open Scope Z_scope.

Lemma tab_length k n f : length (tab k n f) = k.
Proof. unfold tab. rewrite map_length, seq_length. reflexivity. Qed.
Lemma tab_col k n f i : (i < k)%nat -> nth i (tab k n f) [] = map (fun j => f i j) (seq 0 n).
Proof. intros Hi. unfold tab. rewrite nth_map_seq by exact Hi. reflexivity. Qed.
Lemma ent_tab k n f i j : (i < k)%nat -> (j < n)%nat -> ent (tab k n f) i j = f i j.
Proof. intros Hi Hj. unfold ent. rewrite tab_col by exact Hi. rewrite nth_map_seq by exact Hj. reflexivity. Qed.

(** the interpolation sum, before reduction modulo Q, exceeds the represented value by a multiple of Q below kQ *)
Lemma hat_sum ms (c : nat -> Z) (inv : nat -> Z) x : coprime_moduli ms -> ms <> [] -> 0 <= x < lprod ms ->
  (forall i, (i < length ms)%nat -> hat ms i * inv i == 1 [mod nth i ms 0]) ->
  (forall i, (i < length ms)%nat -> 0 <= c i < nth i ms 0 /\ c i == x * inv i [mod nth i ms 0]) ->
  exists u, 0 <= u < Z.of_nat (length ms) /\ zsum (length ms) (fun i => c i * hat ms i) = x + u * lprod ms.
Proof.
  intros C NE Hx HI HC. set (k := length ms) in *. set (S := zsum k (fun i => c i * hat ms i)).
  assert (P : 0 < lprod ms) by (apply lprod_pos, C).
  assert (E : S == x [mod lprod ms]).
  { apply crt_unique; [exact C |]. intros m Hm. apply (In_nth _ _ 0) in Hm. destruct Hm as (i & Hi & <-). fold k in Hi.
    transitivity (zsum k (fun i => x * (inv i * hat ms i))).
    - unfold S. unfold k in *.
      transitivity (zsum (length ms) (fun j => if Nat.eqb j i then c i * hat ms i else 0)).
      + apply eqm_zsum. intros j Hj. destruct (Nat.eqb_spec j i) as [-> | N]; [reflexivity |].
        destruct (hat_other ms j i Hj Hi (not_eq_sym N)) as [z ->]. exists (c j * z). ring.
      + rewrite (zsum_single _ i); [| exact Hi | intros j _ N; destruct (Nat.eqb_spec j i); [contradiction | reflexivity]].
        rewrite Nat.eqb_refl. rewrite (crt_sum ms (fun _ => x) inv HI i Hi). destruct (HC i Hi) as [_ E]. rewrite E.
        rewrite <- Z.mul_assoc, (Z.mul_comm (inv i)), (HI i Hi). apply eqm_eq. ring.
    - apply (crt_sum ms (fun _ => x) inv HI i Hi). }
  assert (B : 0 <= S <= Z.of_nat k * lprod ms - Z.of_nat k).
  { unfold S. split.
    - apply zsum_nonneg. intros i Hi. destruct (HC i Hi). pose proof (hat_pos ms i (proj1 C)). nia.
    - replace (Z.of_nat k * lprod ms - Z.of_nat k) with (Z.of_nat k * (lprod ms - 1)) by ring. rewrite <- zsum_const.
      apply zsum_le. intros i Hi. destruct (HC i Hi). pose proof (hat_pos ms i (proj1 C)). rewrite (hat_mul ms i Hi). nia. }
  assert (K : (0 < k)%nat) by (unfold k; destruct ms; [contradiction | cbn; lia]).
  destruct E as [u Hu]. exists u. split; [| lia]. nia.
Qed.

Lemma select_nth chain idx l : select chain idx = Some l -> length l = length idx /\ forall i, (i < length idx)%nat -> nth_error chain (nth i idx 0%nat) = Some (nth i l 0).
Proof.
  intros E. unfold select in E. destruct (sequence_opt_nth _ _ 0 E) as [L N]. rewrite map_length in *. split; [exact L |].
  intros i Hi. specialize (N i Hi). rewrite (nth_map_lt _ _ _ _ 0%nat) in N by exact Hi. exact N.
Qed.
Lemma select_total chain idx : Forall (fun i => (i < length chain)%nat) idx -> select chain idx = Some (map (fun i => nth i chain 0) idx).
Proof.
  intros H. unfold select. induction H as [|i idx Hi _ IH]; [reflexivity |]. cbn [map sequence_opt].
  rewrite (nth_error_nth' chain 0 Hi). rewrite IH. reflexivity.
Qed.

Lemma degree_residue xs ms : ms <> [] -> degree_of (residue_array xs ms) = length xs.
Proof. destruct ms; [contradiction |]. intros _. unfold degree_of, residue_array. cbn [map nth]. apply map_length. Qed.
Lemma ent_residue xs ms i j : (i < length ms)%nat -> (j < length xs)%nat -> ent (residue_array xs ms) i j = nth j xs 0 mod nth i ms 0.
Proof. intros Hi Hj. unfold ent, residue_array. rewrite (nth_map_lt _ _ _ _ 0) by exact Hi. rewrite (nth_map_lt _ _ _ _ 0) by exact Hj. reflexivity. Qed.

Section Conversion.
  Variables source target : list Z.
  Hypothesis C : coprime_moduli source.
  Hypothesis NE : source <> [].
  Hypothesis HS : Forall (fun q => 1 < q < 2 ^ 31 /\ barrett_exact q) source.
  Hypothesis HT : Forall (fun p => 1 < p < 2 ^ 31 /\ 1020 * Z.of_nat (length source) <= p) target.
  Hypothesis HK : Z.of_nat (length source) <= 4112.

  Lemma basis_precompute_ok : exists c, basis_precompute source target = Some c.
  Proof. unfold basis_precompute. destruct (q_hat_inv_spec source C) as (inv & -> & _). eexists. reflexivity. Qed.

  (** every entry of the result, for an array of residues of any integers in [0, Q) *)
  Lemma basis_change_entries A (x : nat -> Z) n c : basis_precompute source target = Some c ->
    length A = length source -> degree_of A = n ->
    (forall j, (j < n)%nat -> 0 <= x j < lprod source) ->
    (forall i j, (i < length source)%nat -> (j < n)%nat -> ent A i j = x j mod nth i source 0) ->
    exists out, basis_change_with c A = Some out /\ length out = length target /\ (forall i, (i < length target)%nat -> length (nth i out []) = n) /\
      forall j, (j < n)%nat -> exists u, 0 <= u < Z.of_nat (length source) /\
        forall p, (p < length target)%nat -> ent out p j = (x j + u * lprod source) mod nth p target 0.
  Proof.
    intros EC LA DA Hx HA. unfold basis_precompute in EC. destruct (q_hat_inv_spec source C) as (inv & EI & LI & HI). rewrite EI in EC. injection EC as <-.
    unfold basis_change_with. cbn [bs_q_hat_inv_mod_q bs_q_hat_mod_p_bat bs_origin_barrett bs_target_barrett]. rewrite LA, LI, Nat.eqb_refl. cbn [negb].
    rewrite map_length, seq_length, DA. eexists. split; [reflexivity |]. split; [apply tab_length |].
    split; [intros i Hi; rewrite tab_col by exact Hi; rewrite map_length, seq_length; reflexivity |].
    intros j Hj. set (k := length source) in *. set (cv := fun i => (x j * nth i inv 0) mod nth i source 0).
    rewrite Forall_forall in HS, HT.
    assert (HQ : forall i, (i < k)%nat -> 1 < nth i source 0 < 2 ^ 31 /\ barrett_exact (nth i source 0)) by (intros i Hi; apply HS, nth_In, Hi).
    assert (CV : forall i, (i < k)%nat -> modular_reduction (Model_scheme.u64 (ent A i j * nth i inv 0)) (nth i (map precompute_barrett_constants source) (precompute_barrett_constants 1)) = cv i).
    { intros i Hi. destruct (HQ i Hi) as [Q1 Q2]. destruct (HI i Hi) as (_ & R & _). rewrite HA by assumption.
      pose proof (Z.mod_pos_bound (x j) (nth i source 0) ltac:(lia)). unfold Model_scheme.u64. rewrite (Z.mod_small _ (2 ^ 64)) by nia.
      rewrite (nth_map_lt _ _ _ _ 0) by exact Hi. rewrite Q2 by nia. unfold cv. rewrite Z.mul_mod_idemp_l by lia. reflexivity. }
    destruct (hat_sum source cv (fun i => nth i inv 0) (x j) C NE (Hx j Hj)) as (u & Hu & ES).
    - intros i Hi. apply (HI i Hi).
    - intros i Hi. destruct (HQ i Hi) as [Q1 _]. unfold cv. split; [apply Z.mod_pos_bound; lia |]. apply eqm_mod.
    - fold k in Hu. exists u. split; [exact Hu |]. intros p Hp. rewrite ent_tab by assumption.
      assert (T : 1 < nth p target 0 < 2 ^ 31 /\ 1020 * Z.of_nat k <= nth p target 0) by (apply HT, nth_In, Hp). destruct T as [T1 T2].
      rewrite (nth_map_lt _ _ _ _ 0) by exact Hp. rewrite nth_map_seq by exact Hp.
      replace (map (fun i => ent _ i j) (seq 0 k)) with (map cv (seq 0 k)).
      2:{ apply map_ext_in. intros i Hi. apply in_seq in Hi. rewrite ent_tab by lia. symmetry. apply CV. lia. }
      set (col := map (fun q => (product source / q) mod nth p target 0) source).
      replace (map (fun row => basis_aligned_entry (nth p row 0) (nth p target 0)) (compute_q_hat_mod_p source target)) with (map (fun a => basis_aligned_entry a (nth p target 0)) col).
      2:{ unfold col, compute_q_hat_mod_p. rewrite !map_map. apply map_ext. intros q. rewrite (nth_map_lt _ _ _ _ 0) by exact Hp. reflexivity. }
      assert (Lc : length col = k) by apply map_length.
      assert (Ls : length (map cv (seq 0 k)) = k) by (rewrite map_length, seq_length; reflexivity).
      rewrite matmul_bat_entry_value; [| lia | lia | | lia].
      2:{ apply Forall_map. apply Forall_forall. intros q _. pose proof (Z.mod_pos_bound (product source / q) (nth p target 0) ltac:(lia)). lia. }
      rewrite Ls. set (V := bat_value _ _ _ _).
      assert (BV : 0 <= V <= Z.of_nat k * (1020 * (nth p target 0 - 1))) by (apply bat_value_bound; lia).
      rewrite barrett_large_sum by nia. apply eqm_mod_iff; [lia |]. unfold V. rewrite bat_value_congr.
      + rewrite <- ES. fold k. apply eqm_zsum. intros i Hi. rewrite nth_map_seq by exact Hi. unfold col. rewrite (nth_map_lt _ _ _ _ 0) by exact Hi.
        destruct (HI i Hi) as (-> & _). rewrite eqm_mod. reflexivity.
      + intros i Hi. rewrite nth_map_seq by exact Hi. destruct (HQ i Hi) as [Q1 _]. unfold cv. pose proof (Z.mod_pos_bound (x j * nth i inv 0) (nth i source 0) ltac:(lia)). lia.
  Qed.
End Conversion.
