(** C38: secret key generation and extension. *)
From Coq Require Import ZArith Znumtheory List Bool Lia Permutation.
From Verif Require Import Base.ZSum Base.Modeq Base.Lists Base.Bitrev Base.Nega Base.Powm Base.Word Base.Fermat Base.PrimeCheck.
From Verif Require Import Ckks.Model_rns_utils Ckks.Model_math Ckks.Model_ntt_cpu Ckks.Model_encode Ckks.Model_scheme Ckks.Spec_ntt Ckks.Spec_poly.
From Verif Require Import Ckks.Proof_ntt_ref Ckks.Proof_ntt_cpu Ckks.Proof_transform Ckks.Prop_ntt_cpu Ckks.Proof_slots Ckks.Proof_encrypt Ckks.Prop_encrypt.
Import ListNotations.
Local Open Scope Z_scope.

Lemma poly_mod_small q s : Forall (fun c => 0 <= c < q) s -> poly_mod q s = s.
Proof. intros H. apply map_mod_id. exact H. Qed.

(** C38: the extension of a generated key.  For every secret s with coefficients in [0, q_0) (in particular the two
    generators' {0, 1} secrets, below) and every list of target primes that starts with the key's primes, the extended key
    is the transform of the residues of the same s modulo every target prime - what key generation over the target primes
    would have stored. *)
Theorem C38_extend : forall L moduli target s a e pk sk,
  scheme_moduli L moduli -> scheme_moduli L target -> firstn (length moduli) target = moduli ->
  length s = (2 ^ L)%nat -> length e = (2 ^ L)%nat -> uniform_sample (2 ^ L) moduli a ->
  Forall (fun c => 0 <= c < nth 0 moduli 0) s ->
  keygen moduli (residue_array s moduli) a (residue_array e moduli) = Some (pk, sk) ->
  exists sk', extend_secret_key sk target = Some sk' /\ sk_moduli sk' = target /\
    ntt_negacyclic_poly (residue_array s target) target = Some (sk_data sk') /\
    intt_negacyclic_poly (sk_data sk') target = Some (residue_array s target).
Proof.
  intros L moduli target s a e pk sk HS HT HP Hs He Ha Hr EK.
  destruct (keygen_ok L moduli HS s a e Hs Ha He) as (pk' & sk' & EK' & _ & MS & _ & SS & _). rewrite EK in EK'. injection EK' as <- <-.
  pose proof (scheme_adm L moduli HS) as HA. pose proof (scheme_adm L target HT) as HAT.
  unfold extend_secret_key. rewrite MS, HP, list_eqb_refl. cbn [negb]. rewrite (intt_poly_slots L moduli HA _ _ SS).
  assert (N : (0 < length moduli)%nat) by (destruct HS as [N _]; destruct moduli; [contradiction | cbn; lia]).
  assert (E0 : nth_error (map (fun i => poly_mod (nth i moduli 0) s) (seq 0 (length moduli))) 0 = Some s).
  { destruct (length moduli) as [|k] eqn:EL; [lia |]. cbn [seq map nth_error]. f_equal. apply poly_mod_small. exact Hr. }
  rewrite E0.
  destruct (ntt_poly_slots L target HAT (map (fun _ => s) target)) as (X & EX & SX).
  - apply map_length.
  - intros i Hi. rewrite (nth_map_lt _ _ _ _ 0) by exact Hi. exact Hs.
  - rewrite EX. eexists. split; [reflexivity |]. cbn [sk_moduli sk_data]. split; [reflexivity |].
    assert (SX' : slots L target X (fun _ => s)). { eapply slots_ext; [| exact SX]. intros i Hi. cbn beta. rewrite (nth_map_lt _ _ _ _ 0) by exact Hi. reflexivity. }
    destruct (ntt_residues L target HAT s Hs) as (Y & EY & SY). split.
    + rewrite EY. f_equal. destruct SX' as [LX SX'], SY as [LY SY]. apply (list_ext []); [lia |]. intros i Hi.
      destruct (SX' i ltac:(lia)) as [_ ->], (SY i ltac:(lia)) as [_ ->]. reflexivity.
    + rewrite (intt_poly_slots L target HAT _ _ SX'). f_equal. apply residues_of_map.
Qed.
Print Assumptions C38_extend.

(** C38: target primes that do not start with the key's primes are rejected *)
Theorem C38_extend_prefix_required : forall sk target, firstn (length (sk_moduli sk)) target <> sk_moduli sk -> extend_secret_key sk target = None.
Proof. intros sk target H. unfold extend_secret_key. destruct (list_eqb _ _) eqn:E; [apply list_eqb_eq in E; contradiction | reflexivity]. Qed.
Print Assumptions C38_extend_prefix_required.

(** C38: both generators of secrets return coefficients 0 and 1 only, which are within [0, q_0) *)
Theorem C38_ternary_range : forall coeffs q, ternary_sample coeffs -> 1 < q -> Forall (fun c => 0 <= c < q) coeffs /\ poly_bound 1 coeffs.
Proof. intros coeffs q H Hq. split; (eapply Forall_impl; [| exact H]); cbn; intros c [-> | ->]; lia. Qed.
Print Assumptions C38_ternary_range.

Lemma fold_upd_nth (idx : list nat) : forall v j, (j < length v)%nat ->
  length (fold_left (fun v i => upd i 1 v) idx v) = length v /\
  nth j (fold_left (fun v i => upd i 1 v) idx v) 0 = if existsb (Nat.eqb j) idx then 1 else nth j v 0.
Proof.
  induction idx as [|i idx IH]; intros v j Hj; cbn [fold_left existsb]; [split; reflexivity |].
  destruct (IH (upd i 1 v) j ltac:(rewrite upd_length; exact Hj)) as [E1 E2]. rewrite upd_length in E1. split; [exact E1 |]. rewrite E2.
  destruct (Nat.eqb_spec j i) as [-> | NE].
  - cbn. rewrite nth_upd_eq by exact Hj. destruct (existsb _ idx); reflexivity.
  - cbn. rewrite nth_upd_neq by congruence. reflexivity.
Qed.
Lemma lsum_indicator (idx : list nat) n : NoDup idx -> Forall (fun i => (i < n)%nat) idx ->
  zsum n (fun j => if existsb (Nat.eqb j) idx then 1 else 0) = Z.of_nat (length idx).
Proof.
  induction idx as [|i idx IH]; intros ND F; cbn [existsb length]; [apply zsum_0 |].
  apply NoDup_cons_iff in ND. destruct ND as [NI ND]. apply Forall_cons_iff in F. destruct F as [Hi F].
  rewrite (zsum_ext n _ (fun j => (if Nat.eqb j i then 1 else 0) + (if existsb (Nat.eqb j) idx then 1 else 0))).
  - rewrite zsum_add, IH by assumption. rewrite (zsum_single n i); [| exact Hi | intros j Hj NE; destruct (Nat.eqb_spec j i); [contradiction | reflexivity]].
    rewrite Nat.eqb_refl. lia.
  - intros j Hj. destruct (Nat.eqb_spec j i) as [-> | NE]; cbn; [| reflexivity].
    assert (existsb (Nat.eqb i) idx = false). { apply not_true_iff_false. intros E. apply existsb_exists in E. destruct E as (x & Hx & E). apply Nat.eqb_eq in E. subst x. contradiction. }
    rewrite H. reflexivity.
Qed.
(** C38: the sparse generator: every column is the same 0/1 vector with exactly [weight] ones *)
Theorem C38_sparse : forall degree indices moduli, NoDup indices -> Forall (fun i => (i < degree)%nat) indices ->
  exists v, sparse_binary degree indices moduli = map (fun _ => v) moduli /\ length v = degree /\
    Forall (fun c => c = 0 \/ c = 1) v /\ lsum v = Z.of_nat (length indices) /\
    (Forall (fun q => 1 < q) moduli -> sparse_binary degree indices moduli = residue_array v moduli).
Proof.
  intros degree indices moduli ND F. set (v := fold_left (fun v i => upd i 1 v) indices (repeat 0 degree)). exists v.
  split; [reflexivity |].
  assert (LV : length v = degree).
  { clear. unfold v. rewrite <- (repeat_length 0 degree) at 2. generalize (repeat 0 degree). induction indices as [|i l IH]; intros w; [reflexivity |]. cbn. rewrite IH, upd_length. reflexivity. }
  assert (NV : forall j, (j < degree)%nat -> nth j v 0 = if existsb (Nat.eqb j) indices then 1 else 0).
  { intros j Hj. destruct (fold_upd_nth indices (repeat 0 degree) j ltac:(rewrite repeat_length; exact Hj)) as [_ E]. fold v in E. rewrite E.
    destruct (existsb _ _); [reflexivity | apply nth_repeat_lt'; exact Hj]. }
  assert (B : Forall (fun c => c = 0 \/ c = 1) v).
  { apply Forall_forall. intros x Hx. apply (In_nth _ _ 0) in Hx. destruct Hx as (j & Hj & <-). rewrite NV by lia. destruct (existsb _ _); auto. }
  split; [exact LV |]. split; [exact B |]. split.
  - rewrite lsum_nth, LV. rewrite (zsum_ext degree _ (fun j => if existsb (Nat.eqb j) indices then 1 else 0)) by (intros; apply NV; assumption).
    apply lsum_indicator; assumption.
  - intros HQ. unfold sparse_binary, residue_array. fold v. apply map_ext_in. intros q Hq. rewrite Forall_forall in HQ. specialize (HQ q Hq).
    symmetry. apply map_mod_id. eapply Forall_impl; [| exact B]. cbn. intros c [-> | ->]; lia.
Qed.
Print Assumptions C38_sparse.

(** the claim that the ternary sampler can return both signs is false: -1 never occurs *)
Theorem C38_both_signs_refuted : ~ exists coeffs, ternary_sample coeffs /\ In (-1) coeffs.
Proof. intros (coeffs & H & I). unfold ternary_sample in H. rewrite Forall_forall in H. destruct (H _ I); discriminate. Qed.
Print Assumptions C38_both_signs_refuted.

(** and the extension relies on it: for a secret with a coefficient -1 the extended key is not the key of that secret *)
Theorem C38_extend_negative_refuted :
  ~ forall L moduli target s a e pk sk sk', scheme_moduli L moduli -> scheme_moduli L target -> firstn (length moduli) target = moduli ->
      length s = (2 ^ L)%nat -> length e = (2 ^ L)%nat -> uniform_sample (2 ^ L) moduli a -> poly_bound 1 s ->
      keygen moduli (residue_array s moduli) a (residue_array e moduli) = Some (pk, sk) ->
      extend_secret_key sk target = Some sk' -> intt_negacyclic_poly (sk_data sk') target = Some (residue_array s target).
Proof.
  intros H. destruct C32_example_moduli as [HS [_ HU]].
  assert (HS' : scheme_moduli 2 [97]) by (apply (scheme_firstn 2 [97; 193] 1 HS); cbn; lia).
  destruct (keygen [97] (residue_array [0; -1; 1; 0] [97]) [[1; 2; 3; 96]] (residue_array [0; 0; 0; 0] [97])) as [[pk sk]|] eqn:E; [| vm_compute in E; discriminate].
  destruct (extend_secret_key sk [97; 193]) as [sk'|] eqn:E'; [| vm_compute in E; injection E as <- <-; vm_compute in E'; discriminate].
  specialize (H 2%nat [97] [97; 193] [0; -1; 1; 0] [[1; 2; 3; 96]] [0; 0; 0; 0] pk sk sk' HS' HS eq_refl eq_refl eq_refl).
  assert (U : uniform_sample (2 ^ 2) [97] [[1; 2; 3; 96]]) by (repeat constructor; lia).
  assert (PB : poly_bound 1 [0; -1; 1; 0]) by (repeat constructor; cbn; lia).
  specialize (H U PB E E'). vm_compute in E. injection E as <- <-. vm_compute in E'. injection E' as <-. vm_compute in H. discriminate.
Qed.
Print Assumptions C38_extend_negative_refuted.

Example C38_example : match keygen [97] (residue_array [0; 1; 1; 0] [97]) [[1; 2; 3; 96]] (residue_array [1; 0; -1; 0] [97]) with
  | Some (_, sk) => match extend_secret_key sk [97; 193] with
    | Some sk' => intt_negacyclic_poly (sk_data sk') [97; 193] = Some [[0; 1; 1; 0]; [0; 1; 1; 0]] | None => False end
  | None => False end.
Proof. vm_compute. reflexivity. Qed.
