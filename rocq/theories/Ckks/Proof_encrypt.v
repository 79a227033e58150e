(** Key generation, encryption and decryption on slots. *)
From Coq Require Import ZArith Znumtheory List Bool Lia.
From Verif Require Import Base.ZSum Base.Modeq Base.Lists Base.Bitrev Base.Nega Base.Powm Base.Word Base.Fermat Base.PrimeCheck Base.Crt.
From Verif Require Import Ckks.Model_rns_utils Ckks.Model_math Ckks.Model_ntt_cpu Ckks.Model_encode Ckks.Model_scheme Ckks.Spec_ntt Ckks.Spec_poly.
From Verif Require Import Ckks.Proof_ntt Ckks.Proof_ntt_ref Ckks.Proof_ntt_cpu Ckks.Proof_transform Ckks.Prop_ntt_cpu Ckks.Prop_crt Ckks.Proof_slots.
Import ListNotations.
Local Open Scope Z_scope.

(** The scheme's parameters: at least one modulus, all of them NTT primes for degree 2^L that fit the uint32 arrays. *)
Definition scheme_moduli (L : nat) (moduli : list Z) : Prop := moduli <> [] /\ Forall (fun q => cpu_admissible L q /\ q <= 2 ^ 32) moduli.

Lemma scheme_adm L ms : scheme_moduli L ms -> Forall (cpu_admissible L) ms.
Proof. intros [_ H]. eapply Forall_impl; [| exact H]. intros q [A _]. exact A. Qed.
Lemma scheme_small L ms i : scheme_moduli L ms -> (i < length ms)%nat -> 1 < nth i ms 0 <= 2 ^ 32.
Proof. intros [_ H] Hi. rewrite Forall_forall in H. destruct (H (nth i ms 0) (nth_In _ _ Hi)) as [A B]. split; [apply (admissible_gt1 L); exact A | exact B]. Qed.
Lemma scheme_firstn L ms k : scheme_moduli L ms -> (1 <= k <= length ms)%nat -> scheme_moduli L (firstn k ms).
Proof.
  intros [N H] Hk. split.
  - intros E. apply (f_equal (@length Z)) in E. rewrite firstn_length in E. cbn in E. lia.
  - rewrite <- (firstn_skipn k ms) in H. apply Forall_app in H. apply H.
Qed.

Lemma residues_of_map ms (a : list Z) : map (fun i => poly_mod (nth i ms 0) a) (seq 0 (length ms)) = residue_array a ms.
Proof.
  apply (list_ext []); [unfold residue_array; rewrite !map_length, seq_length; reflexivity |].
  intros i Hi. rewrite map_length, seq_length in Hi. rewrite (nth_map_seq (fun i => poly_mod (nth i ms 0) a)) by exact Hi.
  unfold residue_array. rewrite (nth_map_lt _ _ _ _ 0) by exact Hi. reflexivity.
Qed.
Lemma residue_degree a ms : ms <> [] -> degree_of (residue_array a ms) = length a.
Proof. destruct ms as [|q ms]; [contradiction |]. intros _. unfold degree_of, residue_array. cbn. apply map_length. Qed.
(** a table that copies the residues of [a] *)
Lemma residue_tab L ms a : scheme_moduli L ms -> length a = (2 ^ L)%nat ->
  tab (length ms) (2 ^ L) (fun i j => u32 (ent (residue_array a ms) i j)) = residue_array a ms.
Proof.
  intros S Ha. apply (list_ext []); [rewrite tab_length; unfold residue_array; rewrite map_length; reflexivity |].
  intros i Hi. rewrite tab_length in Hi. rewrite tab_col by exact Hi. unfold residue_array. rewrite (nth_map_lt _ _ _ _ 0) by exact Hi.
  apply (list_ext 0); [rewrite !map_length, seq_length; auto |]. intros j Hj. rewrite map_length, seq_length in Hj.
  rewrite (nth_map_seq (fun j => u32 (ent (map (fun q => map (fun c => c mod q) a) ms) i j))) by exact Hj.
  unfold ent. rewrite (nth_map_lt _ _ _ _ 0) by exact Hi. rewrite (nth_map_lt _ _ _ _ 0) by lia.
  pose proof (scheme_small L ms i S Hi). pose proof (Z.mod_pos_bound (nth j a 0) (nth i ms 0) ltac:(lia)). apply u32_small. lia.
Qed.
(** the columns of a uniform sample *)
Lemma uniform_cols n ms A : uniform_sample n ms A -> length A = length ms /\ forall i, (i < length ms)%nat -> length (nth i A []) = n.
Proof.
  intros H. split; [induction H; cbn; congruence |]. intros i Hi. induction H as [|col q A ms [Hc _] _ IH] in i, Hi |- *; [cbn in Hi; lia |].
  destruct i as [|i]; [exact Hc |]. cbn. apply IH. cbn in Hi. lia.
Qed.

Section Keys.
  Variables (L : nat) (ms : list Z).
  Hypothesis HS : scheme_moduli L ms.
  Let HA : Forall (cpu_admissible L) ms := scheme_adm L ms HS.

  (** entries of a product table *)
  Lemma prod_entry A B a b i j : slots L ms A a -> slots L ms B b -> (i < length ms)%nat -> (j < 2 ^ L)%nat ->
    0 <= u64 (ent A i j * ent B i j) mod nth i ms 0 < nth i ms 0 /\
    u64 (ent A i j * ent B i j) mod nth i ms 0 == nth j (T L (nth i ms 0) (poly_mul (a i) (b i))) 0 [mod nth i ms 0].
  Proof.
    intros SA SB Hi Hj. destruct (slots_ent L ms HA A a i j SA Hi Hj) as [B1 E1]. destruct (slots_ent L ms HA B b i j SB Hi Hj) as [B2 E2].
    pose proof (scheme_small L ms i HS Hi) as Q. rewrite (u64_mul _ _ (nth i ms 0)) by (assumption || lia).
    split; [apply Z.mod_pos_bound; lia |]. rewrite eqm_mod, E1, E2. symmetry. unfold T. apply slot_mul; [| exact Hj | apply SA; exact Hi | apply SB; exact Hi].
    apply psi_of_root. apply adm; assumption.
  Qed.

  (** key generation: the public key is (e - a*s, a) and the secret key holds s *)
  Lemma keygen_ok s a e : length s = (2 ^ L)%nat -> uniform_sample (2 ^ L) ms a -> length e = (2 ^ L)%nat ->
    exists pk sk, keygen ms (residue_array s ms) a (residue_array e ms) = Some (pk, sk) /\ pk_moduli pk = ms /\ sk_moduli sk = ms /\
      slots L ms (pk1 pk) (fun i => nth i a []) /\ slots L ms (sk_data sk) (fun _ => s) /\
      slots L ms (pk0 pk) (fun i => poly_sub e (poly_mul (nth i a []) s)).
  Proof.
    intros Hs Ha He. destruct (uniform_cols _ _ _ Ha) as [La Ca].
    destruct (ntt_residues L ms HA s Hs) as (sn & Es & Ss). destruct (ntt_poly_slots L ms HA a La Ca) as (an & Ea & Sa).
    destruct (ntt_residues L ms HA e He) as (en & Ee & Se).
    unfold keygen. rewrite Es, Ea, Ee. eexists. eexists. split; [reflexivity |]. cbn [pk0 pk1 pk_moduli sk_data sk_moduli].
    rewrite residue_degree by apply HS. rewrite Hs. split; [reflexivity |]. split; [reflexivity |]. split; [exact Sa |]. split; [exact Ss |].
    apply slots_tab; [exact HA | intros i Hi; rewrite poly_sub_length; exact He |]. intros i j Hi Hj.
    pose proof (scheme_small L ms i HS Hi) as Q. rewrite tab_ent by assumption.
    destruct (prod_entry an sn _ _ i j Sa Ss Hi Hj) as [B1 P1]. destruct (slots_ent L ms HA en _ i j Se Hi Hj) as [B2 E2].
    set (p := u64 (ent an i j * ent sn i j) mod nth i ms 0) in *.
    rewrite (u64_small (ent en i j + nth i ms 0)) by lia. rewrite u64_small by lia.
    split; [apply Z.mod_pos_bound; lia |]. rewrite eqm_mod, P1, E2. unfold T. rewrite slot_sub; [| exact Hj | rewrite poly_mul_length, Ca by exact Hi; exact He].
    fold (T L (nth i ms 0) e). set (x := nth j (T L (nth i ms 0) e) 0). set (y := nth j _ 0). exists 1. ring.
  Qed.
End Keys.

(** encryption and decryption at the level of a prefix of the key's moduli *)
Lemma encrypt_ok L ms k pk pt s a e m v e0 e1 : scheme_moduli L ms -> (1 <= k <= length ms)%nat ->
  length s = (2 ^ L)%nat -> (forall i, (i < length ms)%nat -> length (a i) = (2 ^ L)%nat) -> length e = (2 ^ L)%nat -> length m = (2 ^ L)%nat -> length v = (2 ^ L)%nat -> length e0 = (2 ^ L)%nat -> length e1 = (2 ^ L)%nat ->
  pk_moduli pk = ms -> slots L ms (pk1 pk) a -> slots L ms (pk0 pk) (fun i => poly_sub e (poly_mul (a i) s)) ->
  pt_moduli pt = firstn k ms -> slots L (firstn k ms) (pt_data pt) (fun _ => m) ->
  exists ct, encrypt pk pt (residue_array v (firstn k ms)) (residue_array e0 (firstn k ms)) (residue_array e1 (firstn k ms)) = Some ct /\
    ct_moduli ct = firstn k ms /\ length (ct_data ct) = 2%nat /\
    slots L (firstn k ms) (nth 0 (ct_data ct) []) (fun i => poly_add (poly_add (poly_mul v (poly_sub e (poly_mul (a i) s))) e0) m) /\
    slots L (firstn k ms) (nth 1 (ct_data ct) []) (fun i => poly_add (poly_mul v (a i)) e1).
Proof.
  intros HS Hk Hs Ha He Hm Hv H0 H1 EM S1 S0 EP SP. pose proof (scheme_firstn L ms k HS Hk) as HS'.
  set (ms' := firstn k ms) in *. assert (Lk : length ms' = k) by (unfold ms'; rewrite firstn_length; lia).
  pose proof (scheme_adm L ms' HS') as HA'. destruct (ntt_residues L ms' HA' v Hv) as (vn & Ev & Sv).
  destruct (ntt_residues L ms' HA' e0 H0) as (e0n & Ee0 & Se0). destruct (ntt_residues L ms' HA' e1 H1) as (e1n & Ee1 & Se1).
  unfold encrypt. rewrite EP, EM, Lk. fold ms'. rewrite list_eqb_refl. cbn [negb]. rewrite Ev, Ee0, Ee1.
  assert (DN : degree_of (pt_data pt) = (2 ^ L)%nat). { unfold degree_of. destruct SP as [_ SP]. destruct (SP 0%nat ltac:(lia)) as [_ ->]. apply T_length. }
  rewrite DN. eexists. split; [reflexivity |]. cbn [ct_data ct_moduli length nth]. split; [reflexivity |]. split; [reflexivity |].
  pose proof (slots_firstn L ms (pk0 pk) _ k S0 ltac:(lia)) as P0. pose proof (slots_firstn L ms (pk1 pk) _ k S1 ltac:(lia)) as P1. fold ms' in P0, P1.
  set (n := (2 ^ L)%nat).
  assert (LA : forall i, (i < length ms')%nat -> length (a i) = n) by (intros i Hi; apply Ha; lia).
  split.
  - set (C0 := tab k n (fun i j => u64 (u64 (ent (tab k n (fun i j => u64 (ent vn i j * ent (firstn k (pk0 pk)) i j) mod nth i ms' 0)) i j + ent e0n i j) + ent (pt_data pt) i j) mod nth i ms' 0)).
    assert (SC : slots L ms' C0
       (fun i => poly_add (poly_add (poly_mul v (poly_sub e (poly_mul (a i) s))) e0) m)).
    { unfold C0. rewrite <- Lk. apply slots_tab; [exact HA' | intros i Hi; rewrite !poly_add_length, poly_mul_length; exact Hv |]. intros i j Hi Hj.
      pose proof (scheme_small L ms' i HS' Hi) as Q. rewrite tab_ent by assumption. rewrite Lk.
      destruct (prod_entry L ms' HS' vn (firstn k (pk0 pk)) _ _ i j Sv P0 Hi Hj) as [B1 E1].
      destruct (slots_ent L ms' HA' e0n _ i j Se0 Hi Hj) as [B2 E2]. destruct (slots_ent L ms' HA' (pt_data pt) _ i j SP Hi Hj) as [B3 E3].
      set (p := u64 (ent vn i j * ent (firstn k (pk0 pk)) i j) mod nth i ms' 0) in *.
      rewrite (u64_small (p + _)) by lia. rewrite u64_small by lia. split; [apply Z.mod_pos_bound; lia |].
      rewrite eqm_mod, E1, E2, E3. unfold T. rewrite slot_add; [| exact Hj | rewrite poly_add_length, poly_mul_length; congruence].
      rewrite slot_add; [reflexivity | exact Hj | rewrite poly_mul_length; congruence]. }
    assert (U : forall i j, (i < length ms')%nat -> (j < 2 ^ L)%nat -> u32 (ent C0 i j) = ent C0 i j).
    { intros i j Hi Hj. destruct (slots_ent L ms' HA' _ _ i j SC Hi Hj) as [B _]. pose proof (scheme_small L ms' i HS' Hi). apply u32_small. lia. }
    pose proof (slots_cast L ms' HA' u32 _ _ U SC) as G. rewrite Lk in G. exact G.
  - set (C0 := tab k n (fun i j => u64 (ent (tab k n (fun i j => u64 (ent vn i j * ent (firstn k (pk1 pk)) i j) mod nth i ms' 0)) i j + ent e1n i j) mod nth i ms' 0)).
    assert (SC : slots L ms' C0
       (fun i => poly_add (poly_mul v (a i)) e1)).
    { unfold C0. rewrite <- Lk. apply slots_tab; [exact HA' | intros i Hi; rewrite !poly_add_length, poly_mul_length; exact Hv |]. intros i j Hi Hj.
      pose proof (scheme_small L ms' i HS' Hi) as Q. rewrite tab_ent by assumption. rewrite Lk.
      destruct (prod_entry L ms' HS' vn (firstn k (pk1 pk)) _ _ i j Sv P1 Hi Hj) as [B1 E1].
      destruct (slots_ent L ms' HA' e1n _ i j Se1 Hi Hj) as [B2 E2].
      set (p := u64 (ent vn i j * ent (firstn k (pk1 pk)) i j) mod nth i ms' 0) in *.
      rewrite u64_small by lia. split; [apply Z.mod_pos_bound; lia |].
      rewrite eqm_mod, E1, E2. unfold T. rewrite slot_add; [reflexivity | exact Hj | rewrite poly_mul_length; congruence]. }
    assert (U : forall i j, (i < length ms')%nat -> (j < 2 ^ L)%nat -> u32 (ent C0 i j) = ent C0 i j).
    { intros i j Hi Hj. destruct (slots_ent L ms' HA' _ _ i j SC Hi Hj) as [B _]. pose proof (scheme_small L ms' i HS' Hi). apply u32_small. lia. }
    pose proof (slots_cast L ms' HA' u32 _ _ U SC) as G. rewrite Lk in G. exact G.
Qed.

Lemma encode_ok L ms m : scheme_moduli L ms -> length m = (2 ^ L)%nat ->
  exists pt, encode_plaintext m ms = Some pt /\ pt_moduli pt = ms /\ slots L ms (pt_data pt) (fun _ => m).
Proof.
  intros HS Hm. pose proof (scheme_adm L ms HS) as HA. destruct (ntt_residues L ms HA m Hm) as (mn & E & S).
  unfold encode_plaintext. rewrite E, Hm. eexists. split; [reflexivity |]. cbn [pt_moduli pt_data]. split; [reflexivity |].
  apply slots_cast; [exact HA | | exact S]. intros i j Hi Hj. destruct (slots_ent L ms HA _ _ i j S Hi Hj) as [B _].
  pose proof (scheme_small L ms i HS Hi). apply u32_small. lia.
Qed.

(** an array of 32-bit words congruent to the slots of [a] *)
Definition cslots (L : nat) (ms : list Z) (A : array) (a : nat -> list Z) : Prop :=
  length A = length ms /\ forall i, (i < length ms)%nat -> length (a i) = (2 ^ L)%nat /\ length (nth i A []) = (2 ^ L)%nat /\
    forall j, (j < 2 ^ L)%nat -> 0 <= ent A i j < 2 ^ 32 /\ ent A i j == nth j (T L (nth i ms 0) (a i)) 0 [mod nth i ms 0].
Lemma slots_cslots L ms A a : scheme_moduli L ms -> slots L ms A a -> cslots L ms A a.
Proof.
  intros HS S. pose proof S as S'. destruct S as [LA S]. split; [exact LA |]. intros i Hi. destruct (S i Hi) as [La E].
  split; [exact La |]. split; [rewrite E; apply T_length |]. intros j Hj.
  destruct (slots_ent L ms (scheme_adm L ms HS) A a i j S' Hi Hj) as [B ->]. pose proof (scheme_small L ms i HS Hi).
  split; [| reflexivity]. pose proof (T_range L (nth i ms 0) (a i) j (adm L ms (scheme_adm L ms HS) i Hi) Hj). lia.
Qed.

(** decryption of a ciphertext whose two components hold a0 and a1 gives a0 + a1*s *)
Lemma decrypt_gen L ms k sk ct s a0 a1 : scheme_moduli L ms -> (1 <= k <= length ms)%nat ->
  sk_moduli sk = ms -> slots L ms (sk_data sk) s -> ct_moduli ct = firstn k ms ->
  cslots L (firstn k ms) (nth 0 (ct_data ct) []) a0 -> cslots L (firstn k ms) (nth 1 (ct_data ct) []) a1 ->
  decrypt sk ct = Some {| pt_data := map (fun i => poly_mod (nth i (firstn k ms) 0) (poly_add (a0 i) (poly_mul (a1 i) (s i)))) (seq 0 k); pt_moduli := firstn k ms |}.
Proof.
  intros HS Hk EM SS EC S0 S1. pose proof (scheme_firstn L ms k HS Hk) as HS'.
  pose proof (slots_firstn L ms (sk_data sk) _ k SS ltac:(lia)) as SS'.
  set (ms' := firstn k ms) in *. assert (Lk : length ms' = k) by (unfold ms'; rewrite firstn_length; lia).
  pose proof (scheme_adm L ms' HS') as HA'.
  unfold decrypt. rewrite EC, EM, Lk. fold ms'. rewrite list_eqb_refl. cbn [negb].
  destruct S0 as [L0 S0], S1 as [L1 S1].
  assert (DN : degree_of (nth 0 (ct_data ct) []) = (2 ^ L)%nat). { unfold degree_of. apply (S0 0%nat). lia. }
  rewrite DN. set (n := (2 ^ L)%nat). set (s_ := firstn k (sk_data sk)).
  assert (SR : slots L ms' (tab k n (fun i j => u64 (ent (nth 0 (ct_data ct) []) i j + u64 (ent (nth 1 (ct_data ct) []) i j * ent s_ i j) mod nth i ms' 0) mod nth i ms' 0))
     (fun i => poly_add (a0 i) (poly_mul (a1 i) (s i)))).
  { rewrite <- Lk. apply slots_tab; [exact HA' | intros i Hi; rewrite poly_add_length; apply S0; exact Hi |]. intros i j Hi Hj.
    pose proof (scheme_small L ms' i HS' Hi) as Q. destruct (S0 i Hi) as (La0 & _ & S0i), (S1 i Hi) as (La1 & _ & S1i).
    destruct (S0i j Hj) as [B0 E0], (S1i j Hj) as [B1 E1]. destruct (slots_ent L ms' HA' _ _ i j SS' Hi Hj) as [B2 E2].
    rewrite (u64_small (ent (nth 1 (ct_data ct) []) i j * ent s_ i j)) by (unfold s_; nia).
    pose proof (Z.mod_pos_bound (ent (nth 1 (ct_data ct) []) i j * ent s_ i j) (nth i ms' 0) ltac:(lia)) as B3.
    rewrite u64_small by lia. split; [apply Z.mod_pos_bound; lia |]. rewrite eqm_mod, eqm_mod. unfold s_. rewrite E0, E1, E2. unfold T.
    assert (Ls : length (s i) = (2 ^ L)%nat) by (apply SS'; exact Hi).
    rewrite slot_add, slot_mul; [reflexivity | apply psi_of_root; apply (adm L ms' HA'); exact Hi | exact Hj | assumption | assumption | exact Hj |].
    rewrite poly_mul_length. congruence. }
  rewrite (intt_poly_slots L ms' HA' _ _ SR). rewrite Lk. f_equal. f_equal.
  apply (list_ext []); [rewrite tab_length, map_length, seq_length; reflexivity |]. intros i Hi. rewrite tab_length in Hi.
  rewrite tab_col by exact Hi. rewrite (nth_map_seq (fun i => poly_mod (nth i ms' 0) (poly_add (a0 i) (poly_mul (a1 i) (s i))))) by exact Hi.
  apply (list_ext 0); [rewrite map_length, seq_length, poly_mod_length, poly_add_length; symmetry; apply S0; lia |].
  intros j Hj. rewrite map_length, seq_length in Hj. rewrite nth_map_seq by exact Hj. unfold ent at 1.
  rewrite (nth_map_seq (fun i => poly_mod (nth i ms' 0) (poly_add (a0 i) (poly_mul (a1 i) (s i))))) by exact Hi.
  pose proof (scheme_small L ms' i HS' ltac:(lia)) as Q. fold (co (poly_mod (nth i ms' 0) (poly_add (a0 i) (poly_mul (a1 i) (s i)))) j). rewrite co_mod.
  apply u32_small. pose proof (Z.mod_pos_bound (co (poly_add (a0 i) (poly_mul (a1 i) (s i))) j) (nth i ms' 0) ltac:(lia)). lia.
Qed.
Lemma decrypt_ok L ms k sk ct s a0 a1 : scheme_moduli L ms -> (1 <= k <= length ms)%nat -> length s = (2 ^ L)%nat ->
  sk_moduli sk = ms -> slots L ms (sk_data sk) (fun _ => s) -> ct_moduli ct = firstn k ms ->
  slots L (firstn k ms) (nth 0 (ct_data ct) []) a0 -> slots L (firstn k ms) (nth 1 (ct_data ct) []) a1 ->
  decrypt sk ct = Some {| pt_data := map (fun i => poly_mod (nth i (firstn k ms) 0) (poly_add (a0 i) (poly_mul (a1 i) s))) (seq 0 k); pt_moduli := firstn k ms |}.
Proof.
  intros HS Hk Hs E1 SS E2 S0 S1. pose proof (scheme_firstn L ms k HS Hk) as HS'.
  apply (decrypt_gen L ms k sk ct (fun _ => s)); try assumption; apply slots_cslots; assumption.
Qed.
(** every array of residues holds the slots of some polynomials *)
Lemma slots_exist L ms A : Forall (cpu_admissible L) ms -> uniform_sample (2 ^ L) ms A -> exists a, slots L ms A a.
Proof.
  intros HA H. exists (fun i => match intt_negacyclic_column (nth i A []) (nth i ms 0) with Some c => c | None => [] end).
  destruct (uniform_cols _ _ _ H) as [LA CA]. split; [exact LA |]. intros i Hi. pose proof (adm L ms HA i Hi) as Ai.
  assert (R : reduced (nth i ms 0) (nth i A [])).
  { clear - H Hi. induction H as [|col q A ms [_ Hc] _ IH] in i, Hi |- *; [cbn in Hi; lia |]. destruct i; [exact Hc |]. cbn. apply IH. cbn in Hi. lia. }
  destruct (T_surj L (nth i ms 0) (nth i A []) Ai (CA i Hi) R) as (a & La & Ra & E). rewrite E, (intt_T L (nth i ms 0) a Ai La).
  unfold poly_mod. rewrite map_mod_id by exact Ra. split; [exact La | reflexivity].
Qed.

(** two polynomials with congruent slots have the same residues *)
Lemma slots_determine L q a b : cpu_admissible L q -> length a = (2 ^ L)%nat -> length b = (2 ^ L)%nat ->
  (forall j, (j < 2 ^ L)%nat -> nth j (T L q a) 0 == nth j (T L q b) 0 [mod q]) -> poly_mod q a = poly_mod q b.
Proof.
  intros A Ha Hb H. apply (T_inj L q); [exact A | exact Ha | exact Hb |]. apply transform_intro; [pose proof (admissible_gt1 L q A); lia | apply T_length |].
  intros j Hj. split; [apply T_range; assumption |]. apply H. exact Hj.
Qed.

(** push slots through the ring operations *)
Ltac slot_side := repeat first [rewrite poly_add_length | rewrite poly_mul_length | rewrite poly_sub_length | rewrite poly_neg_length | rewrite poly_scale_length]; first [assumption | congruence].
Ltac slot_push := repeat first
  [ rewrite slot_add by slot_side | rewrite slot_mul by slot_side | rewrite slot_sub by slot_side | rewrite slot_neg by slot_side | rewrite slot_scale by slot_side ].
Ltac slot_ring := unfold T; slot_push; apply eqm_eq; ring.

(** the decryption equation *)
Lemma decryption_equation L q s a e m v e0 e1 : cpu_admissible L q ->
  length s = (2 ^ L)%nat -> length a = (2 ^ L)%nat -> length e = (2 ^ L)%nat -> length m = (2 ^ L)%nat -> length v = (2 ^ L)%nat -> length e0 = (2 ^ L)%nat -> length e1 = (2 ^ L)%nat ->
  poly_mod q (poly_add (poly_add (poly_add (poly_mul v (poly_sub e (poly_mul a s))) e0) m) (poly_mul (poly_add (poly_mul v a) e1) s)) =
  poly_mod q (poly_add m (poly_add (poly_add (poly_mul v e) e0) (poly_mul e1 s))).
Proof.
  intros A Hs Ha He Hm Hv H0 H1. apply (slots_determine L); [exact A | rewrite ?poly_add_length, ?poly_mul_length; assumption | rewrite ?poly_add_length; assumption |].
  pose proof (psi_of_root L q A) as R. intros j Hj. unfold T.
  slot_ring.
Qed.

(** coefficient bounds *)
Lemma poly_bound_co B a i : poly_bound B a -> (i < length a)%nat -> Z.abs (co a i) <= B.
Proof. intros H Hi. unfold poly_bound in H. rewrite Forall_forall in H. apply H. apply nth_In. exact Hi. Qed.
Lemma poly_bound_intro B a : (forall i, (i < length a)%nat -> Z.abs (co a i) <= B) -> poly_bound B a.
Proof. intros H. apply Forall_forall. intros x Hx. apply (In_nth _ _ 0) in Hx. destruct Hx as (i & Hi & <-). apply H. exact Hi. Qed.
Lemma poly_bound_add A B a b : length a = length b -> poly_bound A a -> poly_bound B b -> poly_bound (A + B) (poly_add a b).
Proof.
  intros E HA HB. apply poly_bound_intro. intros i Hi. rewrite poly_add_length in Hi. rewrite co_add by exact Hi.
  pose proof (poly_bound_co A a i HA Hi). pose proof (poly_bound_co B b i HB ltac:(lia)). lia.
Qed.
Lemma poly_bound_mul A B a b : length a = length b -> poly_bound A a -> poly_bound B b -> poly_bound (Z.of_nat (length a) * (A * B)) (poly_mul a b).
Proof.
  intros E HA HB. apply poly_bound_intro. intros k Hk. rewrite poly_mul_length in Hk. rewrite co_mul by exact Hk. unfold nega_coeff.
  apply zsum_abs_bound. intros i Hi. pose proof (poly_bound_co A a i HA Hi) as P1.
  destruct (Nat.leb_spec i k) as [C | C].
  - pose proof (poly_bound_co B b (k - i) HB ltac:(lia)) as P2. rewrite Z.abs_mul. apply Z.mul_le_mono_nonneg; lia.
  - pose proof (poly_bound_co B b (k + length a - i) HB ltac:(lia)) as P2. rewrite Z.abs_opp, Z.abs_mul. apply Z.mul_le_mono_nonneg; lia.
Qed.
