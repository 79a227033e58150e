(** C33: homomorphic addition and plaintext multiplication. *)
From Coq Require Import ZArith Znumtheory List Bool Lia.
From Verif Require Import Base.ZSum Base.Modeq Base.Lists Base.Bitrev Base.Nega Base.Powm Base.Word Base.Fermat Base.PrimeCheck.
From Verif Require Import Ckks.Model_barrett Ckks.Spec_barrett Ckks.Proof_barrett Ckks.Prop_barrett Ckks.Model_rns_utils Ckks.Model_math Ckks.Model_ntt_cpu Ckks.Model_encode Ckks.Model_scheme Ckks.Model_addmul Ckks.Spec_ntt Ckks.Spec_poly.
From Verif Require Import Ckks.Proof_ntt_ref Ckks.Proof_ntt_cpu Ckks.Proof_transform Ckks.Prop_ntt_cpu Ckks.Proof_slots Ckks.Proof_encrypt.
Import ListNotations.
Local Open Scope Z_scope.

(** a two-component ciphertext of residues *)
Definition valid_ct (n : nat) (ms : list Z) (ct : ciphertext) : Prop :=
  ct_moduli ct = ms /\ exists A B, ct_data ct = [A; B] /\ uniform_sample n ms A /\ uniform_sample n ms B.
Definition valid_sk (n : nat) (ms : list Z) (sk : secret_key) : Prop := sk_moduli sk = ms /\ uniform_sample n ms (sk_data sk).

Lemma zip_cslots L ms f A B a b c : scheme_moduli L ms -> slots L ms A a -> slots L ms B b ->
  (forall i, (i < length ms)%nat -> length (c i) = (2 ^ L)%nat) ->
  (forall i j, (i < length ms)%nat -> (j < 2 ^ L)%nat -> 0 <= ent A i j < nth i ms 0 -> 0 <= ent B i j < nth i ms 0 ->
     0 <= f i (ent A i j) (ent B i j) < 2 ^ 32 /\
     f i (ent A i j) (ent B i j) == nth j (T L (nth i ms 0) (c i)) 0 [mod nth i ms 0]) ->
  cslots L ms (zip_entries f A B) c.
Proof.
  intros HS SA SB Lc H. pose proof (scheme_adm L ms HS) as HA. unfold zip_entries.
  assert (N : (0 < length ms)%nat) by (destruct HS as [N _]; destruct ms; [contradiction | cbn; lia]).
  assert (D : degree_of A = (2 ^ L)%nat). { unfold degree_of. destruct SA as [_ SA]. destruct (SA 0%nat N) as [_ ->]. apply T_length. }
  assert (LA : length A = length ms) by apply SA. rewrite D, LA. split; [apply tab_length |]. intros i Hi. split; [apply Lc; exact Hi |].
  split; [rewrite tab_col by exact Hi; rewrite map_length, seq_length; reflexivity |]. intros j Hj. rewrite tab_ent by assumption.
  destruct (slots_ent L ms HA A a i j SA Hi Hj) as [B1 _]. destruct (slots_ent L ms HA B b i j SB Hi Hj) as [B2 _]. apply H; assumption.
Qed.

(** the sum of two plaintexts, coefficient by coefficient modulo each prime *)
Definition plaintext_sum (ms : list Z) (p p' : plaintext) : plaintext :=
  {| pt_data := map (fun i => poly_mod (nth i ms 0) (poly_add (nth i (pt_data p) []) (nth i (pt_data p') []))) (seq 0 (length ms)); pt_moduli := ms |}.
(** the product of a plaintext with the integer polynomial m *)
Definition plaintext_times (ms : list Z) (p : plaintext) (m : list Z) : plaintext :=
  {| pt_data := map (fun i => poly_mod (nth i ms 0) (poly_mul (nth i (pt_data p) []) m)) (seq 0 (length ms)); pt_moduli := ms |}.

Lemma add_entry_ok ms K bits : Forall (fun q => 1 < q < 2 ^ 31) ms -> bits = 32 \/ bits = 64 ->
  In K [AddSimple; AddModularBarrett (Some (precompute_constants ms)); AddModularSubtract ms] ->
  exists f, (forall A B, add_arrays K bits A B = Some (zip_arrays f A B)) /\
    forall i a b, (i < length ms)%nat -> 0 <= a < nth i ms 0 -> 0 <= b < nth i ms 0 -> 0 <= f i a b < 2 ^ 32 /\ f i a b == a + b [mod nth i ms 0].
Proof.
  intros HM Hb HK. rewrite Forall_forall in HM.
  destruct HK as [<- | [<- | [<- | []]]]; eexists; (split; [intros; reflexivity |]); intros i a b Hi Ha Hb'; cbn beta;
    pose proof (HM _ (nth_In ms 0 Hi)) as Q.
  - rewrite C24_add_simple by (destruct Hb as [-> | ->]; lia). split; [lia | reflexivity].
  - unfold precompute_constants. rewrite (nth_map_lt _ _ _ _ 0) by exact Hi.
    pose proof (C24_add_barrett bits (nth i ms 0) a b Hb Q Ha Hb') as E. unfold add_modular_barrett in E. injection E as ->.
    pose proof (Z.mod_pos_bound (a + b) (nth i ms 0) ltac:(lia)). split; [lia | apply eqm_mod].
  - rewrite C24_add_subtract by (assumption || lia). pose proof (Z.mod_pos_bound (a + b) (nth i ms 0) ltac:(lia)). split; [lia | apply eqm_mod].
Qed.

(** C33: every addition kernel, on the ciphertexts of any two plaintexts at any level: the sum decrypts to the sum of the
    decryptions (AddSimple leaves the words unreduced; decryption still gives the same) *)
Theorem C33_add : forall L moduli k sk ct ct' K bits, scheme_moduli L moduli -> (1 <= k <= length moduli)%nat ->
  let level := firstn k moduli in
  Forall (fun q => q < 2 ^ 31) level -> bits = 32 \/ bits = 64 ->
  valid_sk (2 ^ L) moduli sk -> valid_ct (2 ^ L) level ct -> valid_ct (2 ^ L) level ct' ->
  In K [AddSimple; AddModularBarrett (Some (precompute_constants level)); AddModularSubtract level] ->
  exists p p' D, decrypt sk ct = Some p /\ decrypt sk ct' = Some p' /\ add_arrays K bits (ct_data ct) (ct_data ct') = Some D /\
    decrypt sk {| ct_data := D; ct_moduli := level |} = Some (plaintext_sum level p p').
Proof.
  intros L moduli k sk ct ct' K bits HS Hk level HQ Hbits [EM SK] [EC (A & B & ED & UA & UB)] [EC' (A' & B' & ED' & UA' & UB')] HK.
  pose proof (scheme_firstn L moduli k HS Hk) as HS'. fold level in HS'. pose proof (scheme_adm L level HS') as HA'.
  assert (Lk : length level = k) by (unfold level; rewrite firstn_length; lia).
  assert (HQ' : Forall (fun q => 1 < q < 2 ^ 31) level).
  { apply Forall_forall. intros q Hq. rewrite Forall_forall in HQ. rewrite Forall_forall in HA'. split; [apply (admissible_gt1 L), HA', Hq | apply HQ, Hq]. }
  destruct (slots_exist L moduli _ (scheme_adm L moduli HS) SK) as (s & Ss).
  destruct (slots_exist L level A HA' UA) as (a & Sa), (slots_exist L level B HA' UB) as (b & Sb).
  destruct (slots_exist L level A' HA' UA') as (a' & Sa'), (slots_exist L level B' HA' UB') as (b' & Sb').
  destruct (add_entry_ok level K bits HQ' Hbits HK) as (f & EF & OK).
  rewrite (decrypt_gen L moduli k sk ct s a b HS Hk EM Ss EC); [| rewrite ED; apply slots_cslots; assumption | rewrite ED; apply slots_cslots; assumption].
  rewrite (decrypt_gen L moduli k sk ct' s a' b' HS Hk EM Ss EC'); [| rewrite ED'; apply slots_cslots; assumption | rewrite ED'; apply slots_cslots; assumption].
  eexists. eexists. eexists. split; [reflexivity |]. split; [reflexivity |]. split; [apply EF |]. rewrite ED, ED'. cbn [zip_arrays combine map fst snd].
  assert (LL : forall i, (i < k)%nat -> length (s i) = (2 ^ L)%nat /\ length (a i) = (2 ^ L)%nat /\ length (b i) = (2 ^ L)%nat /\ length (a' i) = (2 ^ L)%nat /\ length (b' i) = (2 ^ L)%nat).
  { intros i Hi. split; [apply Ss; lia |]. repeat split; [apply Sa | apply Sb | apply Sa' | apply Sb']; lia. }
  assert (CS : forall X Y x y, slots L level X x -> slots L level Y y -> cslots L level (zip_entries f X Y) (fun i => poly_add (x i) (y i))).
  { intros X Y x y SX SY. apply (zip_cslots L level f X Y x y); try assumption.
    - intros i Hi. rewrite poly_add_length. apply SX. exact Hi.
    - intros i j Hi Hj B1 B2. destruct (OK i _ _ Hi B1 B2) as [R C]. split; [exact R |]. rewrite C.
      destruct (slots_ent L level HA' X x i j SX Hi Hj) as [_ ->], (slots_ent L level HA' Y y i j SY Hi Hj) as [_ ->]. unfold T.
      rewrite slot_add; [reflexivity | exact Hj |]. destruct SX as [_ SX], SY as [_ SY]. destruct (SX i Hi), (SY i Hi). congruence. }
  rewrite (decrypt_gen L moduli k sk {| ct_data := [zip_entries f A A'; zip_entries f B B']; ct_moduli := level |} s
            (fun i => poly_add (a i) (a' i)) (fun i => poly_add (b i) (b' i)) HS Hk EM Ss eq_refl); [| apply CS; assumption | apply CS; assumption].
  f_equal. unfold plaintext_sum. cbn [pt_data]. fold level. rewrite Lk. f_equal. apply map_ext_in. intros i Hi. apply in_seq in Hi.
  rewrite (nth_map_seq (fun i => poly_mod (nth i level 0) (poly_add (a i) (poly_mul (b i) (s i))))) by lia.
  rewrite (nth_map_seq (fun i => poly_mod (nth i level 0) (poly_add (a' i) (poly_mul (b' i) (s i))))) by lia.
  destruct (LL i ltac:(lia)) as (L1 & L2 & L3 & L4 & L5).
  assert (Ai : cpu_admissible L (nth i level 0)) by (apply (adm L level HA'); lia).
  apply (slots_determine L); [exact Ai | slot_side | rewrite poly_add_length, poly_mod_length; slot_side |].
  pose proof (psi_of_root L _ Ai) as R. pose proof (admissible_gt1 L _ Ai). intros j Hj. unfold T. rewrite (slot_add L _ _ (poly_mod _ _) (poly_mod _ _)); [| exact Hj | rewrite !poly_mod_length; slot_side].
  rewrite !transform_mod by lia. slot_ring.
Qed.
Print Assumptions C33_add.

(** part of C33: the Barrett product with an encoded plaintext decrypts to the product of the decryption with the plaintext
    polynomial, for the moduli where Barrett reduction is exact.  Missing: the other moduli, for which it is false
    (C33_plain_mul_barrett_refuted). *)
Theorem C33_plain_mul_barrett_partial : forall L moduli k sk ct m, scheme_moduli L moduli -> (1 <= k <= length moduli)%nat ->
  let level := firstn k moduli in
  Forall (fun q => q < 2 ^ 31 /\ barrett_exact q) level ->
  valid_sk (2 ^ L) moduli sk -> valid_ct (2 ^ L) level ct -> length m = (2 ^ L)%nat ->
  exists p pt ct', decrypt sk ct = Some p /\ encode_plaintext m level = Some pt /\
    mul_plain_barrett (Some (precompute_constants level)) ct pt = Some ct' /\ ct_moduli ct' = level /\
    decrypt sk ct' = Some (plaintext_times level p m).
Proof.
  intros L moduli k sk ct m HS Hk level HQ [EM SK] [EC (A & B & ED & UA & UB)] Hm.
  pose proof (scheme_firstn L moduli k HS Hk) as HS'. fold level in HS'. pose proof (scheme_adm L level HS') as HA'.
  assert (Lk : length level = k) by (unfold level; rewrite firstn_length; lia).
  destruct (slots_exist L moduli _ (scheme_adm L moduli HS) SK) as (s & Ss).
  destruct (slots_exist L level A HA' UA) as (a & Sa), (slots_exist L level B HA' UB) as (b & Sb).
  destruct (encode_ok L level m HS' Hm) as (pt & EP & MP & Sm).
  rewrite (decrypt_gen L moduli k sk ct s a b HS Hk EM Ss EC); [| rewrite ED; apply slots_cslots; assumption | rewrite ED; apply slots_cslots; assumption].
  eexists. exists pt. eexists. split; [reflexivity |]. split; [exact EP |]. unfold mul_plain_barrett. rewrite EC, MP. rewrite list_eqb_refl. cbn [negb].
  split; [reflexivity |]. split; [reflexivity |]. rewrite ED. cbn [map].
  match goal with |- context [zip_entries ?g A (pt_data pt)] => set (f := g) end.
  assert (CS : forall X x, slots L level X x -> cslots L level (zip_entries f X (pt_data pt)) (fun i => poly_mul (x i) m)).
  { intros X x SX. apply (zip_cslots L level f X (pt_data pt) x (fun _ => m)); try assumption.
    - intros i Hi. rewrite poly_mul_length. apply SX. exact Hi.
    - intros i j Hi Hj B1 B2. unfold f. rewrite Forall_forall in HQ. destruct (HQ _ (nth_In level 0 Hi)) as [Q31 QE].
      pose proof (scheme_small L level i HS' Hi) as Q.
      unfold precompute_constants. rewrite (nth_map_lt _ _ _ _ 0) by exact Hi. unfold Model_barrett.u64. rewrite (Z.mod_small _ (2 ^ 64)) by nia.
      rewrite QE by nia. pose proof (Z.mod_pos_bound (ent X i j * ent (pt_data pt) i j) (nth i level 0) ltac:(lia)).
      unfold u32'. rewrite Z.mod_small by lia. split; [lia |]. rewrite eqm_mod.
      destruct (slots_ent L level HA' X x i j SX Hi Hj) as [_ ->], (slots_ent L level HA' _ _ i j Sm Hi Hj) as [_ ->]. unfold T.
      rewrite slot_mul; [reflexivity | apply psi_of_root, (adm L level HA'), Hi | exact Hj | apply SX; exact Hi | exact Hm]. }
  rewrite (decrypt_gen L moduli k sk {| ct_data := [zip_entries f A (pt_data pt); zip_entries f B (pt_data pt)]; ct_moduli := level |} s
            (fun i => poly_mul (a i) m) (fun i => poly_mul (b i) m) HS Hk EM Ss eq_refl); [| apply CS; assumption | apply CS; assumption].
  f_equal. unfold plaintext_times. cbn [pt_data]. fold level. rewrite Lk. f_equal. apply map_ext_in. intros i Hi. apply in_seq in Hi.
  rewrite (nth_map_seq (fun i => poly_mod (nth i level 0) (poly_add (a i) (poly_mul (b i) (s i))))) by lia.
  assert (L1 : length (s i) = (2 ^ L)%nat) by (apply Ss; lia). assert (L2 : length (a i) = (2 ^ L)%nat) by (apply Sa; lia). assert (L3 : length (b i) = (2 ^ L)%nat) by (apply Sb; lia).
  assert (Ai : cpu_admissible L (nth i level 0)) by (apply (adm L level HA'); lia).
  apply (slots_determine L); [exact Ai | slot_side | rewrite poly_mul_length, poly_mod_length; slot_side |].
  pose proof (psi_of_root L _ Ai) as R. pose proof (admissible_gt1 L _ Ai). intros j Hj. unfold T.
  rewrite (slot_mul L _ _ R (poly_mod _ _) m j); [| exact Hj | rewrite poly_mod_length; slot_side | exact Hm].
  rewrite !transform_mod by lia. slot_ring.
Qed.
Print Assumptions C33_plain_mul_barrett_partial.

(** moduli up to 2^27 are exact *)
Theorem C33_small_moduli_exact : forall m, 1 < m <= 2 ^ 27 -> barrett_exact m.
Proof. intros m Hm z Hz. apply C23_reduction_partial; assumption. Qed.
Print Assumptions C33_small_moduli_exact.

(** polynomials of degree 0: one slot, the coefficient itself *)
Lemma T_constant q x : T 0 q [x] = [x mod q].
Proof. unfold T, transform, eval. cbn. f_equal. f_equal. lia. Qed.
Lemma constant_cslots q x a : cpu_admissible 0 q -> 0 <= x < 2 ^ 32 -> a = (fun _ : nat => [x]) -> cslots 0 [q] [[x]] a.
Proof.
  intros A Hx ->. split; [reflexivity |]. intros i Hi. cbn in Hi. replace i with 0%nat by lia. split; [reflexivity |]. split; [reflexivity |].
  intros j Hj. cbn in Hj. replace j with 0%nat by lia. split; [exact Hx |]. cbn [nth ent]. rewrite T_constant. cbn. symmetry. apply eqm_mod.
Qed.
Lemma constant_decrypt q x s : cpu_admissible 0 q -> q <= 2 ^ 32 -> 0 <= x < 2 ^ 32 -> 0 <= s < q ->
  decrypt {| sk_data := [[s]]; sk_moduli := [q] |} {| ct_data := [[[x]]; [[0]]]; ct_moduli := [q] |} = Some {| pt_data := [[x mod q]]; pt_moduli := [q] |}.
Proof.
  intros A Q Hx Hs. rewrite (decrypt_gen 0 [q] 1 _ _ (fun _ => [s]) (fun _ => [x]) (fun _ => [0])).
  - cbn. rewrite Z.add_0_r. reflexivity.
  - split; [discriminate |]. constructor; [split; assumption | constructor].
  - cbn. lia.
  - reflexivity.
  - split; [reflexivity |]. intros i Hi. cbn in Hi. replace i with 0%nat by lia. split; [reflexivity |]. cbn [nth sk_data]. rewrite T_constant, Z.mod_small by exact Hs. reflexivity.
  - reflexivity.
  - apply constant_cslots; auto.
  - apply constant_cslots; auto. lia.
Qed.
Lemma constant_encode q m : cpu_admissible 0 q -> q <= 2 ^ 32 -> 0 <= m < q -> encode_plaintext [m] [q] = Some {| pt_data := [[m]]; pt_moduli := [q] |}.
Proof.
  intros A Q Hm. destruct (encode_ok 0 [q] [m]) as (pt & E & M & LS & S).
  - split; [discriminate |]. constructor; [split; assumption | constructor].
  - reflexivity.
  - rewrite E. f_equal. destruct pt as [d pm]. cbn in *. subst pm. f_equal. destruct d as [|c [|? ?]]; [discriminate | | discriminate].
    destruct (S 0%nat ltac:(lia)) as [_ S0]. change (c = T 0 q [m]) in S0. rewrite S0, T_constant, Z.mod_small by exact Hm. reflexivity.
Qed.
(** the full statement fails: for q = 2^29 + 2^15 + 1, an NTT prime below 2^31, there are a ciphertext and a plaintext of
    residues whose Barrett product does not decrypt to the product (here of degree 1: constants, secret 0) *)
Theorem C33_plain_mul_barrett_refuted :
  ~ forall L moduli sk ct m, scheme_moduli L moduli -> Forall (fun q => q < 2 ^ 31) moduli ->
      valid_sk (2 ^ L) moduli sk -> valid_ct (2 ^ L) moduli ct -> length m = (2 ^ L)%nat ->
      exists p pt ct', decrypt sk ct = Some p /\ encode_plaintext m moduli = Some pt /\
        mul_plain_barrett (Some (precompute_constants moduli)) ct pt = Some ct' /\
        decrypt sk ct' = Some (plaintext_times moduli p m).
Proof.
  intros H.
  assert (A : cpu_admissible 0 536903681).
  { split; [lia |]. split; [apply prime_check_sound; vm_compute; reflexivity |]. split; [exists 268451840; reflexivity | lia]. }
  specialize (H 0%nat [536903681] {| sk_data := [[0]]; sk_moduli := [536903681] |}
    {| ct_data := [[[536903681 - 2 ^ 15]]; [[0]]]; ct_moduli := [536903681] |} [536903681 - 2 ^ 14 - 1]).
  destruct H as (p & pt & ct' & E1 & E2 & E3 & E4).
  - split; [discriminate |]. constructor; [| constructor]. split; [exact A | lia].
  - constructor; [lia | constructor].
  - split; [reflexivity |]. constructor; [| constructor]. split; [reflexivity |]. constructor; [lia | constructor].
  - split; [reflexivity |]. eexists. eexists. split; [reflexivity |]. split; (constructor; [| constructor]; split; [reflexivity |]; constructor; [lia | constructor]).
  - reflexivity.
  - rewrite constant_decrypt in E1 by (exact A || lia). injection E1 as <-. rewrite constant_encode in E2 by (exact A || lia). injection E2 as <-.
    vm_compute in E3. injection E3 as <-. rewrite constant_decrypt in E4 by (exact A || lia). vm_compute in E4. discriminate.
Qed.
Print Assumptions C33_plain_mul_barrett_refuted.

Lemma mul64 x y : 0 <= x < 2 ^ 32 -> 0 <= y < 2 ^ 32 -> (x * y) mod 2 ^ 64 = x * y.
Proof. intros. apply Z.mod_small. nia. Qed.
(** C33, the raw product: with 64-bit data, every entry is congruent to the product of the entries; the result is correct
    after a reduction *)
Theorem C33_plain_mul_simple_wide : forall ct pt ct' i j c, ct_moduli ct = pt_moduli pt ->
  mul_plain_simple 64 ct pt = Some ct' -> (c < length (ct_data ct))%nat ->
  (i < length (nth c (ct_data ct) []))%nat -> (j < degree_of (nth c (ct_data ct) []))%nat ->
  0 <= ent (nth c (ct_data ct) []) i j < 2 ^ 32 -> 0 <= ent (pt_data pt) i j < 2 ^ 32 ->
  ct_moduli ct' = ct_moduli ct /\ ent (nth c (ct_data ct') []) i j = ent (nth c (ct_data ct) []) i j * ent (pt_data pt) i j.
Proof.
  intros ct pt ct' i j c EM E Hc Hi Hj B1 B2. unfold mul_plain_simple in E. rewrite EM, list_eqb_refl in E. cbn [negb] in E. injection E as <-.
  cbn [ct_data ct_moduli]. split; [symmetry; exact EM |]. unfold array. rewrite (nth_map_lt _ _ _ _ []) by exact Hc. unfold zip_entries. rewrite tab_ent by assumption. exact (mul64 _ _ B1 B2).
Qed.
Print Assumptions C33_plain_mul_simple_wide.

(** with the 32-bit data that encryption and encoding produce, the raw product wraps around *)
Theorem C33_plain_mul_simple_refuted :
  ~ forall L moduli ct m pt ct' i j, scheme_moduli L moduli -> Forall (fun q => q < 2 ^ 31) moduli -> valid_ct (2 ^ L) moduli ct ->
      length m = (2 ^ L)%nat -> encode_plaintext m moduli = Some pt -> mul_plain_simple 32 ct pt = Some ct' ->
      (i < length moduli)%nat -> (j < 2 ^ L)%nat ->
      ent (nth 0 (ct_data ct') []) i j == ent (nth 0 (ct_data ct) []) i j * ent (pt_data pt) i j [mod nth i moduli 0].
Proof.
  intros H.
  specialize (H 0%nat [786433] {| ct_data := [[[65537]]; [[0]]]; ct_moduli := [786433] |} [65537]
    {| pt_data := [[65537]]; pt_moduli := [786433] |} {| ct_data := [[[131073]]; [[0]]]; ct_moduli := [786433] |} 0%nat 0%nat).
  assert (C : 131073 == 65537 * 65537 [mod 786433]).
  { assert (A : cpu_admissible 0 786433).
    { split; [lia |]. split; [apply prime_check_sound; vm_compute; reflexivity |]. split; [exists 393216; reflexivity | lia]. }
    apply H.
    - split; [discriminate |]. constructor; [| constructor]. split; [exact A | lia].
    - constructor; [lia | constructor].
    - split; [reflexivity |]. eexists. eexists. split; [reflexivity |]. split; (constructor; [| constructor]; split; [reflexivity |]; constructor; [lia | constructor]).
    - reflexivity.
    - apply constant_encode; [exact A | lia | lia].
    - vm_compute. reflexivity.
    - cbn. lia.
    - cbn. lia. }
  apply eqm_mod_iff in C; [| lia]. vm_compute in C. discriminate.
Qed.
Print Assumptions C33_plain_mul_simple_refuted.

(** C33: mismatching moduli and missing constants are rejected *)
Theorem C33_rejections : forall bits A B ct pt cs,
  add_arrays (AddModularBarrett None) bits A B = None /\ mul_plain_barrett None ct pt = None /\
  (ct_moduli ct <> pt_moduli pt -> mul_plain_simple bits ct pt = None /\ mul_plain_barrett (Some cs) ct pt = None).
Proof.
  intros. split; [reflexivity |]. split; [reflexivity |]. intros H. unfold mul_plain_simple, mul_plain_barrett.
  destruct (list_eqb (ct_moduli ct) (pt_moduli pt)) eqn:E; [apply list_eqb_eq in E; contradiction | split; reflexivity].
Qed.
Print Assumptions C33_rejections.

Example C33_example_hyps : valid_ct 4 [97; 193] {| ct_data := [[[1; 2; 3; 96]; [0; 192; 7; 5]]; [[4; 5; 6; 7]; [8; 9; 10; 11]]]; ct_moduli := [97; 193] |}
  /\ valid_sk 4 [97; 193] {| sk_data := [[1; 95; 0; 1]; [5; 6; 7; 8]]; sk_moduli := [97; 193] |} /\ Forall (fun q => q < 2 ^ 31 /\ barrett_exact q) [97; 193].
Proof.
  split; [split; [reflexivity |]; eexists; eexists; split; [reflexivity |]; split; repeat constructor; lia |].
  split; [split; [reflexivity |]; repeat constructor; lia |].
  constructor; [| constructor; [| constructor]]; (split; [lia | apply C33_small_moduli_exact; lia]).
Qed.
