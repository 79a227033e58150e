(** C42: the column keys, and blind rotation by the column method from key generation to decryption. *)
From Coq Require Import Reals ZArith Znumtheory List Bool Lia Lra.
From Verif Require Import Base.Lists Base.Word Base.ZSum Base.Fermat Base.Crt Base.Cplx Base.Modeq Base.Nega.
From Verif Require Import Ckks.Model_rns_utils Ckks.Model_barrett Ckks.Model_ntt_cpu Ckks.Model_encode Ckks.Model_fft Ckks.Model_scheme Ckks.Model_addmul Ckks.Model_keyswitch Ckks.Model_blindrot Ckks.Model_cmkeys.
From Verif Require Import Ckks.Spec_fft Ckks.Spec_ntt Ckks.Spec_poly Ckks.Spec_barrett Ckks.Spec_keyswitch Ckks.Spec_blindrot.
From Verif Require Import Ckks.Proof_ntt_cpu Ckks.Proof_transform Ckks.Prop_crt Ckks.Prop_barrett Ckks.Prop_ntt_cpu Ckks.Proof_fft Ckks.Proof_slots Ckks.Prop_ntt_accel Ckks.Proof_encrypt Ckks.Prop_encrypt Ckks.Prop_addmul Ckks.Prop_rescale Ckks.Prop_auto Ckks.Proof_keyswitch Ckks.Proof_moddown Ckks.Proof_ksk Ckks.Prop_keyswitch Ckks.Proof_mul Ckks.Prop_fft Ckks.Proof_embed Ckks.Proof_embed2 Ckks.Prop_slots Ckks.Proof_blindrot Ckks.Prop_column.
Import ListNotations.
Local Open Scope Z_scope.

(** *** Encoding a constant vector gives a constant polynomial *)
Lemma constant_slots L x y : fft_special ((x, 0%R) :: repeat c0 (2 ^ L - 1)) (4 * 2 ^ L) = Some y -> y = repeat (x, 0%R) (2 ^ L).
Proof.
  intros E. pose proof (pow2_pos L) as P. pose (a := (x, 0%R) :: repeat c0 (2 ^ L - 1) : list cplx). change (fft_special a (4 * 2 ^ L) = Some y) in E. assert (LA : length a = (2 ^ L)%nat) by (unfold a; cbn [length]; rewrite repeat_length; lia).
  destruct (fft_special_value a L LA) as (y' & E' & LY & V). rewrite E in E'. injection E' as <-. apply (list_ext c0); [rewrite repeat_length; exact LY |]. intros j Hj. rewrite LY in Hj. rewrite V by exact Hj. rewrite nth_repeat_lt' by exact Hj.
  unfold slot. rewrite LA. replace (2 ^ L)%nat with (1 + (2 ^ L - 1))%nat at 1 by lia. rewrite csum_split. cbn [csum]. unfold a at 1. cbn [nth]. rewrite Nat.mul_0_r, zeta_0.
  assert (Z0 : csum (2 ^ L - 1) (fun i => cmul (nth (1 + i) a c0) (zeta (4 * 2 ^ L) (5 ^ j * (1 + i)))) = c0).
  { clear. set (k := (2 ^ L - 1)%nat) in *. set (w := fun i => zeta (4 * 2 ^ L) (5 ^ j * (1 + i))). change (csum k (fun i => cmul (nth (1 + i) a c0) (w i)) = c0).
    transitivity (csum k (fun i => cmul c0 (w i))); [apply csum_ext; intros i Hi; f_equal; unfold a; cbn [nth plus]; apply nth_repeat_lt'; exact Hi |]. rewrite csum_mul. apply cplx_eq; cbn; ring. }
  rewrite Z0. apply cplx_eq; cbn; ring.
Qed.
Lemma encode_constant L moduli scale x : scheme_moduli (S L) moduli -> Forall (fun q => q < 2 ^ 32) moduli ->
  exists columns, encode (2 * 2 ^ L) moduli scale (repeat (x, 0%R) (2 ^ L)) = Some columns /\
    encode_plaintext (poly_const (2 * 2 ^ L) (np_round (x * scale))) moduli = Some {| pt_data := columns; pt_moduli := moduli |}.
Proof.
  intros HS HM. pose proof (pow2_pos L) as P. pose (a := (x, 0%R) :: repeat c0 (2 ^ L - 1) : list cplx). assert (LA : length a = (2 ^ L)%nat) by (unfold a; cbn [length]; rewrite repeat_length; lia).
  destruct (fft_inv_fwd a L LA) as (y & E & LY & I). apply constant_slots in E. subst y.
  unfold encode. rewrite half_of, repeat_length, Nat.ltb_irrefl. replace (2 * 2 ^ L * 2)%nat with (4 * 2 ^ L)%nat by lia. rewrite I.
  assert (FQ : forallb (fun q => (0 <=? q)%Z && (q <? 2 ^ 32)%Z) moduli = true).
  { apply forallb_forall. intros q Hq. rewrite Forall_forall in HM. pose proof (HM q Hq). destruct HS as [_ HS]. rewrite Forall_forall in HS. destruct (HS q Hq) as [(_ & (Q1 & _) & _) _]. apply andb_true_intro. split; [apply Z.leb_le; lia | apply Z.ltb_lt; assumption]. } rewrite FQ.
  assert (R0 : np_round (0 * scale)%R = 0) by (rewrite Rmult_0_l; apply (np_round_IZR 0)).
  assert (EM : map (fun c : R => np_round (c * scale)) (map fst a ++ map snd a) = poly_const (2 * 2 ^ L) (np_round (x * scale))).
  { apply (list_ext 0); [rewrite map_length, app_length, !map_length, poly_const_length; rewrite (LA : @length (R * R) a = _); lia |]. intros i Hi. rewrite map_length, app_length, !map_length, (LA : @length (R * R) a = _) in Hi.
    rewrite (nth_map_lt _ _ _ _ 0%R) by (rewrite app_length, !map_length, (LA : @length (R * R) a = _); lia). unfold poly_const. rewrite nth_map_seq by lia.
    destruct i as [|i]; [reflexivity |]. cbn [Nat.eqb].
    assert (EN : nth (S i) (map fst a ++ map snd a) 0%R = 0%R); [| rewrite EN; exact R0]. unfold a. cbn [map fst snd app nth]. clear. set (k := (2 ^ L - 1)%nat). revert i. 
    assert (Z1 : forall k', Forall (fun v => v = 0%R) (map fst (repeat c0 k') ++ 0%R :: map snd (repeat c0 k'))).
    { intros k'. apply Forall_app. split; [| constructor; [reflexivity |]]; apply Forall_map, Forall_forall; intros v Hv; apply repeat_spec in Hv; subst v; reflexivity. }
    intros i. destruct (Nat.lt_ge_cases i (length (map fst (repeat c0 k) ++ 0%R :: map snd (repeat c0 k)))) as [Lt | Ge]; [| apply nth_overflow; exact Ge]. specialize (Z1 k). rewrite Forall_forall in Z1. apply Z1, nth_In. exact Lt. }
  rewrite EM. set (m := poly_const _ _) in *. assert (LM : length m = (2 ^ S L)%nat) by (unfold m; rewrite poly_const_length, Nat.pow_succ_r'; reflexivity).
  pose proof (scheme_adm _ _ HS) as HA. destruct (ntt_residues (S L) moduli HA m LM) as (columns & E & SC). destruct (encode_ok (S L) moduli m HS LM) as (pt & EP & MP & SP).
  exists columns. change (encode_residues m moduli) with (residue_array m moduli). split; [exact E |].
  rewrite EP. f_equal. destruct pt as [d ms]. cbn [pt_data pt_moduli] in *. subst ms. f_equal. exact (slots_same _ _ _ _ _ SP SC).
Qed.

Lemma sequence_opt_tab {X} (f : nat -> option X) (P : nat -> X -> Prop) n : (forall i, (i < n)%nat -> exists x, f i = Some x /\ P i x) ->
  exists l, sequence_opt (map f (seq 0 n)) = Some l /\ length l = n /\ forall i x0, (i < n)%nat -> P i (nth i l x0).
Proof.
  intros H. assert (G : forall k b, (b + k <= n)%nat -> exists l, sequence_opt (map f (seq b k)) = Some l /\ length l = k /\ forall i x0, (i < k)%nat -> P (b + i)%nat (nth i l x0)).
  { induction k as [|k IH]; intros b Hb; [exists []; split; [reflexivity |]; split; [reflexivity |]; intros; lia |].
    destruct (H b ltac:(lia)) as (x & Ex & Px). destruct (IH (S b) ltac:(lia)) as (l & El & Ll & Pl). exists (x :: l). cbn [seq map sequence_opt]. rewrite Ex, El. split; [reflexivity |]. split; [cbn; lia |].
    intros [|i] x0 Hi; cbn [nth]; [rewrite Nat.add_0_r; exact Px |]. replace (b + S i)%nat with (S b + i)%nat by lia. apply Pl. lia. }
  destruct (G n 0%nat ltac:(lia)) as (l & El & Ll & Pl). exists l. split; [exact El |]. split; [exact Ll |]. intros i x0 Hi. exact (Pl i x0 Hi).
Qed.
Lemma Forall2_tab {X Y} (R : X -> Y -> Prop) l (g : nat -> Y) x0 : (forall i, (i < length l)%nat -> R (nth i l x0) (g i)) -> Forall2 R l (map g (seq 0 (length l))).
Proof.
  intros H. assert (G : forall l b, (forall i, (i < length l)%nat -> R (nth i l x0) (g (b + i)%nat)) -> Forall2 R l (map g (seq b (length l)))).
  { clear l H. induction l as [|x l IH]; intros b H; cbn [length seq map]; constructor; [specialize (H 0%nat ltac:(cbn; lia)); cbn [nth] in H; rewrite Nat.add_0_r in H; exact H |].
    apply IH. intros i Hi. specialize (H (S i) ltac:(cbn; lia)). cbn [nth] in H. replace (b + S i)%nat with (S b + i)%nat in H by lia. exact H. }
  apply (G l 0%nat). exact H.
Qed.

(** C42: gen_cm_keys encrypts the identity matrix at the given scale: under a fresh key pair, key (i, j) is a valid ciphertext
    that decrypts to the rounded scale if i = j and to 0 otherwise, plus the fresh noise of its own draws.  The values of
    [indices] play no part. *)
Theorem C42_cm_keys : forall L moduli s a e scale indices (v e0 e1 : nat -> nat -> list Z),
  let n := (2 ^ S L)%nat in
  scheme_moduli (S L) moduli -> Forall (fun q => q < 2 ^ 32) moduli -> uniform_sample n moduli a -> length s = n -> length e = n ->
  (forall i j, length (v i j) = n /\ length (e0 i j) = n /\ length (e1 i j) = n) ->
  exists pk sk keys, keygen moduli (residue_array s moduli) a (residue_array e moduli) = Some (pk, sk) /\
    gen_cm_keys indices pk scale (fun i j => (residue_array (v i j) moduli, residue_array (e0 i j) moduli, residue_array (e1 i j) moduli)) = Some keys /\
    sk_moduli sk = moduli /\ evaluation_form moduli s (sk_data sk) /\
    length keys = length indices /\ forall i, (i < length indices)%nat -> length (nth i keys []) = length indices /\ forall j, (j < length indices)%nat ->
      column_key n moduli sk (nth j (nth i keys []) no_ct) (poly_add (poly_const n (if (i =? j)%nat then np_round scale else 0)) (fresh_noise s e (v i j) (e0 i j) (e1 i j))).
Proof.
  intros L moduli s a e scale indices v e0 e1 n HS HM Ha Ls Le HD. subst n.
  destruct (keygen_ok (S L) moduli HS s a e Ls Ha Le) as (pk & sk & EK & MP & MS & S1 & SS & S0).
  assert (LM : (1 <= length moduli)%nat) by (destruct HS as [N _]; destruct moduli; [contradiction | cbn; lia]).
  assert (EF : firstn (length moduli) moduli = moduli) by apply firstn_all.
  assert (DEG : degree_of (pk0 pk) = (2 * 2 ^ L)%nat) by (rewrite (deg_slots (S L) moduli _ _ LM S0); apply Nat.pow_succ_r').
  destruct (encode_constant L moduli scale 0%R HS HM) as (z & Ez & Pz). destruct (encode_constant L moduli scale 1%R HS HM) as (o & Eo & Po).
  rewrite Rmult_0_l in Pz. change 0%R with (IZR 0) in Pz at 1. rewrite np_round_IZR in Pz. rewrite Rmult_1_l in Po.
  set (P := fun i j ct => column_key (2 ^ S L) moduli sk ct (poly_add (poly_const (2 ^ S L) (if (i =? j)%nat then np_round scale else 0)) (fresh_noise s e (v i j) (e0 i j) (e1 i j)))).
  set (enc := fun i j => encrypt pk {| pt_data := if (i =? j)%nat then o else z; pt_moduli := moduli |} (residue_array (v i j) moduli) (residue_array (e0 i j) moduli) (residue_array (e1 i j) moduli)).
  assert (HE : forall i j, exists ct, enc i j = Some ct /\ P i j ct).
  { intros i j. destruct (HD i j) as (Lv & L0 & L1). set (m := poly_const (2 ^ S L) (if (i =? j)%nat then np_round scale else 0)). assert (Lm : length m = (2 ^ S L)%nat) by apply poly_const_length.
    assert (HF : Forall (fun p => length p = (2 ^ S L)%nat) [s; e; m; v i j; e0 i j; e1 i j]) by (repeat constructor; assumption).
    destruct (C32_decrypt_encrypt (S L) moduli (length moduli) s a e m (v i j) (e0 i j) (e1 i j) HS ltac:(lia) Ha HF) as (pk' & sk' & pt & ct & K1 & K2 & K3 & K4 & K5). rewrite EF in *.
    rewrite EK in K1. injection K1 as <- <-.
    assert (EP : pt = {| pt_data := if (i =? j)%nat then o else z; pt_moduli := moduli |}).
    { replace (2 * 2 ^ L)%nat with (2 ^ S L)%nat in Pz, Po by apply Nat.pow_succ_r'. unfold m in K2. destruct (i =? j)%nat; [rewrite Po in K2 | rewrite Pz in K2]; injection K2 as <-; reflexivity. }
    exists ct. split; [unfold enc; rewrite <- EP; exact K3 |]. unfold P, column_key. fold m. 
    destruct (fresh_valid (S L) moduli (length moduli) s a e m (v i j) (e0 i j) (e1 i j) pk sk pt ct HS ltac:(lia) Ha HF) as (_ & _ & V); rewrite ?EF; try assumption. rewrite EF in V.
    split; [exact V |]. split; [rewrite poly_add_length; exact Lm | exact K5]. }
  destruct (sequence_opt_tab (fun i => sequence_opt (map (fun j => enc i j) (seq 0 (length indices)))) (fun i row => length row = length indices /\ forall j x0, (j < length indices)%nat -> P i j (nth j row x0)) (length indices)) as (keys & EKs & LK & HKs).
  { intros i Hi. destruct (sequence_opt_tab (fun j => enc i j) (P i) (length indices) (fun j _ => HE i j)) as (row & Er & Lr & Hr). exists row. split; [exact Er |]. split; assumption. }
  exists pk, sk, keys. split; [exact EK |]. split.
  { unfold gen_cm_keys. rewrite DEG, half_of, MP. rewrite (Ez : encode (2 * 2 ^ L) moduli scale (repeat c0 (2 ^ L)) = Some z), (Eo : encode (2 * 2 ^ L) moduli scale (repeat c1 (2 ^ L)) = Some o). exact EKs. }
  split; [exact MS |]. split; [apply (evaluation_slots (S L) moduli s _ (scheme_adm _ _ HS) Ls); exact SS |]. split; [exact LK |].
  intros i Hi. destruct (HKs i [] Hi) as [Lr Hr]. split; [exact Lr |]. intros j Hj. exact (Hr j no_ct Hj).
Qed.
Print Assumptions C42_cm_keys.

(** C42, the column method from key generation to decryption.  Keys are generated on q and p, row [sel] of the key matrix is
    given to brot_cm together with as many plaintexts as there are rows, and the result is decrypted.  It is the rounded scale
    over P times the sel-th plaintext, up to the stated error in every coefficient. *)
Theorem C42_column_method_partial : forall lr lc q p s a e scale indices (v e0 e1 : nat -> nat -> list Z) ts sel B Bt,
  let n := (2 ^ (lr + lc))%nat in
  (1 <= lr + lc)%nat -> switch_setting lr lc q p 1 -> ForallOrdPairs (fun q later => later <= 2 * q + 1) (q ++ p) -> Forall (fun m => Z.of_nat (length indices) <= m) (q ++ p) ->
  uniform_sample n (q ++ p) a -> length s = n -> poly_bound 1 s -> length e = n -> poly_bound B e ->
  (forall i j, (length (v i j) = n /\ poly_bound 1 (v i j)) /\ (length (e0 i j) = n /\ poly_bound B (e0 i j)) /\ (length (e1 i j) = n /\ poly_bound B (e1 i j))) ->
  (sel < length indices)%nat -> length ts = length indices -> Forall (fun t => length t = n /\ poly_bound Bt t) ts ->
  exists pk sk keys K pts ct' y,
    keygen (q ++ p) (residue_array s (q ++ p)) a (residue_array e (q ++ p)) = Some (pk, sk) /\
    gen_cm_keys indices pk scale (fun i j => (residue_array (v i j) (q ++ p), residue_array (e0 i j) (q ++ p), residue_array (e1 i j) (q ++ p))) = Some keys /\
    blind_rotation_precompute q p 1 (2 ^ lr) (2 ^ lc) (length p) = Some K /\
    sequence_opt (map (fun t => encode_plaintext t (q ++ p)) ts) = Some pts /\
    brot_cm K (nth sel keys []) pts = Some ct' /\
    decrypt sk ct' = Some {| pt_data := residue_array y q; pt_moduli := q |} /\ length y = n /\
    forall j, (j < n)%nat -> Z.abs (lprod p * co y j - np_round scale * co (nth sel ts []) j) <= Z.of_nat (length indices) * (Z.of_nat n * (Bt * ((2 * Z.of_nat n + 1) * B))) + (lprod p - 1) * (1 + Z.of_nat n).
Proof.
  intros lr lc q p s a e scale indices v e0 e1 ts sel B Bt n H1 HS HR HN Ha Ls Bs Le Be HD Hsel LT FT. destruct (lr + lc)%nat as [|L'] eqn:EL; [lia |]. 
  destruct (core_q_moduli lr lc q p 1 HS) as [_ HQP]. rewrite EL in HQP.
  assert (HM32 : Forall (fun m => m < 2 ^ 32) (q ++ p)).
  { pose proof HS as (_ & _ & _ & _ & HM & _). eapply Forall_impl; [| exact HM]. cbv beta. intros m Hm. destruct (accel_admissible lr lc m Hm) as (_ & R & _). lia. }
  destruct (C42_cm_keys L' (q ++ p) s a e scale indices v e0 e1 HQP HM32 Ha Ls Le) as (pk & sk & keys & EK & EG & MS & ES & LK & HK).
  { intros i j. destruct (HD i j) as ((? & _) & (? & _) & (? & _)). auto. }
  destruct (HK sel Hsel) as (LR & HC). clear HK. set (row := nth sel keys []) in *.
  assert (PT : exists pts, sequence_opt (map (fun t => encode_plaintext t (q ++ p)) ts) = Some pts /\ Forall2 (plain_poly n (q ++ p)) pts ts).
  { clear - FT HQP. induction FT as [|t ts [Lt Bt'] _ (pts & E & F)]; [exists []; split; [reflexivity | constructor] |]. destruct (encode_ok (S L') (q ++ p) t HQP Lt) as (pt & EP & MP & SP). exists (pt :: pts). cbn [map sequence_opt]. rewrite EP, E. split; [reflexivity |]. constructor; [| exact F].
    split; [exact MP |]. split; [exact Lt |]. apply (evaluation_slots (S L') _ _ _ (scheme_adm _ _ HQP) Lt). exact SP. }
  destruct PT as (pts & EPT & FP). assert (LPT : length pts = length ts) by (clear - FP; induction FP; cbn; congruence).
  set (es := map (fun j => fresh_noise s e (v sel j) (e0 sel j) (e1 sel j)) (seq 0 (length indices))).
  destruct (C42_column_selects_partial lr lc q p sk s 1 row pts es ts sel (np_round scale) ((2 * Z.of_nat n + 1) * B) Bt) as (K & ct' & y & EK2 & EB & ED & Ly & HB); rewrite ?EL, ?LR; try assumption; try lia.
  - unfold es. rewrite map_length, seq_length. reflexivity.
  - unfold es. apply Forall_map, Forall_forall. intros j _. destruct (HD sel j) as ((Lv & Bv) & (L0 & B0) & (L1 & B1)). split; [unfold fresh_noise; rewrite !poly_add_length, poly_mul_length; exact Lv |]. apply C32_noise_bound; try assumption. repeat constructor; assumption.
  - rewrite <- LR. apply (Forall2_tab _ _ _ no_ct). intros j Hj. rewrite LR in Hj. unfold es. rewrite nth_map_seq by exact Hj. rewrite Nat.eqb_sym. apply HC. exact Hj.
  - eapply Forall_impl; [| exact FT]. intros t [_ X]. exact X.
  - exists pk, sk, keys, K, pts, ct', y. rewrite EL in Ly, HB. rewrite LR in HB. split; [exact EK |]. split; [exact EG |]. split; [exact EK2 |]. split; [exact EPT |]. split; [exact EB |]. split; [exact ED |]. split; [exact Ly |].
    intros j Hj. specialize (HB j Hj). rewrite Z.mul_1_r in HB. exact HB.
Qed.
Print Assumptions C42_column_method_partial.

(** a concrete case: degree two, two rows, scale P = 2081, so the selected plaintext comes back within (2000 + 6240)/2081 *)
Example C42_column_method_example : exists pk sk keys K pts ct' y,
  keygen col_qp (residue_array [1; 1] col_qp) [[5000; 77]; [1; 2000]; [3; 2080]] (residue_array [1; -1] col_qp) = Some (pk, sk) /\
  gen_cm_keys [4; 9] pk (IZR 2081) (fun i j => (residue_array [1; -1] col_qp, residue_array [0; 1] col_qp, residue_array [1; 1] col_qp)) = Some keys /\
  blind_rotation_precompute ex_q ex_p 1 1 2 1 = Some K /\ sequence_opt (map (fun t => encode_plaintext t col_qp) [[100; 7]; [3; -20]]) = Some pts /\
  brot_cm K (nth 1 keys []) pts = Some ct' /\ decrypt sk ct' = Some {| pt_data := residue_array y ex_q; pt_moduli := ex_q |} /\ Z.abs (co y 0 - 3) <= 3 /\ Z.abs (co y 1 - - 20) <= 3.
Proof.
  destruct C42_column_example_setting as (X1 & X2 & X3).
  destruct (C42_column_method_partial 0 1 ex_q ex_p [1; 1] [[5000; 77]; [1; 2000]; [3; 2080]] [1; -1] (IZR 2081) [4; 9] (fun _ _ => [1; -1]) (fun _ _ => [0; 1]) (fun _ _ => [1; 1]) [[100; 7]; [3; -20]] 1 1 100) as (pk & sk & keys & K & pts & ct' & y & E1 & E2 & E3 & E4 & E5 & E6 & E7 & E8); try assumption; try reflexivity; try (cbn; lia).
  - repeat (constructor; [split; [reflexivity |]; repeat (constructor; [lia |]); constructor |]). constructor.
  - repeat (constructor; [lia |]). constructor.
  - repeat (constructor; [lia |]). constructor.
  - intros i j. repeat split; repeat (constructor; [lia |]); constructor.
  - repeat (constructor; [split; [reflexivity |]; repeat (constructor; [lia |]); constructor |]). constructor.
  - exists pk, sk, keys, K, pts, ct', y. split; [exact E1 |]. split; [exact E2 |]. split; [exact E3 |]. split; [exact E4 |]. split; [exact E5 |]. split; [exact E6 |].
    rewrite np_round_IZR in E8. change (lprod ex_p) with 2081 in E8. pose proof (E8 0%nat ltac:(cbn; lia)) as H0. pose proof (E8 1%nat ltac:(cbn; lia)) as H1.
    change (co (nth 1 [[100; 7]; [3; -20]] []) 0) with 3 in H0. change (co (nth 1 [[100; 7]; [3; -20]] []) 1) with (-20) in H1. cbn [length] in H0, H1. change (Z.of_nat (2 ^ (0 + 1))) with 2 in H0, H1. change (Z.of_nat 2) with 2 in H0, H1. lia.
Qed.
