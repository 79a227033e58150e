(** Decoding reads the slots of the centred integer polynomial; encoding produces an integer polynomial with nearly the wanted slots. *)
From Coq Require Import Reals ZArith Znumtheory List Bool Lia Lra.
From Verif Require Import Base.Lists Base.Word Base.ZSum Base.Fermat Base.Crt Base.Cplx Base.Modeq.
From Verif Require Import Ckks.Model_rns_utils Ckks.Model_ntt_cpu Ckks.Model_encode Ckks.Model_fft Ckks.Model_scheme Ckks.Spec_fft Ckks.Spec_slots Ckks.Spec_ntt Ckks.Spec_poly.
From Verif Require Import Ckks.Prop_bitrev Ckks.Prop_crt Ckks.Proof_ntt_cpu Ckks.Prop_ntt_cpu Ckks.Proof_fft Ckks.Proof_slots Ckks.Proof_encrypt Ckks.Proof_embed Ckks.Prop_rescale Ckks.Prop_auto.
Import ListNotations.
Local Open Scope R_scope.

Lemma halves_join n (l : list R) : length l = (2 * n)%nat ->
  let a := combine (firstn n l) (skipn n l) in length a = n /\ map fst a ++ map snd a = l.
Proof.
  intros H a. assert (E : forall (x y : list R), length x = length y -> map fst (combine x y) = x /\ map snd (combine x y) = y).
  { induction x as [|x0 x IH]; intros [|y0 y] E; cbn in *; try discriminate; [split; reflexivity |]. destruct (IH y ltac:(lia)) as [-> ->]. split; reflexivity. }
  assert (L1 : length (firstn n l) = n) by (rewrite firstn_length; lia). assert (L2 : length (skipn n l) = n) by (rewrite skipn_length; lia).
  destruct (E (firstn n l) (skipn n l) ltac:(lia)) as [E1 E2]. split; [unfold a; rewrite combine_length; lia |]. unfold a. rewrite E1, E2. apply firstn_skipn.
Qed.
Lemma int_slot_halves n p j : length p = (2 * n)%nat -> int_slot p j = slot (combine (firstn n (map IZR p)) (skipn n (map IZR p))) j.
Proof. intros H. destruct (halves_join n (map IZR p)) as [_ E]; [rewrite map_length; exact H |]. rewrite <- real_slot_halves. unfold int_slot. f_equal. symmetry. exact E. Qed.

(** the coefficients of a polynomial are at most the largest of its slots *)
Lemma coeff_bound L p M : length p = (2 * 2 ^ L)%nat -> (forall j, (j < 2 ^ L)%nat -> cnorm (int_slot p j) <= M) -> Forall (fun x => Rabs (IZR x) <= M) p.
Proof.
  intros H HM. destruct (halves_join (2 ^ L) (map IZR p)) as [LA E]; [rewrite map_length; exact H |]. set (a := combine _ _) in *.
  destruct (fft_inv_fwd a L LA) as (y & EY & LY & EI). destruct (fft_special_value a L LA) as (y' & EY' & _ & VY). rewrite EY in EY'. injection EY' as <-.
  assert (B : forall j, (j < 2 ^ L)%nat -> cnorm (nth j y c0) <= M). { intros j Hj. rewrite VY by exact Hj. unfold a. rewrite <- int_slot_halves by exact H. apply HM. exact Hj. }
  pose proof (fft_inv_norm y L a M LY EI B) as N. assert (X : Forall (fun r => Rabs r <= M) (map IZR p)).
  { rewrite <- E. apply Forall_app. split; apply Forall_map, Forall_forall; intros w Hw; destruct (In_nth a w c0 Hw) as (i & Hi & <-); (eapply Rle_trans; [| apply (N i); rewrite <- LA; exact Hi]); [apply cnorm_fst | apply cnorm_snd]. }
  rewrite Forall_map in X. exact X.
Qed.
Lemma coeff_range L p M Q : length p = (2 * 2 ^ L)%nat -> (forall j, (j < 2 ^ L)%nat -> cnorm (int_slot p j) <= M) -> 2 * M < IZR Q -> Forall (fun x => (- Q < 2 * x <= Q)%Z) p.
Proof.
  intros H HM HQ. eapply Forall_impl; [| exact (coeff_bound L p M H HM)]. cbv beta. intros x Hx. pose proof (Rle_abs (IZR x)). pose proof (Rle_abs (- IZR x)) as X. rewrite Rabs_Ropp in X.
  split; [apply lt_IZR; rewrite opp_IZR, mult_IZR; lra | apply le_IZR; rewrite mult_IZR; lra].
Qed.

Lemma slot_scaled p L r j : length p = (2 * 2 ^ L)%nat -> slot (combine (firstn (2 ^ L) (map (fun c => IZR c / r) p)) (skipn (2 ^ L) (map (fun c => IZR c / r) p))) j = cscale (/ r) (int_slot p j).
Proof.
  intros H. destruct (halves_join (2 ^ L) (map (fun c => IZR c / r) p)) as [LA E]; [rewrite map_length; exact H |]. rewrite <- real_slot_halves, E. unfold int_slot, real_slot. rewrite !map_length.
  transitivity (cmul (/ r, 0) (csum (length p) (fun i => cscale (nth i (map IZR p) 0) (zeta (2 * length p) (5 ^ j * i))))); [| apply cplx_eq; cbn; ring]. rewrite <- csum_mul. apply csum_ext. intros i Hi.
  rewrite !(nth_map_lt _ _ _ _ 0%Z) by exact Hi. apply cplx_eq; cbn; unfold Rdiv; ring.
Qed.
Lemma decode_value L moduli scale k p : coprime_moduli moduli -> moduli <> [] -> length p = (2 * 2 ^ L)%nat -> Forall (fun x => (- lprod moduli < 2 * x <= lprod moduli)%Z) p ->
  exists ys, decode scale k (residue_array p moduli) moduli false = Some ys /\ length ys = Nat.min k (2 ^ L) /\ forall j, (j < Nat.min k (2 ^ L))%nat -> nth j ys c0 = cscale (/ scale) (int_slot p j).
Proof.
  intros CM NE LP HR. pose proof (pow2_pos L) as P2. assert (LD : length (nth 0 (residue_array p moduli) []) = (2 * 2 ^ L)%nat) by (destruct moduli; [contradiction NE; reflexivity |]; cbn [residue_array map nth]; rewrite map_length; exact LP).
  unfold decode. rewrite LD, half_of. change (residue_array p moduli) with (encode_residues p moduli). rewrite (C30_centred_lift moduli p CM NE HR).
  set (cs := map _ p). assert (LC : length cs = (2 * 2 ^ L)%nat) by (unfold cs; rewrite map_length; exact LP). rewrite skipn_length, LC. replace (2 * 2 ^ L - 2 ^ L)%nat with (2 ^ L)%nat by lia. rewrite Nat.eqb_refl. replace (2 * 2 ^ L * 2)%nat with (4 * 2 ^ L)%nat by lia.
  destruct (halves_join (2 ^ L) cs LC) as [LA _]. destruct (fft_special_value _ L LA) as (y & EY & LY & VY). rewrite EY. eexists. split; [reflexivity |]. split; [rewrite firstn_length; lia |].
  intros j Hj. rewrite nth_firstn_lt by lia. rewrite VY by lia. apply slot_scaled. exact LP.
Qed.

(** every polynomial has a centred representative *)
Definition lift (Q : Z) (p : list Z) : list Z := map (fun c => centre Q (c mod Q)) p.
Lemma lift_length Q p : length (lift Q p) = length p.
Proof. apply map_length. Qed.
Lemma centre_range Q c : (0 < Q)%Z -> (- Q < 2 * centre Q (c mod Q) <= Q)%Z.
Proof. intros H. pose proof (Z.mod_pos_bound c Q H). pose proof (Z.div_mod Q 2 ltac:(lia)) as D. pose proof (Z.mod_pos_bound Q 2 ltac:(lia)). unfold centre. destruct (Z.ltb_spec (Q / 2) (c mod Q)); lia. Qed.
Lemma centre_eqm Q c : (0 < Q)%Z -> (centre Q (c mod Q) == c [mod Q])%Z.
Proof. intros H. unfold centre. destruct (Q / 2 <? c mod Q)%Z. - exists (- (c / Q) - 1)%Z. pose proof (Z.div_mod c Q ltac:(lia)). lia. - apply eqm_mod. Qed.
Lemma lift_range Q p : (0 < Q)%Z -> Forall (fun x => (- Q < 2 * x <= Q)%Z) (lift Q p).
Proof. intros H. apply Forall_map, Forall_forall. intros x _. apply centre_range. exact H. Qed.
Lemma lprod_divide q moduli : In q moduli -> (q | lprod moduli)%Z.
Proof. induction moduli as [|m ms IH]; intros H; [destruct H |]. cbn [lprod fold_right]. destruct H as [-> | H]; [apply Z.divide_factor_l | apply Z.divide_mul_r, IH, H]. Qed.
Lemma residue_ext p p' moduli : length p = length p' -> Forall (fun q => (0 < q)%Z) moduli -> (forall i, (i < length p)%nat -> (co p i == co p' i [mod lprod moduli])%Z) -> residue_array p moduli = residue_array p' moduli.
Proof.
  intros HL HP H. unfold residue_array. apply map_ext_in. intros q Hq. assert (Q : (0 < q)%Z) by (rewrite Forall_forall in HP; apply HP, Hq). apply (list_ext 0%Z); rewrite ?map_length; [exact HL |].
  intros i Hi. rewrite !(nth_map_lt _ _ _ _ 0%Z) by lia. apply eqm_mod_iff; [lia |]. destruct (H i Hi) as (k & E). destruct (lprod_divide q moduli Hq) as (d & D). unfold co in E. exists (k * d)%Z. rewrite D in E. lia.
Qed.
Lemma coprime_pos moduli : coprime_moduli moduli -> Forall (fun q => (0 < q)%Z) moduli.
Proof. intros [H _]. eapply Forall_impl; [| exact H]. cbv beta. intros; lia. Qed.
Lemma lift_co Q p i : (i < length p)%nat -> co (lift Q p) i = centre Q (co p i mod Q).
Proof. intros H. unfold lift, co. rewrite (nth_map_lt _ _ _ _ 0%Z) by exact H. reflexivity. Qed.
Lemma lift_residues moduli p : coprime_moduli moduli -> residue_array (lift (lprod moduli) p) moduli = residue_array p moduli.
Proof.
  intros C. pose proof (lprod_pos _ (proj1 C)) as PP. apply residue_ext; [apply lift_length | apply coprime_pos, C |]. rewrite lift_length. intros i Hi. rewrite lift_co by exact Hi. apply centre_eqm. exact PP.
Qed.

(** encoding: an integer polynomial whose slots are the scaled input up to rounding *)
Lemma encode_value L moduli scale z : 0 < scale -> scheme_moduli (S L) moduli -> Forall (fun q => (q < 2 ^ 32)%Z) moduli -> (length z <= 2 ^ L)%nat ->
  exists columns m, encode (2 * 2 ^ L) moduli scale z = Some columns /\ encode_plaintext m moduli = Some {| pt_data := columns; pt_moduli := moduli |} /\ length m = (2 * 2 ^ L)%nat /\
    forall j, (j < 2 ^ L)%nat -> cdist (int_slot m j) (cscale scale (nth j z c0)) <= INR (2 ^ L) * sqrt (1 / 2).
Proof.
  intros Hsc HS HM LZ0. pose proof (pow2_pos L) as P2. unfold encode. rewrite half_of. set (z' := if (length z <? 2 ^ L)%nat then _ else _).
  assert (LZ : length z' = (2 ^ L)%nat) by (unfold z'; destruct (Nat.ltb_spec (length z) (2 ^ L)); [rewrite app_length, repeat_length; lia | lia]).
  assert (NZ : forall j, nth j z' c0 = nth j z c0).
  { intros j. unfold z'. destruct (Nat.ltb_spec (length z) (2 ^ L)); [| reflexivity]. destruct (Nat.lt_ge_cases j (length z)) as [Lt | Ge]; [apply app_nth1; exact Lt |]. rewrite app_nth2 by exact Ge. rewrite nth_repeat. symmetry. apply nth_overflow. exact Ge. }
  replace (2 * 2 ^ L * 2)%nat with (4 * 2 ^ L)%nat by lia. destruct (fft_fwd_inv z' L LZ) as (a & EA & LA & FA). rewrite EA.
  assert (FQ : forallb (fun q => (0 <=? q)%Z && (q <? 2 ^ 32)%Z) moduli = true).
  { apply forallb_forall. intros q Hq. rewrite Forall_forall in HM. pose proof (HM q Hq). destruct HS as [_ HS]. rewrite Forall_forall in HS. destruct (HS q Hq) as [(_ & (Q1 & _) & _) _]. apply andb_true_intro. split; [apply Z.leb_le; lia | apply Z.ltb_lt; assumption]. } rewrite FQ.
  set (rd := fun c => np_round (c * scale)). set (m := map rd (map fst a ++ map snd a)). pose proof (LA : @length (R * R) a = (2 ^ L)%nat) as LAR.
  assert (LM : length m = (2 ^ S L)%nat) by (unfold m; rewrite map_length, app_length, !map_length, Nat.pow_succ_r'; lia).
  pose proof (scheme_adm _ _ HS) as HA. destruct (ntt_residues (S L) moduli HA m LM) as (columns & E & SC). destruct (encode_ok (S L) moduli m HS LM) as (pt & EP & MP & SP).
  exists columns, m. change (encode_residues m moduli) with (residue_array m moduli). split; [exact E |]. split; [| split; [rewrite LM; apply Nat.pow_succ_r' |]].
  - rewrite EP. f_equal. destruct pt as [d ms]. cbn [pt_data pt_moduli] in *. subst ms. f_equal. exact (slots_same _ _ _ _ _ SP SC).
  - intros j Hj. rewrite <- NZ. destruct (fft_special_value a L LA) as (y2 & EY2 & _ & VY2). rewrite FA in EY2. injection EY2 as <-. rewrite VY2 by exact Hj.
    assert (LM' : length m = (2 * 2 ^ L)%nat) by (rewrite LM; apply Nat.pow_succ_r'). rewrite (int_slot_halves (2 ^ L)) by exact LM'. set (a' := combine _ _).
    assert (LA' : length a' = (2 ^ L)%nat) by (unfold a'; rewrite combine_length, firstn_length, skipn_length, map_length; lia).
    assert (SS : cscale scale (slot a j) = slot (map (cscale scale) a) j).
    { unfold slot. rewrite map_length. transitivity (cmul (scale, 0) (csum (length a) (fun i => cmul (nth i a c0) (zeta (4 * length a) (5 ^ j * i))))); [apply cplx_eq; cbn; ring |]. rewrite <- csum_mul. apply csum_ext. intros i Hi. rewrite nth_cscale. apply cplx_eq; cbn; ring. }
    rewrite SS. rewrite <- LA'. apply slot_dist; [rewrite map_length; transitivity (2 ^ L)%nat; [exact LA' | symmetry; exact LA] |].
    intros i Hi. pose proof (eq_ind _ (fun n => (i < n)%nat) Hi _ LA') as Hi'. clear Hi. rename Hi' into Hi. cbv beta in Hi. rewrite nth_cscale.
    assert (EI : @nth cplx i a' c0 = (IZR (rd (fst (nth i a c0))), IZR (rd (snd (nth i a c0))))).
    { unfold a'. change (@nth cplx) with (@nth (R * R)). change c0 with (0, 0) at 1. rewrite combine_nth by (rewrite firstn_length, skipn_length, map_length; lia). rewrite nth_firstn_lt by exact Hi. rewrite nth_skipn. rewrite !(nth_map_lt _ _ _ _ 0%Z) by lia. unfold m. rewrite !(nth_map_lt _ _ _ _ 0) by (rewrite app_length, !map_length; lia).
      rewrite app_nth1 by (rewrite map_length; lia). rewrite app_nth2 by (rewrite map_length; lia). rewrite map_length, LAR. replace (2 ^ L + i - 2 ^ L)%nat with i by lia. rewrite !(nth_map_lt _ _ _ _ c0) by lia. reflexivity. }
    rewrite EI. unfold cdist, cnorm, csub, cscale. cbn [fst snd]. apply sqrt_le_1_alt.
    assert (X : forall c, (IZR (rd c) - scale * c) * (IZR (rd c) - scale * c) <= 1 / 4).
    { intros c. unfold rd. pose proof (np_round_near (c * scale)) as N. rewrite (Rmult_comm scale c). set (e := IZR _ - _) in *. pose proof (Rle_abs e). pose proof (Rle_abs (- e)) as X. rewrite Rabs_Ropp in X. nra. }
    pose proof (X (fst (nth i a c0))). pose proof (X (snd (nth i a c0))). lra.
Qed.
