(** C55: the signed digits chosen for a scalar represent it, exactly when they are accepted; C54 for the signed bucket method. *)
From Coq Require Import ZArith List Bool Lia Psatz.
From Verif Require Import Base.Word Base.Lists Ec.Model_pippenger Ec.Spec_pippenger Ec.Proof_pippenger Ec.Prop_pippenger.
Import ListNotations.
Local Open Scope Z_scope.

(** ** specification: a bucket index and a sign stand for a signed digit *)
Definition signed_digit (x : Z * Z) : Z := if snd x =? 1 then - (fst x + 1) else fst x + 1.
(** sum of 2^(c w) d_w *)
Fixpoint weighted (c : Z) (ds : list Z) : Z := match ds with [] => 0 | e :: r => e + 2 ^ c * weighted c r end.
(** the digits a selection may contain: a bucket 0 .. half - 1, or -1 for the digit zero *)
Definition digit_ok (c : Z) (x : Z * Z) : Prop := (snd x = 0 \/ snd x = 1) /\ -1 <= fst x < 2 ^ (c - 1).

Lemma pow_half c : 0 < c -> 2 ^ c = 2 * 2 ^ (c - 1) /\ 0 < 2 ^ (c - 1).
Proof. intros H. split; [rewrite <- Z.pow_succ_r by lia; f_equal; lia | apply Z.pow_pos_nonneg; lia]. Qed.
Lemma windows_spec c s : 0 < c -> forall ws carry l last, (carry = 0 \/ carry = 1) -> signed_windows c s ws carry = (l, last) ->
  length l = length ws /\ Forall (digit_ok c) l /\ (last = 0 \/ last = 1) /\
  weighted c (map signed_digit l) + last * 2 ^ (c * Z.of_nat (length ws)) = weighted c (map (slice_digit c s) ws) + carry /\
  last = (weighted c (map (slice_digit c s) ws) + weighted c (repeat (2 ^ (c - 1)) (length ws)) + carry) / 2 ^ (c * Z.of_nat (length ws)).
Proof.
  intros Hc. destruct (pow_half c Hc) as [E2 Hh]. set (h := 2 ^ (c - 1)) in *. induction ws as [| w ws IH]; intros carry l last K E.
  - cbn in E. injection E as <- <-. cbn [length map weighted repeat]. rewrite Z.mul_0_r, Z.pow_0_r. repeat split; auto; try lia. rewrite Z.div_1_r. lia.
  - cbn [signed_windows] in E. pose proof (slice_digit_range c s w Hc) as R. set (v := slice_digit c s w) in *. fold h in E.
    set (k' := if h <=? v + carry then 1 else 0). assert (K' : k' = 0 \/ k' = 1) by (unfold k'; destruct (h <=? v + carry); auto).
    set (m := if h <=? v + carry then 2 ^ c - (v + carry) else v + carry).
    destruct (signed_windows c s ws k') as [r lst] eqn:Er.
    assert (E' : l = (m - 1, k') :: r /\ last = lst). { unfold k', m in *. destruct (h <=? v + carry); rewrite Er in E; injection E as <- <-; [rewrite Z.abs_neq by lia |]; split; try reflexivity. do 2 f_equal. lia. }
    destruct E' as [-> ->]. destruct (IH _ _ _ K' Er) as (I1 & I2 & I3 & I4 & I5). cbn [length map weighted repeat].
    assert (Hm : 0 <= m <= h /\ signed_digit (m - 1, k') = v + carry - k' * 2 ^ c). { unfold signed_digit, m, k'. cbn [fst snd]. destruct (Z.leb_spec h (v + carry)); [change (1 =? 1) with true | change (0 =? 1) with false]; cbv iota; lia. }
    assert (P : 2 ^ (c * Z.of_nat (S (length ws))) = 2 ^ c * 2 ^ (c * Z.of_nat (length ws))) by (rewrite <- Z.pow_add_r by lia; f_equal; lia).
    assert (P0 : 0 < 2 ^ (c * Z.of_nat (length ws))) by (apply Z.pow_pos_nonneg; lia).
    split; [rewrite I1; reflexivity |]. split; [constructor; [split; [exact K' | cbn [fst]; fold h; lia] | exact I2] |]. split; [exact I3 |]. rewrite P. destruct Hm as [Hm ->]. split; [nia |].
    rewrite <- Z.div_div by lia. rewrite I5. f_equal. fold v h.
    replace (v + 2 ^ c * weighted c (map (slice_digit c s) ws) + (h + 2 ^ c * weighted c (repeat h (length ws))) + carry) with (v + carry + h + (weighted c (map (slice_digit c s) ws) + weighted c (repeat h (length ws))) * 2 ^ c) by ring. rewrite Z.div_add by lia.
    assert (Q : (v + carry + h) / 2 ^ c = k'). { unfold k'. destruct (Z.leb_spec h (v + carry)); [symmetry; apply (Z.div_unique _ _ _ (v + carry - h)); lia | apply Z.div_small; lia]. } rewrite Q. unfold h. lia.
Qed.
Lemma weighted_evaluate c ds : weighted c ds = evaluate c ds. Proof. induction ds as [| e ds IH]; [reflexivity |]. cbn [weighted evaluate]. rewrite IH. reflexivity. Qed.
Lemma weighted_digits c s : 0 < c -> weighted c (map (slice_digit c s) (seq 0 (window_num c))) = s mod 2 ^ (c * Z.of_nat (window_num c)).
Proof. intros H. rewrite weighted_evaluate. apply evaluate_digits. exact H. Qed.
Lemma weighted_halves c n : 0 < c -> (2 ^ c - 1) * weighted c (repeat (2 ^ (c - 1)) n) = 2 ^ (c - 1) * (2 ^ (c * Z.of_nat n) - 1).
Proof.
  intros H. induction n as [| n IH]; [change (Z.of_nat 0) with 0; rewrite (Z.mul_0_r c), Z.pow_0_r; cbn [repeat weighted]; lia |]. cbn [repeat weighted]. replace (c * Z.of_nat (S n)) with (c + c * Z.of_nat n) by lia. rewrite Z.pow_add_r by lia. transitivity ((2 ^ c - 1) * 2 ^ (c - 1) + 2 ^ c * ((2 ^ c - 1) * weighted c (repeat (2 ^ (c - 1)) n))); [ring | rewrite IH; ring].
Qed.

(** the digits of an accepted scalar, for every integer and slice length *)
Theorem C55_digits : forall c s l, 0 < c -> ba_selection_with_sign c s = Some l ->
  length l = window_num c /\ Forall (digit_ok c) l /\ weighted c (map signed_digit l) = s mod 2 ^ (c * Z.of_nat (window_num c)).
Proof.
  intros c s l Hc E. unfold ba_selection_with_sign in E. destruct (signed_windows c s (seq 0 (window_num c)) 0) as [l0 last] eqn:Ew. destruct (windows_spec c s Hc _ _ _ _ (or_introl eq_refl) Ew) as (I1 & I2 & _ & I4 & _). destruct (Z.eqb_spec last 0) as [-> | N]; [| discriminate]. injection E as <-. rewrite seq_length in *. rewrite weighted_digits in I4 by exact Hc. repeat split; [exact I1 | exact I2 | lia].
Qed.
(** exactly the scalars accepted: those that stay below the top after adding half a digit in every window *)
Theorem C55_accepted_iff : forall c s, 0 < c -> let M := 2 ^ (c * Z.of_nat (window_num c)) in
  (ba_selection_with_sign c s <> None <-> (2 ^ c - 1) * (s mod M) + 2 ^ (c - 1) * (M - 1) < (2 ^ c - 1) * M).
Proof.
  intros c s Hc M. unfold ba_selection_with_sign. destruct (signed_windows c s (seq 0 (window_num c)) 0) as [l last] eqn:Ew. destruct (windows_spec c s Hc _ _ _ _ (or_introl eq_refl) Ew) as (_ & _ & _ & _ & I5). rewrite seq_length, weighted_digits in I5 by exact Hc. fold M in I5. pose proof (weighted_halves c (window_num c) Hc) as T. fold M in T. set (H := weighted c (repeat (2 ^ (c - 1)) (window_num c))) in *. rewrite <- T.
  destruct (pow_half c Hc) as [E2 Hh]. assert (M0 : 0 < M) by (apply Z.pow_pos_nonneg; lia). pose proof (Z.mod_pos_bound s M M0) as Rs. assert (0 <= H) by nia.
  destruct (Z.eqb_spec last 0) as [-> | N].
  - split; [intros _ | congruence]. symmetry in I5. apply Z.div_small_iff in I5; [| lia]. nia.
  - split; [congruence |]. intros L. exfalso. apply N. rewrite I5. apply Z.div_small. nia.
Qed.
(** with at least two bits per slice every scalar of the curve's scalar field is accepted and represented exactly *)
Definition bls12_377_r : Z := 0x12ab655e9a2ca55660b44d1e5c37b00159aa76fed00000010a11800000000001.
Theorem C55_scalar_field : forall c s, 2 <= c -> 0 <= s < bls12_377_r -> exists l, ba_selection_with_sign c s = Some l /\ length l = window_num c /\ Forall (digit_ok c) l /\ weighted c (map signed_digit l) = s.
Proof.
  intros c s Hc Hs. assert (Hc0 : 0 < c) by lia. pose proof (window_num_spec c Hc0) as HW. set (M := 2 ^ (c * Z.of_nat (window_num c))) in *. assert (HM : 2 ^ 254 <= M) by (apply Z.pow_le_mono_r; lia). assert (H3 : 3 * bls12_377_r <= 2 ^ 254) by (vm_compute; discriminate). assert (Hs' : 3 * s < M) by lia. clear H3. assert (Em : s mod M = s) by (apply Z.mod_small; lia).
  pose proof (C55_accepted_iff c s Hc0) as A. cbv zeta in A. fold M in A. rewrite Em in A. destruct (pow_half c Hc0) as [E2 Hh]. assert (2 <= 2 ^ (c - 1)) by (change 2 with (2 ^ 1) at 1; apply Z.pow_le_mono_r; lia).
  assert (L : (2 ^ c - 1) * s + 2 ^ (c - 1) * (M - 1) < (2 ^ c - 1) * M). { rewrite E2. set (h := 2 ^ (c - 1)) in *. clearbody h M. clear - Hs Hs' H. enough (0 < (2 * h - 1) * (M - s) - h * (M - 1)) by lia. nia. }
  apply A in L. destruct (ba_selection_with_sign c s) as [l |] eqn:E; [| congruence]. exists l. destruct (C55_digits c s l Hc0 E) as (I1 & I2 & I3). fold M in I3. rewrite Em in I3. auto.
Qed.
(** FINDING: "below half the range of the windows" is not enough: 2^253 - 1 is rejected with two-bit slices *)
Theorem C55_half_range_refuted : exists c s, 2 <= c /\ 0 <= s < 2 ^ (c * Z.of_nat (window_num c) - 1) /\ ba_selection_with_sign c s = None.
Proof.
  exists 2, (2 ^ 253 - 1). split; [lia |]. split; [vm_compute; split; [discriminate | reflexivity] |]. vm_compute. reflexivity.
Qed.
(** FINDING: slice_length = 1 rejects every scalar except multiples of the range *)
Theorem C55_one_bit_refuted : forall s, 0 < s < 2 ^ 254 -> ba_selection_with_sign 1 s = None.
Proof.
  intros s Hs. pose proof (C55_accepted_iff 1 s ltac:(lia)) as A. cbv zeta in A. change (window_num 1) with 254%nat in A. change (2 ^ (1 * Z.of_nat 254)) with (2 ^ 254) in A. rewrite Z.mod_small in A by lia. destruct (ba_selection_with_sign 1 s); [| reflexivity]. exfalso. assert (N : Some l <> None) by discriminate. apply A in N. change (2 ^ 1 - 1) with 1 in N. change (2 ^ (1 - 1)) with 1 in N. lia.
Qed.
(** ** the signed bucket method *)
Section Signed.
Context {g : abelian_group} {pnt : Type}.
Variable rep : pnt -> g -> Prop.
Variable padd : pnt -> pnt -> pnt.
Variables pdul pneg : pnt -> pnt.
Variable beq : pnt -> pnt -> bool.
Variable blank : pnt.
Hypothesis I : implements rep padd pdul beq blank.
Hypothesis rep_neg : forall a x, rep a x -> rep (pneg a) (gopp x).
Definition good_signed (c : Z) (i : Z * Z) (e : Z) : Prop := exists x, digit_ok c x /\ i = (to_u32 (fst x), snd x) /\ e = signed_digit x.
Lemma signed_update c : 0 < c <= 32 -> forall bs v q x i e, lane_rep rep (Z.to_nat (2 ^ (c - 1))) bs v -> rep q x -> good_signed c i e ->
  lane_rep rep (Z.to_nat (2 ^ (c - 1))) (scatter bs (fst i) (padd_with_sign pnt padd pneg (gather blank bs (fst i)) q (snd i))) (gadd v (gmul e x)).
Proof.
  intros Hc bs v q x i e L R ((a & sg) & (Hs & Ha) & -> & ->). cbn [fst snd] in *. assert (B32 : Z.of_nat (Z.to_nat (2 ^ (c - 1))) < 2 ^ 32). { assert (0 < 2 ^ (c - 1)) by (apply Z.pow_pos_nonneg; lia). assert (2 ^ (c - 1) <= 2 ^ 31) by (apply Z.pow_le_mono_r; lia). lia. }
  unfold padd_with_sign, signed_digit. cbn [fst snd]. replace (to_u32 a) with (to_u32 ((a + 1) - 1)) by (f_equal; lia). destruct (sg =? 1).
  - rewrite <- gmul_opp. apply (lane_update rep padd pdul beq blank I); try assumption; [apply rep_neg; exact R | lia].
  - apply (lane_update rep padd pdul beq blank I); try assumption. lia.
Qed.
Definition signed_digits (c s : Z) : list Z := match ba_selection_with_sign c s with Some l => map signed_digit l | None => repeat 0 (window_num c) end.
Lemma selections_spec c ss sel : 0 < c -> all_selections c ss = Some sel -> Forall2 (good_signed c) (map (fun x => (to_u32 (fst x), snd x)) (concat sel)) (concat (map (signed_digits c) ss)) /\ Forall (fun s => ba_selection_with_sign c s <> None) ss.
Proof.
  intros Hc. revert sel. induction ss as [| s ss IH]; intros sel E; [cbn in E; injection E as <-; split; constructor |]. cbn [all_selections] in E. destruct (ba_selection_with_sign c s) as [l |] eqn:El; [| discriminate]. destruct (all_selections c ss) as [ls |]; [| discriminate]. injection E as <-. destruct (IH _ eq_refl) as [F A]. split; [| constructor; [congruence | exact A]]. cbn [map concat]. rewrite map_app. apply Forall2_app; [| exact F]. unfold signed_digits. rewrite El. destruct (C55_digits c s l Hc El) as (_ & D & _). clear - D. induction D as [| x l H D IH]; cbn [map]; constructor; [exists x; auto | exact IH].
Qed.
Theorem C54_signed_run : forall c k ss ps (xs : list g) bss x, 0 < c <= 32 -> (0 < k)%nat -> ss <> [] -> (length ss mod k = 0)%nat -> length ps = length ss -> Forall2 rep ps xs -> Forall (fun s => ba_selection_with_sign c s <> None) ss ->
  holds rep c k (Z.to_nat (2 ^ (c - 1))) bss x ->
  exists bss' r, msm_twisted_signed pnt padd pdul pneg beq blank c k ss ps bss = Some (bss', r) /\ holds rep c k (Z.to_nat (2 ^ (c - 1))) bss' (gadd x (msm (map (fun s => s mod 2 ^ (c * Z.of_nat (window_num c))) ss) xs)) /\
    rep r (gadd x (msm (map (fun s => s mod 2 ^ (c * Z.of_nat (window_num c))) ss) xs)).
Proof.
  intros c k ss ps xs bss x Hc Hk Hs Hm Lp P Acc (vs & Hb & Lv & Hx).
  assert (Hsel : exists sel, all_selections c ss = Some sel). { clear - Acc. induction Acc as [| s ss A _ [sel E]]; [exists []; reflexivity |]. cbn. destruct (ba_selection_with_sign c s) as [l |]; [| congruence]. rewrite E. eauto. }
  destruct Hsel as [sel Es]. destruct (selections_spec c ss sel ltac:(lia) Es) as [F _].
  destruct (run_rel rep padd pdul beq blank I (fun bs q i => scatter bs (fst i) (padd_with_sign pnt padd pneg (gather blank bs (fst i)) q (snd i))) (good_signed c) (signed_digits c) (map (fun x => (to_u32 (fst x), snd x)) (concat sel)) c (Z.to_nat (2 ^ (c - 1))) k ss ps xs bss vs) as (vs' & H1 & H2 & H3 & H4); try assumption; try lia.
  { apply signed_update. exact Hc. }
  { intros s. unfold signed_digits. destruct (ba_selection_with_sign c s) as [l |] eqn:El; [rewrite map_length; apply (C55_digits c s l ltac:(lia) El) | apply repeat_length]. }
  rewrite Hx in H3. assert (M : map (fun s => evaluate c (signed_digits c s)) ss = map (fun s => s mod 2 ^ (c * Z.of_nat (window_num c))) ss). { clear - Acc Hc. induction Acc as [| s ss A _ IH]; [reflexivity |]. cbn [map]. f_equal; [| exact IH]. unfold signed_digits. destruct (ba_selection_with_sign c s) as [l |] eqn:El; [| congruence]. rewrite <- weighted_evaluate. apply (C55_digits c s l ltac:(lia) El). }
  rewrite M in H3. rewrite H3 in H4.
  assert (Eb : forall l b, fold_left (ba_body_signed pnt padd pneg blank) l b = fold_left (fun bss x => map3 (fun bs q i => scatter bs (fst i) (padd_with_sign pnt padd pneg (gather blank bs (fst i)) q (snd i))) bss (broadcast_points pnt (length bss / length (fst x)) (fst x)) (snd x)) l b) by (induction l as [| [? ?] l IHl]; intros b; cbn [fold_left]; [reflexivity | apply IHl]).
  do 2 eexists. split; [unfold msm_twisted_signed; cbv zeta; rewrite Es; apply run_guard; try assumption; try lia; destruct ss; [congruence | cbn; lia] |]. unfold bucket_accumulation_signed. rewrite Eb. split; [| exact H4]. exists vs'. auto.
Qed.
Theorem C54_signed : forall c k ss ps (xs : list g), 2 <= c <= 32 -> (0 < k)%nat -> ss <> [] -> (length ss mod k = 0)%nat -> length ps = length ss -> Forall2 rep ps xs -> Forall (fun s => 0 <= s < bls12_377_r) ss ->
  exists bss r, msm_twisted_signed pnt padd pdul pneg beq blank c k ss ps (new_buckets_signed pnt blank c k) = Some (bss, r) /\ rep r (msm ss xs).
Proof.
  intros c k ss ps xs Hc Hk Hs Hm Lp P HS. destruct (C54_signed_run c k ss ps xs (new_buckets_signed pnt blank c k) gzero) as (bss & r & E & _ & R); try assumption; try lia.
  { revert HS. apply Forall_impl. intros s H. destruct (C55_scalar_field c s ltac:(lia) H) as (l & E & _). congruence. }
  { apply (new_holds rep padd pdul beq blank I). }
  exists bss, r. split; [exact E |]. rewrite gadd_zero in R.
  assert (M : map (fun s => s mod 2 ^ (c * Z.of_nat (window_num c))) ss = ss). { clear - HS Hc. pose proof (window_num_spec c ltac:(lia)) as HW. assert (2 ^ 254 <= 2 ^ (c * Z.of_nat (window_num c))) by (apply Z.pow_le_mono_r; lia). assert (bls12_377_r <= 2 ^ 254) by (vm_compute; discriminate). induction HS; cbn [map]; [reflexivity |]. f_equal; [apply Z.mod_small; lia | assumption]. }
  rewrite M in R. exact R.
Qed.
(** the run raises when some scalar is rejected *)
Theorem C54_signed_rejects : forall c k ss ps bss, Exists (fun s => ba_selection_with_sign c s = None) ss -> msm_twisted_signed pnt padd pdul pneg beq blank c k ss ps bss = None.
Proof.
  intros c k ss ps bss H. unfold msm_twisted_signed. assert (E : all_selections c ss = None). { induction H as [s ss H | s ss H IH]; cbn [all_selections]; [rewrite H; reflexivity | rewrite IH; destruct (ba_selection_with_sign c s); reflexivity]. } cbv zeta. rewrite E. destruct (_ || _); reflexivity.
Qed.
End Signed.
Print Assumptions C55_digits. Print Assumptions C55_accepted_iff. Print Assumptions C55_scalar_field. Print Assumptions C55_half_range_refuted. Print Assumptions C55_one_bit_refuted.
Print Assumptions C54_signed_run. Print Assumptions C54_signed. Print Assumptions C54_signed_rejects.

(** 0xF8 in four-bit slices: -8, then 15 + 1 = 16 gives a zero digit and a carry, then 1 *)
Example C55_example : let s := 0xF8 in exists l, ba_selection_with_sign 4 s = Some l /\ map signed_digit (firstn 3 l) = [-8; 0; 1] /\ weighted 4 (map signed_digit l) = s.
Proof. eexists. split; [vm_compute; reflexivity |]. split; vm_compute; reflexivity. Qed.
Example C54_signed_example : let ss := [bls12_377_r - 1; 7; 0; 15] in let ps := [3; 11; 4; 11] in
  Forall (fun s => 0 <= s < bls12_377_r) ss /\ exists bss, msm_twisted_signed Z Z.add (fun x => x + x) Z.opp Z.eqb 0 4 2 ss ps (new_buckets_signed Z 0 4 2) = Some (bss, (bls12_377_r - 1) * 3 + 22 * 11).
Proof.
  intros ss ps. assert (F : Forall (fun s => 0 <= s < bls12_377_r) ss) by (unfold ss; repeat (apply Forall_cons; [split; vm_compute; (reflexivity || discriminate) |]); apply Forall_nil). split; [exact F |].
  destruct (C54_signed (g := integers) _ _ _ Z.opp _ _ integers_implement (fun a x E => f_equal Z.opp E) 4 2 ss ps ps ltac:(lia) ltac:(lia) ltac:(discriminate) eq_refl eq_refl (forall2_same ps) F) as (bss & r & E & R).
  exists bss. rewrite E. do 2 f_equal. rewrite R. unfold ss, ps. cbn [msm]. rewrite !gmul_integers. cbn [gadd gzero integers]. ring.
Qed.
