(** C60: the real-valued gadget.  inverse_gadget followed by gadget_matrix gives the vector back up to rounding. *)
From Coq Require Import ZArith List Bool Lia.
From Verif Require Import Base.ZSum Base.Lists Base.Word Base.Bits Ckks.Model_barrett Cggi.Model_decomposition Cggi.Model_gadget Cggi.Proof_decomposition.
Import ListNotations.
Local Open Scope Z_scope.

Lemma rne_near num den : 0 < den -> 2 * Z.abs (den * rne num den - num) <= den.
Proof.
  intros H. unfold rne. pose proof (Z.div_mod num den ltac:(lia)). pose proof (Z.mod_pos_bound num den H). destruct (Z.ltb_spec (2 * (num mod den)) den); [lia |]. destruct (Z.ltb_spec den (2 * (num mod den))); [lia |]. destruct (Z.even _); lia.
Qed.
Lemma rne_exact num den : 0 < den -> (den | num) -> den * rne num den = num.
Proof. intros H D. pose proof (rne_near num den H). destruct D as [k ->]. assert (rne (k * den) den = k) by (unfold rne; rewrite Z.mod_mul, Z.div_mul by lia; cbn; destruct (Z.ltb_spec 0 den); [reflexivity | lia]). rewrite H1. ring. Qed.

Lemma dot_blocks {X} (F : X -> list Z) (G : nat -> list Z) n d : (forall x, length (F x) = n) -> (forall c, length (G c) = n) -> forall vs b,
  dotZ (flat_map F vs) (flat_map G (seq b (length vs))) = zsum (length vs) (fun k => dotZ (F (nth k vs d)) (G (b + k)%nat)).
Proof.
  intros HF HG. induction vs as [|v vs IH]; intros b; [reflexivity |]. cbn [flat_map length seq]. rewrite dotZ_app by (rewrite HF, HG; reflexivity). rewrite IH, zsum_S_l. cbn [nth]. rewrite Nat.add_0_r. f_equal. apply zsum_ext. intros k _. replace (S b + k)%nat with (b + S k)%nat by lia. reflexivity.
Qed.
Lemma dotZ_zeros l n : dotZ l (map (fun _ => 0) (seq 0 n)) = 0.
Proof. generalize (seq 0 n). intros s. revert l. induction s as [|a s IH]; intros [|x l]; try reflexivity. cbn [map]. rewrite dotZ_cons, IH. ring. Qed.
Lemma decompose_dot v b L : 1 <= b -> Z.of_nat L * b <= 32 -> 0 <= v < 2 ^ (Z.of_nat L * b) ->
  dotZ (decompose v b L (Z.of_nat L * b)) (map (fun i => (2 ^ b) ^ (Z.of_nat L - 1 - Z.of_nat i)) (seq 0 L)) = v.
Proof.
  intros Hb HL Hv. rewrite decompose_spec by lia. rewrite dotZ_zsum by (rewrite !map_length; reflexivity). rewrite map_length, seq_length.
  pose proof (decompose_telescope v b (Z.of_nat L * b) L Hb ltac:(lia)) as T. rewrite Z.sub_diag, Z.mod_1_r, Z.sub_0_r, Z.mod_small in T by exact Hv. etransitivity; [| exact T]. apply zsum_ext. intros i Hi. rewrite !nth_map_seq by exact Hi. cbv beta. rewrite <- Z.pow_mul_r by lia. replace (b * (Z.of_nat L - 1 - Z.of_nat i)) with (Z.of_nat L * b - (1 + Z.of_nat i) * b) by ring. reflexivity.
Qed.

(** C60 for a gadget that keeps all the bits (base^levels = 2^total): a vector of dyadic entries m/2^s in [0, 1/2] is decomposed into
    digits in [0, base), and row r of the gadget matrix (here scaled by base^levels) sends them back to entry r, up to half a
    unit of base^-levels, and exactly when the entry is a multiple of base^-levels. *)
Theorem C60_gadget_inverse_partial : forall vector log_base levels,
  1 <= log_base -> (1 <= levels)%nat -> Z.of_nat levels * log_base <= 32 ->
  Forall (fun x => 0 <= snd x /\ 0 <= fst x /\ 2 * fst x <= 2 ^ snd x) vector ->
  let total := Z.of_nat levels * log_base in
  let unit := (2 ^ log_base) ^ Z.of_nat levels in
  exists M ds, gadget_matrix log_base levels (length vector) total = Some M /\ inverse_gadget vector log_base levels total = Some ds /\
    length M = length vector /\ length ds = (length vector * levels)%nat /\ Forall (fun d => 0 <= d < 2 ^ log_base) ds /\
    forall r, (r < length vector)%nat -> let '(m, s) := nth r vector (0, 0) in
      2 * Z.abs (2 ^ s * dotZ ds (nth r M []) - m * unit) <= 2 ^ s /\ ((2 ^ s | m * unit) -> 2 ^ s * dotZ ds (nth r M []) = m * unit).
Proof.
  intros vector b L Hb HL H32 F total unit. assert (EU : unit = 2 ^ total) by (unfold unit, total; rewrite <- Z.pow_mul_r by lia; f_equal; ring). assert (HT : 1 <= total) by (unfold total; nia).
  unfold gadget_matrix. fold unit. rewrite EU, Z.mod_same by (apply Z.pow_nonzero; lia). cbn [Z.eqb negb]. unfold inverse_gadget.
  assert (RG : forall x, In x vector -> 0 <= scaled_rounded x b L < 2 ^ total).
  { intros [m s] Hx. rewrite Forall_forall in F. destruct (F _ Hx) as (S0 & M0 & M1). cbn [fst snd] in *. unfold scaled_rounded. cbn [fst snd]. fold unit. rewrite EU.
    assert (SP : 0 < 2 ^ s) by (apply Z.pow_pos_nonneg; lia). pose proof (rne_near (m * 2 ^ total) (2 ^ s) SP) as N. set (v := rne _ _) in *.
    assert (E2 : 2 ^ total = 2 * 2 ^ (total - 1)) by (rewrite <- Z.pow_succ_r by lia; f_equal; lia). assert (TP : 0 < 2 ^ (total - 1)) by (apply Z.pow_pos_nonneg; lia). set (T := 2 ^ (total - 1)) in *. rewrite E2 in *. clear - SP N M0 M1 TP. set (W := 2 ^ s) in *. clearbody v T W.
    assert (0 <= v \/ v <= -1) as [V | V] by lia; [split; [exact V |] | exfalso; nia]. assert (v <= T \/ T + 1 <= v) as [V2 | V2] by lia; [lia | exfalso; nia]. }
  assert (FB : forallb (fun v => (0 <=? v) && (v <? W32)) (map (fun x => scaled_rounded x b L) vector) = true).
  { apply forallb_forall. intros v Hv. apply in_map_iff in Hv. destruct Hv as (x & <- & Hx). specialize (RG x Hx). assert (2 ^ total <= 2 ^ 32) by (apply Z.pow_le_mono_r; unfold total; lia). change (2 ^ 32) with W32 in H. apply andb_true_intro. split; [apply Z.leb_le | apply Z.ltb_lt]; lia. }
  rewrite FB. eexists. eexists. split; [reflexivity |]. split; [reflexivity |]. split; [rewrite map_length; apply seq_length |].
  set (vs := map (fun x => scaled_rounded x b L) vector). assert (LV : length vs = length vector) by apply map_length.
  assert (DL : forall v, length (decompose v b L total) = L) by (intros v; unfold decompose; rewrite map_length; apply seq_length).
  split; [| split].
  - rewrite <- LV. clear - DL. induction vs as [|v vs IH]; [reflexivity |]. cbn [flat_map length]. rewrite app_length, DL, IH. lia.
  - apply Forall_flat_map, Forall_forall. intros v _. rewrite decompose_spec by (unfold total; lia). apply Forall_map, Forall_forall. intros i _. apply Z.mod_pos_bound. apply Z.pow_pos_nonneg; lia.
  - intros r Hr. destruct (nth r vector (0, 0)) as [m s] eqn:EX. rewrite nth_map_seq by exact Hr.
    assert (HIn : In (m, s) vector) by (rewrite <- EX; apply nth_In; exact Hr). rewrite Forall_forall in F. destruct (F _ HIn) as (S0 & M0 & M1). cbn [fst snd] in *. assert (SP : 0 < 2 ^ s) by (apply Z.pow_pos_nonneg; lia).
    rewrite <- LV. rewrite (dot_blocks _ (fun c => map (fun i => if (r =? c)%nat then (2 ^ b) ^ (Z.of_nat L - 1 - Z.of_nat i) else 0) (seq 0 L)) L 0 DL) by (intros c; rewrite map_length; apply seq_length).
    rewrite (zsum_single (length vs) r).
    + cbn [plus]. rewrite Nat.eqb_refl. assert (EV : nth r vs 0 = rne (m * 2 ^ total) (2 ^ s)) by (unfold vs; rewrite (nth_map_lt _ _ _ _ (0, 0)) by exact Hr; rewrite EX; unfold scaled_rounded; cbn [fst snd]; fold unit; rewrite EU; reflexivity).
      pose proof (RG _ HIn) as R1. unfold scaled_rounded in R1. cbn [fst snd] in R1. fold unit in R1. rewrite EU in R1.
      rewrite EV. assert (DD := decompose_dot _ b L Hb H32 R1). fold total in DD. rewrite DD. split; [apply rne_near; exact SP | apply rne_exact; exact SP].
    + rewrite LV. exact Hr.
    + intros k Hk NE. cbn [plus]. destruct (Nat.eqb_spec r k); [congruence |]. apply dotZ_zeros.
Qed.
Print Assumptions C60_gadget_inverse_partial.

(** parameters with base^levels above 2^total are rejected by gadget_matrix *)
Theorem C60_bad_parameters_rejected : forall log_base levels n total, 0 <= log_base -> 0 <= total < Z.of_nat levels * log_base -> gadget_matrix log_base levels n total = None.
Proof.
  intros b L n t Hb Ht. unfold gadget_matrix. rewrite <- Z.pow_mul_r by lia. rewrite Z.mod_small; [| split; [apply Z.pow_nonneg; lia | apply Z.pow_lt_mono_r; nia]]. destruct (Z.eqb_spec (2 ^ t) 0) as [E | _]; [| reflexivity]. pose proof (Z.pow_pos_nonneg 2 t ltac:(lia) ltac:(lia)). lia.
Qed.
Print Assumptions C60_bad_parameters_rejected.

(** FINDING.  The documentation says the result is approximate when base^levels is below 2^total.  It is not: the value is scaled
    by base^levels but its digits are read from the top of 2^total, so with two levels of eight bits out of 32 the entry 1/2 comes
    back as 0, although it is a multiple of base^-levels. *)
Theorem C60_fewer_levels_refuted : ~ forall vector log_base levels total M ds,
  1 <= log_base -> (1 <= levels)%nat -> Z.of_nat levels * log_base <= total <= 32 -> Forall (fun x => 0 <= snd x /\ 0 <= fst x /\ 2 * fst x <= 2 ^ snd x) vector ->
  gadget_matrix log_base levels (length vector) total = Some M -> inverse_gadget vector log_base levels total = Some ds ->
  forall r, (r < length vector)%nat -> let '(m, s) := nth r vector (0, 0) in
    Z.abs (2 ^ s * dotZ ds (nth r M []) - m * (2 ^ log_base) ^ Z.of_nat levels) <= 2 ^ s.
Proof.
  intros H. specialize (H [(1, 1)] 8 2%nat 32 [[256; 1]] [0; 0] ltac:(lia) ltac:(lia) ltac:(lia)). specialize (H ltac:(constructor; [cbn; lia | constructor]) eq_refl eq_refl 0%nat ltac:(cbn; lia)). vm_compute in H. apply H. reflexivity.
Qed.
Print Assumptions C60_fewer_levels_refuted.

(** the unit test's parameters: base 256, four levels, 32 bits; entries 1/2 and 3/1024 *)
Example C60_example : gadget_matrix 8 4 2 32 = Some [[16777216; 65536; 256; 1; 0; 0; 0; 0]; [0; 0; 0; 0; 16777216; 65536; 256; 1]] /\ inverse_gadget [(1, 1); (3, 10)] 8 4 32 = Some [128; 0; 0; 0; 0; 192; 0; 0] /\
  dotZ [128; 0; 0; 0; 0; 192; 0; 0] [0; 0; 0; 0; 16777216; 65536; 256; 1] * 1024 = 3 * 2 ^ 32.
Proof. repeat split; vm_compute; reflexivity. Qed.
