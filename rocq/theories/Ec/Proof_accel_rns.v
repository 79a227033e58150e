(** Stepping through the point formulas in residue form. *)
From Coq Require Import ZArith List Bool Lia.
From Verif Require Import Base.ZSum Base.Word Base.Bits Base.Lists Base.Modeq Base.Crt Base.Fermat Base.Fp.
From Verif Require Import Ckks.Model_rns_utils Ckks.Prop_crt Ec.Model_util Ec.Model_field Ec.Model_field_rns Ec.Spec_chunks Ec.Spec_rns377 Ec.Proof_chunks Ec.Prop_util Ec.Proof_rns377 Ec.Prop_rns377 Ec.Prop_rnsadd Ec.Prop_rnsneg.
From Verif Require Import Ec.Model_reffield Ec.Model_curve Ec.Model_accel Ec.Spec_accel Ec.Model_accel_rns Ec.Spec_accel_rns.
Import ListNotations.
Local Open Scope Z_scope.

Notation pp := MODULUS_377_INT.
Lemma pp_pos : 0 < pp. Proof. reflexivity. Qed.
Lemma pp_M377 : 2 ^ 16 * ((468000 * pp) * (468000 * pp)) < 40036 * M377 /\ pp <= M377.
Proof. destruct range_377 as [R1 R2]. rewrite M377_literal. split; assumption. Qed.

(** ** a reduced row is zero exactly when the integer is *)
Lemma dot_pos b s : Forall (fun x => 0 <= x) b -> Forall (fun x => 0 < x) s -> length b = length s -> (exists x, In x b /\ x <> 0) -> 0 < dotZ b s.
Proof.
  intros Fb. revert s. induction Fb as [|x b Hx Fb IH]; intros [|y s] Fs L (w & Hw & Nw); try discriminate L; [destruct Hw |]. rewrite Forall_cons_iff in Fs. destruct Fs as [Hy Fs]. rewrite dotZ_cons. cbn in L.
  assert (N : 0 <= dotZ b s). { clear - Fb Fs. revert s Fs. induction Fb as [|u b Hu Fb IH]; intros [|v s] Fs; try (cbn; lia). rewrite dotZ_cons. rewrite Forall_cons_iff in Fs. destruct Fs as [Hv Fs]. specialize (IH s Fs). nia. }
  destruct Hw as [-> | Hw]; [nia |]. pose proof (IH s Fs ltac:(lia) (ex_intro _ w (conj Hw Nw))). nia.
Qed.
Lemma dot_nonneg b s : Forall (fun x => 0 <= x) b -> Forall (fun x => 0 <= x) s -> 0 <= dotZ b s.
Proof. intros Fb. revert s. induction Fb as [|u b Hu Fb IH]; intros [|v s] Fs; try (cbn; lia). rewrite dotZ_cons. rewrite Forall_cons_iff in Fs. destruct Fs as [Hv Fs]. specialize (IH s Fs). nia. Qed.
Lemma red_value_pos c x : rep MODULI x c -> words16 c -> 0 <= x < M377 -> (exists w, In w c /\ w <> 0) -> 0 < red_value pp c x.
Proof.
  intros R W Hx HW. unfold red_value. destruct constants_377 as (pre & Ep & He). rewrite Ep. unfold row_value. pose proof (positive_377 pre Ep) as PE. pose proof pp_pos as P0. pose proof pp_M377 as [_ PM]. pose proof M377_pos as MP.
  assert (Hn : (0 < length MODULI <= 64)%nat) by (rewrite length_377; lia).
  pose proof (sum_eqm MODULI pre coprime_377 Hn Ep x c R) as SE. pose proof (shifted_range MODULI pre coprime_377) as SR. pose proof (shifted_length MODULI pre coprime_377 Ep) as SL. rewrite <- M377_eq in SE, SR, SL. fold (shifted_of M377 pre) in SE, SR, SL.
  set (sh := shifted_of M377 pre) in *. set (b := bytes_of_u16 c) in *. pose proof (bytes_range c W) as Fb. fold b in Fb. assert (Fb0 : Forall (fun x => 0 <= x) b) by (eapply Forall_impl; [| exact Fb]; cbn beta; intros; lia).
  assert (Lb : length b = length sh). { unfold b. rewrite bytes_length, SL, (rep_length _ _ _ R). reflexivity. }
  assert (D : 0 < dotZ b (map (fun S => S mod pp) sh)).
  { apply dot_pos; [exact Fb0 | | rewrite map_length; exact Lb | apply bytes_nonzero; exact HW]. apply Forall_map. eapply Forall_impl; [| exact PE]. cbn beta. intros S HS. pose proof (Z.mod_pos_bound S pp P0). destruct (Z.eq_dec (S mod pp) 0) as [E | E]; [| lia].
    exfalso. destruct MODULI as [|m ms] eqn:EM; [cbn in Hn; lia |]. rewrite Forall_cons_iff in HS. destruct HS as [HS _]. rewrite E, Zmod_0_l in HS. lia. }
  assert (N : 0 <= dotZ b sh) by (apply dot_nonneg; [exact Fb0 | eapply Forall_impl; [| exact SR]; cbn beta; intros; lia]).
  destruct SE as [k Hk]. assert (K : 0 <= (dotZ b sh - x) / M377). { replace (dotZ b sh - x) with (k * M377) by lia. rewrite Z.div_mul by lia. assert (- M377 < k * M377) by lia. nia. }
  pose proof (Z.mod_pos_bound (- M377) pp P0). nia.
Qed.

(** ** lanes *)
Definition mapn (n : nat) (f : nat -> Z) : list Z := map f (seq 0 n).
Lemma mapn_length n f : length (mapn n f) = n. Proof. unfold mapn. rewrite map_length, seq_length. reflexivity. Qed.
Lemma mapn_nth n f i : (i < n)%nat -> nth i (mapn n f) 0 = f i.
Proof. intros Hi. unfold mapn. rewrite (nth_indep _ 0 (f 0%nat)) by (rewrite map_length, seq_length; exact Hi). rewrite map_nth, seq_nth by exact Hi. reflexivity. Qed.
Lemma mapn_of l : l = mapn (length l) (fun i => nth i l 0).
Proof. apply (list_ext 0); [rewrite mapn_length; reflexivity |]. intros i Hi. rewrite mapn_nth by exact Hi. reflexivity. Qed.
Lemma mapn_forall n f (P : Z -> Prop) : (forall i, (i < n)%nat -> P (f i)) -> Forall P (mapn n f).
Proof. intros H. unfold mapn. apply Forall_map, Forall_forall. intros i Hi. apply in_seq in Hi. apply H. lia. Qed.
Lemma mapn_map2 n f g op : map2 op (mapn n f) (mapn n g) = mapn n (fun i => op (f i) (g i)).
Proof. unfold mapn. generalize (seq 0 n). intros l. induction l as [|i l IH]; [reflexivity |]. cbn [map map2]. rewrite IH. reflexivity. Qed.
Lemma forall2_nth {A B} (R : A -> B -> Prop) l1 l2 d1 d2 i : Forall2 R l1 l2 -> (i < length l1)%nat -> R (nth i l1 d1) (nth i l2 d2).
Proof. intros F. revert i. induction F as [|x y l1 l2 H F IH]; intros i Hi; [cbn in Hi; lia |]. destruct i as [|i]; [exact H | apply IH; cbn in Hi; lia]. Qed.
Lemma forall2_mapn {B} (R : Z -> B -> Prop) n f (l : list B) d : length l = n -> (forall i, (i < n)%nat -> R (f i) (nth i l d)) -> Forall2 R (mapn n f) l.
Proof.
  revert f l. unfold mapn. induction n as [|n IH]; intros f [|y l] L H; try discriminate L; [constructor |]. cbn [seq map]. constructor; [apply (H 0%nat); lia |]. rewrite <- seq_shift, map_map. apply (IH (fun i => f (S i))); [cbn in L; lia |]. intros i Hi. apply (H (S i)). lia.
Qed.
Lemma Forall2_length {A B} (R : A -> B -> Prop) l1 l2 : Forall2 R l1 l2 -> length l1 = length l2.
Proof. induction 1; cbn; congruence. Qed.
Lemma stands_length n B f a : stands_for n B f a -> length a = n.
Proof. intros [R _]. unfold rns_batch in R. apply Forall2_length in R. rewrite map_length, seq_length in R. lia. Qed.
Lemma stands_mono n B B' f a : B <= B' -> stands_for n B f a -> stands_for n B' f a.
Proof. intros HB [R H]. split; [exact R |]. intros i Hi. specialize (H i Hi). lia. Qed.

(** rows of products: all words zero and integer zero, or no zero word and a positive integer *)
Definition clean (n : nat) (f : nat -> Z) (a : batch) : Prop :=
  forall i, (i < n)%nat -> f i = 0 /\ Forall (fun w => w = 0) (nth i a []) \/ 0 < f i /\ no_zero_word RNS_MODULI_T (nth i a []).

Lemma zero_prod u v ts : Forall (fun w => w = 0) u -> Forall (fun w => w = 0) (map2 rns_red_word (map2 (fun x y => u32 (x * y)) u v) ts).
Proof. intros F. apply reduced_zero. revert v. induction F as [|x u -> F IH]; intros [|y v]; constructor; [reflexivity | apply IH]. Qed.
Lemma mul_step n f g a b : stands_for n (468000 * pp) f a -> stands_for n (468000 * pp) g b ->
  exists c h, mod_mul_rns_377 a b = Some c /\ stands_for n (51000 * pp) h c /\ clean n h c /\ forall i, (i < n)%nat -> @of_Z p377 (h i) = f_mul (of_Z (f i)) (of_Z (g i)) /\ (f i <> 0 -> g i <> 0 -> h i <> 0) /\ (Forall (fun w => w = 0) (nth i a []) -> h i = 0).
Proof.
  intros [Ra Ba] [Rb Bb]. pose proof pp_pos as P0. destruct pp_M377 as [R1 R2]. pose proof M377_pos as MP. fold (mapn n f) in Ra. fold (mapn n g) in Rb.
  destruct (mul_batch _ _ a b Ra Rb ltac:(rewrite !mapn_length; reflexivity)) as (c & Ec & Rc). rewrite mapn_map2 in Rc.
  assert (BP : forall i, (i < n)%nat -> 0 <= f i * g i /\ 2 ^ 16 * (f i * g i) < 40036 * M377).
  { intros i Hi. specialize (Ba i Hi). specialize (Bb i Hi). split; [nia |]. assert (f i * g i <= (468000 * pp) * (468000 * pp)) by (apply Z.mul_le_mono_nonneg; lia). lia. }
  destruct (matrix_377 pp ltac:(lia)) as (mat & cor & _ & EM & _). destruct (mod_red_batch pp mat cor _ c ltac:(lia) EM Rc) as (r & zs & E2 & F1 & F2 & F3 & F4). { apply (mapn_forall n (fun i => f i * g i) (fun x => 0 <= x /\ 2 ^ 16 * x < 40036 * M377)). exact BP. }
  assert (Lc : length c = n) by (apply Forall2_length in Rc; rewrite mapn_length in Rc; lia).
  assert (Lr : length r = n) by (apply Forall2_length in F3; lia).
  assert (Lz : length zs = n) by (apply Forall2_length in F1; lia).
  assert (Cc : forall i, (i < n)%nat -> nth i c [] = map2 rns_red_word (map2 (fun x y => u32 (x * y)) (nth i a []) (nth i b [])) RNS_MODULI_T).
  { intros i Hi. unfold mul_unreduced_rns_2u16, moduli_rns_red_internal_2u16 in Ec. rewrite (offsets_u8_ok MODULI RNS_MODULI_T offsets_377) in Ec. cbn [bind] in Ec. injection Ec as <-. assert (La : length a = n) by (apply Forall2_length in Ra; rewrite mapn_length in Ra; lia). assert (Lb : length b = n) by (apply Forall2_length in Rb; rewrite mapn_length in Rb; lia).
    rewrite (nth_map_lt (fun r => map2 rns_red_word r RNS_MODULI_T) _ i [] []) by (rewrite map2_length; lia). rewrite (nth_map2 _ _ _ _ [] [] []) by lia. reflexivity. }
  exists r, (fun i => nth i zs 0). split; [unfold mod_mul_rns_377, RNS_MAT; rewrite EM; cbn [bind]; unfold mod_mul_rns_2u16; rewrite Ec; exact E2 |].
  split; [split; [| intros i Hi] |].
  - fold (mapn n (fun i => nth i zs 0)). rewrite <- Lz, <- mapn_of. exact F1.
  - pose proof (forall2_nth _ _ _ 0 0 i F2 ltac:(lia)) as [_ H]. lia.
  - assert (K : forall i, (i < n)%nat -> (f i * g i = 0 /\ nth i zs 0 = 0 /\ Forall (fun w => w = 0) (nth i r [])) \/ (~ Forall (fun w => w = 0) (nth i c []) /\ 0 < nth i zs 0 /\ no_zero_word RNS_MODULI_T (nth i r []))).
    { intros i Hi. pose proof (forall2_nth _ _ _ 0 [] i Rc ltac:(rewrite mapn_length; lia)) as [Rci Wci]. rewrite mapn_nth in Rci by exact Hi. apply rep_iff in Rci; [| apply coprime_positive].
      pose proof (forall2_nth _ _ _ [] [] i F3 ltac:(lia)) as [L1 L2]. specialize (L1 positive_377). pose proof (forall2_nth _ _ _ 0 [] i F1 ltac:(lia)) as [Rri Wri]. apply rep_iff in Rri; [| apply coprime_positive]. pose proof (forall2_nth _ _ _ 0 0 i F2 ltac:(lia)) as [_ Bz].
      destruct (BP i Hi) as [P1 P2]. assert (PX : f i * g i < M377) by lia.
      destruct (Forall_dec (fun w => w = 0) (fun w => Z.eq_dec w 0) (nth i c [])) as [H0 | H0].
      - left. split; [exact (zero_row_value _ _ Rci H0 ltac:(lia)) |]. specialize (L2 H0). split; [| exact L2]. apply (zero_row_value _ _ Rri L2). pose proof p_M377. lia.
      - right. split; [exact H0 |]. apply neg_Forall_Exists_neg in H0; [| intros w; apply Z.eq_dec]. apply Exists_exists in H0.
        split; [| exact (L1 H0)]. rewrite F4. rewrite (nth_map2 _ _ _ _ [] 0 0) by (rewrite ?mapn_length; lia). rewrite mapn_nth by exact Hi. apply red_value_pos; [exact Rci | exact Wci | lia | exact H0]. }
    split; [intros i Hi; destruct (K i Hi) as [(_ & K1 & K2) | (_ & K1 & K2)]; [left | right]; split; assumption |].
    intros i Hi. split; [| split; destruct (K i Hi) as [(K0 & K1 & _) | (K0 & K1 & _)]; intros H; [nia | lia | exact K1 | exfalso; apply K0; rewrite Cc by exact Hi; apply zero_prod; exact H]].
    pose proof (forall2_nth _ _ _ 0 0 i F2 ltac:(lia)) as [E _]. rewrite mapn_nth in E by exact Hi. rewrite of_Z_mul. apply of_Z_eq. change (Zpos p377) with pp. apply eqm_mod_iff; [exact P0 | exact E].
Qed.

(** ** operands of sums *)
Lemma Forall2_mono {A B} (R1 R2 : A -> B -> Prop) l1 l2 : (forall x y, R1 x y -> R2 x y) -> Forall2 R1 l1 l2 -> Forall2 R2 l1 l2.
Proof. intros H. induction 1; constructor; auto. Qed.
Definition opn (n : nat) (w : Z) (f : nat -> Z) (a : batch) : Prop := operand MODULI w (mapn n f) a.
Lemma opn_stands n B f a : stands_for n B f a -> opn n 1 f a.
Proof. intros [R _]. unfold opn, operand. unfold rns_batch in R. eapply Forall2_mono; [| exact R]. cbn beta. intros x c [H1 H2]. split; [exact H1 |]. rewrite Z.mul_1_l. exact H2. Qed.
Definition neg_val (x : Z) : Z := B377 - x - (if x =? 0 then 2 ^ 16 else 0).
Definition neg_zc_val (x : Z) : Z := if x =? 0 then 0 else B377 - x.
Lemma neg_step n B f a : stands_for n B f a -> clean n f a -> opn n 2 (fun i => neg_val (f i)) (neg_rns a).
Proof.
  intros S C. pose proof (stands_length _ _ _ _ S) as La. destruct S as [R _]. unfold opn, operand, neg_rns, negate_rns_for_var_add. apply forall2_mapn with (d := []); [rewrite map_length; exact La |]. intros i Hi.
  rewrite (nth_map_lt (fun r => map2 negate_word r MODULI_SUB) a i [] []) by lia. pose proof (forall2_nth _ _ _ 0 [] i R ltac:(rewrite map_length, seq_length; lia)) as [Ri Wi]. fold (mapn n f) in Ri. rewrite mapn_nth in Ri by exact Hi. apply rep_iff in Ri; [| apply coprime_positive]. unfold neg_val.
  destruct (C i Hi) as [[E Z0] | [P0 NZ]].
  - rewrite E. rewrite Z.eqb_refl. replace (B377 - 0 - 2 ^ 16) with (B377 - 2 ^ 16) by lia. destruct (negate_zero MODULI MODULI_SUB (nth i a []) subs_377 (rep_length _ _ _ Ri) Z0) as [H1 H2]. split; [apply rep_iff; [apply coprime_positive | exact H1] | exact H2].
  - rewrite (proj2 (Z.eqb_neq (f i) 0)) by lia. rewrite Z.sub_0_r. destruct (negate_row_ok MODULI RNS_MODULI_T MODULI_SUB (f i) (nth i a []) offsets_377 subs_377 Ri Wi NZ) as [H1 H2]. split; [apply rep_iff; [apply coprime_positive | exact H1] | exact H2].
Qed.
(** the zero check: the word of the modulus 2^16 is not zero unless the whole row is *)
Definition safe_rows (a : batch) : Prop := Forall (fun r => Forall (fun w => w = 0) r \/ nth 0 r 0 <> 0) a.
Lemma single_eq {A} (x y : A) : [x] = [y] -> x = y.
Proof. intros H. change x with (hd x [x]). rewrite H. reflexivity. Qed.
Lemma subs_range : Forall (fun s => 0 <= s < 65536) MODULI_SUB.
Proof. pose proof subs_377 as F. induction F as [|m s ms ss [H _] F IH]; constructor; [exact H | exact IH]. Qed.
Lemma subs_length : length MODULI_SUB = length MODULI.
Proof. symmetry. apply (Forall2_length _ _ _ subs_377). Qed.
Lemma zero_repeat (c : list Z) : Forall (fun w => w = 0) c -> c = repeat 0 (length c).
Proof. induction 1 as [|w c -> F IH]; [reflexivity |]. cbn [length repeat]. rewrite <- IH. reflexivity. Qed.
Lemma neg_zc_step n B f a : stands_for n B f a -> clean n f a -> safe_rows a -> opn n 2 (fun i => neg_zc_val (f i)) (neg_rns_zc a).
Proof.
  intros S C SR. pose proof (stands_length _ _ _ _ S) as La. destruct S as [R _]. unfold opn, operand, neg_rns_zc, negate_rns_for_var_add_zero_check. apply forall2_mapn with (d := []); [rewrite map_length; exact La |]. intros i Hi.
  rewrite (nth_map_lt (fun r => map2 negate_word_zero_check r MODULI_SUB) a i [] []) by lia. pose proof (forall2_nth _ _ _ 0 [] i R ltac:(rewrite map_length, seq_length; lia)) as [Ri Wi]. fold (mapn n f) in Ri. rewrite mapn_nth in Ri by exact Hi. apply rep_iff in Ri; [| apply coprime_positive]. unfold neg_zc_val.
  unfold safe_rows in SR. rewrite Forall_forall in SR. specialize (SR (nth i a []) ltac:(apply nth_In; lia)). pose proof (rep_length _ _ _ Ri) as Lr.
  destruct (C i Hi) as [[E Z0] | [P0 NZ]].
  - rewrite E, Z.eqb_refl. pose proof (C48_zero_check_zero (length MODULI) MODULI_SUB subs_length) as H. unfold negate_rns_for_var_add_zero_check in H. cbn [map] in H. apply single_eq in H. rewrite (zero_repeat _ Z0), Lr, H. split.
    + apply rep_iff; [apply coprime_positive |]. apply zero_rep; [| apply repeat_length]. apply Forall_forall. intros w Hw. apply repeat_spec in Hw. exact Hw.
    + apply Forall_forall. intros w Hw. apply repeat_spec in Hw. lia.
  - rewrite (proj2 (Z.eqb_neq (f i) 0)) by lia. assert (AN : Forall (fun w => w <> 0) (nth i a [])).
    { destruct offsets_cons as (ts & ET & NT). unfold no_zero_word in NZ. rewrite ET in NZ. inversion NZ as [|t0 w0 ts0 c0 H0 H1 H2 H3]; subst. rewrite <- H3 in *. constructor.
      - destruct SR as [SR | SR]; [| exact SR]. rewrite Forall_cons_iff in SR. destruct SR as [_ SR]. exfalso. destruct NT as [|t ts' Nt NT]; [rewrite length_377 in Lr; inversion H1; subst; discriminate Lr |]. inversion H1 as [|? ? ? ? H5 H6]; subst. rewrite Forall_cons_iff in SR. destruct H5; [contradiction | tauto].
      - clear - H1 NT. revert H1. generalize c0. induction NT as [|t ts' Nt NT IH]; intros c H; inversion H as [|? ? ? ? H5 H6]; subst; constructor; [destruct H5; [contradiction | assumption] | apply IH; assumption]. }
    pose proof (C48_zero_check_partial [nth i a []] MODULI_SUB ltac:(constructor; [exact AN | constructor]) subs_range) as H. unfold negate_rns_for_var_add_zero_check, negate_rns_for_var_add in H. cbn [map] in H. apply single_eq in H. rewrite H.
    destruct (negate_row_ok MODULI RNS_MODULI_T MODULI_SUB (f i) (nth i a []) offsets_377 subs_377 Ri Wi NZ) as [H1 H2]. split; [apply rep_iff; [apply coprime_positive | exact H1] | exact H2].
Qed.

Lemma row_sums_cons x r : r <> [] -> row_sums (x :: r) = map (fun p => fst p + snd p) (combine x (row_sums r)).
Proof. destruct r; [contradiction | reflexivity]. Qed.
Lemma sum_step n B l : l <> [] -> (length l < 100)%nat -> Forall (fun o => 1 <= fst (fst o) <= 2 /\ opn n (fst (fst o)) (snd (fst o)) (snd o)) l ->
  (forall i, (i < n)%nat -> 0 <= fold_right (fun o s => snd (fst o) i + s) 0 l < B) ->
  exists c, sum_rns (map snd l) = Some c /\ stands_for n B (fun i => fold_right (fun o s => snd (fst o) i + s) 0 l) c.
Proof.
  intros NE Ll F HB. set (l' := map (fun o : Z * (nat -> Z) * batch => (fst (fst o), mapn n (snd (fst o)), snd o)) l).
  assert (G : good_operands MODULI n l'). { unfold good_operands, l'. apply Forall_map. eapply Forall_impl; [| exact F]. cbn beta. intros [[w f] a] [H1 H2]. cbn [fst snd] in *. split; [lia |]. split; [apply mapn_length | exact H2]. }
  assert (W : weight l' <= 2 * Z.of_nat (length l)). { unfold l'. clear - F. induction F as [|[[w f] a] l [H _] F IH]; [cbn; lia |]. cbn [map]. rewrite weight_cons. cbn [fst snd length] in *. lia. }
  destruct (C48_add_sub_rns_var n l') as (r & E & R); [unfold l'; destruct l; [contradiction | discriminate] | unfold l'; rewrite map_length; lia | exact G | lia |].
  exists r. split; [unfold sum_rns; rewrite <- E; unfold l'; rewrite map_map; reflexivity |]. split; [| exact HB]. fold (mapn n (fun i => fold_right (fun o s => snd (fst o) i + s) 0 l)).
  replace (mapn n _) with (row_sums (map (fun o => snd (fst o)) l')); [exact R |]. clear - NE. unfold l'. rewrite map_map. cbn [fst snd]. induction l as [|[[w f] a] l IH]; [contradiction |]. destruct l as [|o l].
  - cbn [map row_sums fst snd fold_right]. unfold mapn. apply map_ext. intros i. lia.
  - rewrite map_cons, row_sums_cons by discriminate. rewrite IH by discriminate. rewrite map2_combine, mapn_map2. reflexivity.
Qed.

(** ** stacked multiplication *)
Lemma sequence_opt_app {A} (l1 l2 : list (option A)) r1 r2 : sequence_opt l1 = Some r1 -> sequence_opt l2 = Some r2 -> sequence_opt (l1 ++ l2) = Some (r1 ++ r2).
Proof. revert r1. induction l1 as [|[x |] l1 IH]; intros r1 E1 E2; cbn in E1; [injection E1 as <-; exact E2 | | discriminate]. destruct (sequence_opt l1) as [s |]; [| discriminate]. injection E1 as <-. cbn. rewrite (IH s eq_refl E2). reflexivity. Qed.
Lemma mul_app a1 b1 a2 b2 c1 c2 : length a1 = length b1 -> mod_mul_rns_377 a1 b1 = Some c1 -> mod_mul_rns_377 a2 b2 = Some c2 -> mod_mul_rns_377 (a1 ++ a2) (b1 ++ b2) = Some (c1 ++ c2).
Proof.
  intros L. unfold mod_mul_rns_377, mod_mul_rns_2u16. destruct RNS_MAT as [m |]; [| discriminate]. cbn [bind]. unfold mul_unreduced_rns_2u16, moduli_rns_red_internal_2u16. destruct (offsets_u8 RNS_MODULI_T) as [ts |] eqn:ET; [| discriminate]. cbn [bind]. unfold mod_red_rns_2u16. rewrite map2_app by exact L. rewrite !map_app.
  destruct (sequence_opt (map _ (map _ (map2 _ a1 b1)))) as [s1 |] eqn:E1; [| discriminate]. destruct (sequence_opt (map _ (map _ (map2 _ a2 b2)))) as [s2 |] eqn:E2; [| discriminate]. rewrite (sequence_opt_app _ _ _ _ E1 E2). cbn [bind]. unfold moduli_rns_red_internal_2u16. rewrite ET. cbn [bind]. intros H1 H2. injection H1 as <-. injection H2 as <-. rewrite map_app. reflexivity.
Qed.
Lemma mul_nil : mod_mul_rns_377 [] [] = Some [].
Proof.
  unfold mod_mul_rns_377, mod_mul_rns_2u16, RNS_MAT. pose proof pp_pos. destruct pp_M377 as [_ PM]. destruct (matrix_377 pp ltac:(lia)) as (mat & cor & _ & EM & _). rewrite EM. cbn [bind]. unfold mul_unreduced_rns_2u16, moduli_rns_red_internal_2u16, mod_red_rns_2u16, moduli_rns_red_internal_2u16. rewrite (offsets_u8_ok MODULI RNS_MODULI_T offsets_377). reflexivity.
Qed.
Inductive muls (mul : batch -> batch -> option batch) (n : nat) : list batch -> list batch -> list batch -> Prop :=
  | muls_nil : muls mul n [] [] []
  | muls_cons a b c la lb lc : length a = n -> length b = n -> length c = n -> mul a b = Some c -> muls mul n la lb lc -> muls mul n (a :: la) (b :: lb) (c :: lc).
Lemma muls_stack n la lb lc : muls mod_mul_rns_377 n la lb lc -> mod_mul_rns_377 (vstack la) (vstack lb) = Some (vstack lc).
Proof. unfold vstack. induction 1 as [|a b c la lb lc L1 L2 L3 E M IH]; [exact mul_nil |]. cbn [concat]. apply mul_app; [congruence | exact E | exact IH]. Qed.
Lemma vsplit_stack n (l : list batch) k : length l = k -> (0 < k)%nat -> Forall (fun a => length a = n) l -> vsplit k (vstack l) = Some l.
Proof.
  intros Lk Hk F. unfold vsplit, vstack. rewrite (concat_length_const l n) by exact F. change (@length (list (list Z)) l) with (@length batch l). rewrite Lk. rewrite Nat.mul_comm. replace ((n * k) mod k)%nat with 0%nat by (symmetry; apply Nat.mod_mul; lia). cbn [Nat.eqb]. rewrite Nat.div_mul by lia. f_equal. rewrite <- Lk. clear Lk Hk k. change batch with (list (list Z)) in *.
  induction F as [|a l La F IH]; [reflexivity |]. cbn [length concat rows]. rewrite <- La. rewrite firstn_app, firstn_all, Nat.sub_diag, firstn_O, app_nil_r. rewrite skipn_app, skipn_all, Nat.sub_diag. cbn [skipn app]. rewrite La, IH. reflexivity.
Qed.
Lemma muls_lengths mul n la lb lc : muls mul n la lb lc -> Forall (fun a => length a = n) lc /\ length lc = length la.
Proof. induction 1 as [|a b c la lb lc L1 L2 L3 E M [IH1 IH2]]; split; try constructor; cbn; auto. Qed.
Lemma muls_split mul n la lb lc : muls mul n la lb lc -> la <> [] -> vsplit (length la) (vstack lc) = Some lc.
Proof. intros M NE. destruct (muls_lengths _ _ _ _ _ M) as [F1 F2]. apply (vsplit_stack n); [exact F2 | destruct la; [contradiction | cbn; lia] | exact F1]. Qed.

(** ** sums of two, three and four operands *)
Lemma sum2_step n B w1 w2 f g a b : opn n w1 f a -> opn n w2 g b -> 1 <= w1 <= 2 -> 1 <= w2 <= 2 -> (forall i, (i < n)%nat -> 0 <= f i + g i < B) ->
  exists c, sum_rns [a; b] = Some c /\ stands_for n B (fun i => f i + g i) c.
Proof.
  intros Ha Hb W1 W2 HB. destruct (sum_step n B [(w1, f, a); (w2, g, b)]) as (c & E & [R Bc]); [discriminate | cbn; lia | constructor; [split; assumption | constructor; [split; assumption | constructor]] | cbn [fold_right fst snd]; intros i Hi; rewrite Z.add_0_r; apply HB; exact Hi |].
  exists c. split; [exact E |]. split; [| exact HB]. cbn [fold_right fst snd] in R. erewrite map_ext; [exact R |]. cbn beta. intros i. lia.
Qed.
Lemma sum3_step n B w1 w2 w3 f g h a b d : opn n w1 f a -> opn n w2 g b -> opn n w3 h d -> 1 <= w1 <= 2 -> 1 <= w2 <= 2 -> 1 <= w3 <= 2 -> (forall i, (i < n)%nat -> 0 <= f i + g i + h i < B) ->
  exists c, sum_rns [a; b; d] = Some c /\ stands_for n B (fun i => f i + g i + h i) c.
Proof.
  intros Ha Hb Hd W1 W2 W3 HB. destruct (sum_step n B [(w1, f, a); (w2, g, b); (w3, h, d)]) as (c & E & [R Bc]); [discriminate | cbn; lia | repeat (constructor; [split; assumption |]); constructor | cbn [fold_right fst snd]; intros i Hi; specialize (HB i Hi); lia |].
  exists c. split; [exact E |]. split; [| exact HB]. cbn [fold_right fst snd] in R. erewrite map_ext; [exact R |]. cbn beta. intros i. lia.
Qed.
Lemma sum4_step n B w1 w2 w3 w4 f g h k a b d e : opn n w1 f a -> opn n w2 g b -> opn n w3 h d -> opn n w4 k e -> 1 <= w1 <= 2 -> 1 <= w2 <= 2 -> 1 <= w3 <= 2 -> 1 <= w4 <= 2 -> (forall i, (i < n)%nat -> 0 <= f i + g i + h i + k i < B) ->
  exists c, sum_rns [a; b; d; e] = Some c /\ stands_for n B (fun i => f i + g i + h i + k i) c.
Proof.
  intros Ha Hb Hd He W1 W2 W3 W4 HB. destruct (sum_step n B [(w1, f, a); (w2, g, b); (w3, h, d); (w4, k, e)]) as (c & E & [R Bc]); [discriminate | cbn; lia | repeat (constructor; [split; assumption |]); constructor | cbn [fold_right fst snd]; intros i Hi; specialize (HB i Hi); lia |].
  exists c. split; [exact E |]. split; [| exact HB]. cbn [fold_right fst snd] in R. erewrite map_ext; [exact R |]. cbn beta. intros i. lia.
Qed.

(** ** residues and bounds of the negations *)
Add Ring FR : (Fp_ring p377).
Lemma B377_zero : @of_Z p377 B377 = of_Z 0.
Proof. apply of_Z_eq. change (Zpos p377) with pp. rewrite B377_eq. exists 102400. ring. Qed.
Lemma neg_val_opp x : x <> 0 -> @of_Z p377 (neg_val x) = f_opp (of_Z x).
Proof. intros H. unfold neg_val. rewrite (proj2 (Z.eqb_neq x 0) H), Z.sub_0_r. rewrite <- of_Z_sub, B377_zero. ring. Qed.
Lemma neg_zc_opp x : @of_Z p377 (neg_zc_val x) = f_opp (of_Z x).
Proof. unfold neg_zc_val. destruct (Z.eqb_spec x 0) as [-> | H]; [ring |]. rewrite <- of_Z_sub, B377_zero. ring. Qed.
Lemma neg_val_range x : 0 <= x < 51000 * pp -> 51000 * pp <= neg_val x <= B377.
Proof. intros H. assert (P : 65536 < pp) by reflexivity. unfold neg_val. rewrite B377_eq. change (2 ^ 16) with 65536. destruct (x =? 0); lia. Qed.
Lemma neg_zc_range x : 0 <= x < 51000 * pp -> 0 <= neg_zc_val x <= B377.
Proof. intros H. assert (P : 65536 < pp) by reflexivity. unfold neg_zc_val. rewrite B377_eq. destruct (x =? 0); lia. Qed.
Lemma broadcast_stands n a r x : length a = n -> represents MODULI x r -> words16 r -> 0 <= x < 51000 * pp -> stands_for n (51000 * pp) (fun _ => x) (broadcast a r).
Proof.
  intros L R W H. split; [| intros; exact H]. fold (mapn n (fun _ => x)). apply forall2_mapn with (d := []); [unfold broadcast; rewrite map_length; exact L |]. intros i Hi. unfold broadcast. rewrite (nth_map_lt (fun _ => r) a i [] []) by lia. split; assumption.
Qed.
Lemma twist_rns : represents MODULI TWIST_D_INT TWIST_D_RNS /\ words16 TWIST_D_RNS.
Proof.
  assert (E : TWIST_D_RNS = map (fun m => TWIST_D_INT mod m) MODULI) by (destruct moduli_literal as [EM _]; rewrite EM; unfold TWIST_D_RNS; reflexivity). rewrite E.
  exact (forall2_nth _ _ _ 0 [] 0%nat (residues_batch [TWIST_D_INT]) (le_n 1)).
Qed.

(** ** multiplication of a negative representative: the quotient estimate is right, or one too small *)
Lemma matrix_any ms ts pre q M : M = lprod ms -> coprime_moduli ms -> offsets ms ts -> length ms = 50%nat -> rns_precompute ms = Some pre ->
  Forall (fun S => 0 <= float_ceildiv (S * 2 ^ 16) M < 65536 /\ S * 2 ^ 16 <= float_ceildiv (S * 2 ^ 16) M * M < S * 2 ^ 16 + M) (shifted_of M pre) -> 0 < q <= M ->
  exists mat cor, rns_coefficients_precompute pre ms 2 16 M q = Some (mat, cor) /\
  forall x c, rep ms x c -> words16 c -> 0 <= x < M ->
    exists r z, mod_red_rns_row c (mat, cor) 50 16 = Some r /\ rep ms z r /\ Forall (fun v => 0 <= v < 2 ^ 32) r /\ 0 <= z <= 51000 * (q - 1) /\ ((z == x [mod q]) \/ (z == x - M [mod q])).
Proof.
  intros -> HC HO L Hp He Hq. assert (Hn : (0 < length ms <= 64)%nat) by (rewrite L; lia).
  eexists. eexists. split; [exact (coefficients_ok ms ts pre q HO Hn Hq He) |]. intros x c R W Hx. pose proof (reduce_row_any ms ts pre q HC HO Hn Hp Hq He x c R W Hx) as RR. rewrite L in RR. exact RR.
Qed.
Lemma matrix_any_377 : exists mat cor, construct_rns_matrix pp = Some (mat, cor) /\
  forall x c, rep MODULI x c -> words16 c -> 0 <= x < M377 ->
    exists r z, mod_red_rns_row c (mat, cor) 50 16 = Some r /\ rep MODULI z r /\ Forall (fun v => 0 <= v < 2 ^ 32) r /\ 0 <= z <= 51000 * (pp - 1) /\ ((z == x [mod pp]) \/ (z == x - M377 [mod pp])).
Proof.
  assert (Hq : 0 < pp <= M377) by (pose proof pp_pos; pose proof pp_M377; lia). destruct constants_377 as (pre & Ep & He).
  assert (E : construct_rns_matrix pp = rns_coefficients_precompute pre MODULI 2 16 M377 pp) by (unfold construct_rns_matrix; exact (construct_gen MODULI pre pp M377 M377_eq length_377 log_377 Ep)). rewrite E.
  exact (matrix_any MODULI RNS_MODULI_T pre pp M377 M377_eq coprime_377 offsets_377 length_377 Ep He Hq).
Qed.
Lemma mod_red_any n f c : rns_batch MODULI (mapn n f) c -> (forall i, (i < n)%nat -> 0 <= f i < M377) ->
  exists mat r h, construct_rns_matrix pp = Some mat /\ mod_red_rns_2u16 c mat RNS_MODULI_T NUM_MODULI = Some r /\ stands_for n (51000 * pp) h r /\ forall i, (i < n)%nat -> (h i == f i [mod pp]) \/ (h i == f i - M377 [mod pp]).
Proof.
  intros RB FX. destruct matrix_any_377 as (mat & cor & EM & H). exists (mat, cor). pose proof pp_pos as P0.
  assert (S : exists r zs, sequence_opt (map (fun row => mod_red_rns_row row (mat, cor) 50 16) c) = Some r /\ Forall2 (fun z v => (rep MODULI z v /\ Forall (fun w => 0 <= w < 2 ^ 32) v)) zs r /\ Forall2 (fun z x => 0 <= z <= 51000 * (pp - 1) /\ ((z == x [mod pp]) \/ (z == x - M377 [mod pp]))) zs (mapn n f)).
  { assert (FX' : Forall (fun x => 0 <= x < M377) (mapn n f)) by (apply mapn_forall; exact FX). unfold rns_batch in RB. clear FX. revert RB FX'. generalize (mapn n f). intros xs RB. induction RB as [|x v xs c [Rv Wv] RB IH]; intros FX; [exists [], []; repeat split; constructor |]. rewrite Forall_cons_iff in FX. destruct FX as [X1 FX]. destruct (IH FX) as (r & zs & E & F1 & F2). apply rep_iff in Rv; [| apply coprime_positive]. destruct (H x v Rv Wv X1) as (w & z & Ew & Rw & Fw & Bz & Ez).
    exists (w :: r), (z :: zs). cbn [map sequence_opt]. rewrite Ew, E. split; [reflexivity |]. split; constructor; try assumption; split; assumption. }
  destruct S as (r & zs & E & F1 & F2). assert (Lz : length zs = n) by (apply Forall2_length in F2; rewrite mapn_length in F2; exact F2).
  unfold mod_red_rns_2u16, moduli_rns_red_internal_2u16. change RNS_PRECISION with 16. change NUM_MODULI with 50%nat. rewrite (offsets_u8_ok MODULI RNS_MODULI_T offsets_377), E. cbn [bind]. eexists. exists (fun i => nth i zs 0). split; [exact EM |]. split; [reflexivity |]. split; [split |].
  - fold (mapn n (fun i => nth i zs 0)). rewrite <- Lz, <- mapn_of. clear - F1. unfold rns_batch. induction F1 as [|z v zs r [Rv Fv] F1 IH]; [constructor |]. cbn [map]. constructor; [| exact IH]. destruct (map2_word_ok rns_red_word (2 ^ 32) MODULI RNS_MODULI_T z v offsets_377) as [A1 A2]; [intros; apply red_word_ok; assumption | exact Rv | exact Fv |]. split; [apply rep_iff; [apply coprime_positive | assumption] | exact A2].
  - intros i Hi. pose proof (forall2_nth _ _ _ 0 0 i F2 ltac:(lia)) as [B _]. cbn beta. lia.
  - intros i Hi. pose proof (forall2_nth _ _ _ 0 0 i F2 ltac:(lia)) as [_ B]. rewrite mapn_nth in B by exact Hi. exact B.
Qed.
(** f non-negative, g negative *)
Lemma mul_neg_step n f g a b : rns_batch MODULI (mapn n f) a -> rns_batch MODULI (mapn n g) b -> (forall i, (i < n)%nat -> - M377 <= f i * g i < 0) ->
  exists c h, mod_mul_rns_377 a b = Some c /\ stands_for n (51000 * pp) h c /\ forall i, (i < n)%nat -> @of_Z p377 (h i) = f_mul (of_Z (f i)) (of_Z (g i)) \/ @of_Z p377 (h i) = f_add (f_mul (of_Z (f i)) (of_Z (g i))) (of_Z M377).
Proof.
  intros Ra Rb HB. pose proof pp_pos as P0. destruct (mul_batch _ _ a b Ra Rb ltac:(rewrite !mapn_length; reflexivity)) as (c & Ec & Rc). rewrite mapn_map2 in Rc.
  assert (Rc' : rns_batch MODULI (mapn n (fun i => f i * g i + M377)) c).
  { assert (Lc : length c = n) by (apply Forall2_length in Rc; rewrite mapn_length in Rc; lia). apply forall2_mapn with (d := []); [exact Lc |]. intros i Hi. pose proof (forall2_nth _ _ _ 0 [] i Rc ltac:(rewrite mapn_length; lia)) as [H1 H2]. rewrite mapn_nth in H1 by exact Hi. split; [| exact H2]. apply rep_iff; [apply coprime_positive |]. apply rep_iff in H1; [| apply coprime_positive].
    assert (D : Forall (fun m => M377 == 0 [mod m]) MODULI). { apply Forall_forall. intros m Hm. rewrite M377_eq. pose proof (in_divides_lprod m MODULI Hm) as [k Hk]. exists k. lia. }
    unfold rep in *. clear - H1 D. induction H1 as [|m w ms r E H1 IH]; [constructor |]. rewrite Forall_cons_iff in D. destruct D as [D1 D]. constructor; [| apply IH; exact D]. rewrite E. rewrite D1. apply eqm_eq. lia. }
  destruct (mod_red_any n _ c Rc') as (mat & r & h & EM & Er & Sr & Hr). { intros i Hi. specialize (HB i Hi). lia. }
  exists r, h. split; [unfold mod_mul_rns_377, RNS_MAT; rewrite EM; cbn [bind]; unfold mod_mul_rns_2u16; rewrite Ec; exact Er |]. split; [exact Sr |]. intros i Hi. rewrite of_Z_mul, of_Z_add. destruct (Hr i Hi) as [E | E]; [right | left]; apply of_Z_eq; change (Zpos p377) with pp; rewrite E; apply eqm_eq; lia.
Qed.

(** ** the words of a sum with a negated operand are not zero *)
Lemma add_sub_word_nonzero t v : 0 < t <= 255 -> 0 < v < 2 ^ 20 -> add_sub_word v t <> 0.
Proof.
  intros Ht Hv. unfold add_sub_word. change (2 ^ 20) with 1048576 in Hv. rewrite half_split by (change (2 ^ 24) with 16777216; lia). change (2 ^ 16) with 65536. pose proof (Z.div_mod v 65536 ltac:(lia)) as D1. pose proof (Z.mod_pos_bound v 65536 ltac:(lia)) as B1. assert (U1 : 0 <= v / 65536 < 16) by (split; [apply Z.div_pos; lia | apply Z.div_lt_upper_bound; lia]). set (u1 := v / 65536) in *. set (l1 := v mod 65536) in *.
  replace (u32 ((u1 * t) mod 65536 + l1)) with (u1 * t + l1) by (unfold u32; rewrite (Z.mod_small (u1 * t)) by nia; rewrite Z.mod_small by nia; ring). set (i1 := u1 * t + l1). assert (I1 : 0 < i1 <= 69360) by (unfold i1; nia). clearbody i1. clear D1 B1 U1 u1 l1 Hv v.
  rewrite half_split by (change (2 ^ 24) with 16777216; lia). change (2 ^ 16) with 65536. pose proof (Z.div_mod i1 65536 ltac:(lia)) as D3. pose proof (Z.mod_pos_bound i1 65536 ltac:(lia)) as B3. assert (U3 : i1 / 65536 = 0 \/ i1 / 65536 = 1). { assert (0 <= i1 / 65536) by (apply Z.div_pos; lia). assert (i1 / 65536 < 2) by (apply Z.div_lt_upper_bound; lia). lia. }
  set (u3 := i1 / 65536) in *. set (l3 := i1 mod 65536) in *. change (2 ^ 8) with 256. destruct U3 as [U3 | U3]; rewrite U3 in *; [rewrite Z.mul_0_l, Zmod_0_l, Z.add_0_l, Z.mod_small by lia; lia |]. rewrite Z.mul_1_l, (Z.mod_small t) by lia. rewrite Z.mod_small by lia. lia.
Qed.
Lemma sum4_row ts a b d e : Forall (fun t => 0 <= t <= 255) ts -> length a = length ts -> length d = length ts -> length e = length ts ->
  Forall (fun w => 0 <= w < 2 * 2 ^ 16) a -> Forall (fun w => 0 <= w < 2 * 2 ^ 16) b -> Forall (fun w => 0 <= w < 2 * 2 ^ 16) d -> Forall (fun w => 0 <= w < 2 * 2 ^ 16) e -> Forall2 (fun t w => t = 0 \/ 0 < w) ts b ->
  no_zero_word ts (map2 add_sub_word (map2 (fun x y => u32 (x + y)) e (map2 (fun x y => u32 (x + y)) d (map2 (fun x y => u32 (x + y)) b a))) ts).
Proof.
  intros Ft La Ld Le Fa Fb Fd Fe F. revert a d e Ft La Ld Le Fa Fb Fd Fe. induction F as [|t w ts b H F IH]; intros [|x a] [|y d] [|z e] Ft La Ld Le Fa Fb Fd Fe; try discriminate; [constructor |]. rewrite Forall_cons_iff in Ft, Fa, Fb, Fd, Fe. destruct Ft as [Bt Ft], Fa as [Ba Fa], Fb as [Bb Fb], Fd as [Bd Fd], Fe as [Be Fe]. cbn [map2].
  constructor; [| apply IH; cbn in La, Ld, Le; try lia; assumption]. change (2 ^ 16) with 65536 in *. destruct H as [H | H]; [left; exact H | destruct (Z.eq_dec t 0) as [T0 | T0]; [left; exact T0 | right]].
  assert (E : u32 (z + u32 (y + u32 (w + x))) = z + y + w + x) by (unfold u32; rewrite (Z.mod_small (w + x)) by lia; rewrite (Z.mod_small (y + _)) by lia; rewrite Z.mod_small by lia; ring). rewrite E. apply add_sub_word_nonzero; [lia |]. change (2 ^ 20) with 1048576. lia.
Qed.
Lemma neg_row_pos ts c subs : Forall (fun s => 0 <= s < 65536) subs -> length subs = length ts -> words16 c -> no_zero_word ts c -> Forall2 (fun t w => t = 0 \/ 0 < w) ts (map2 negate_word c subs).
Proof.
  intros Fs L W N. revert subs Fs L W. induction N as [|t w ts c H N IH]; intros [|s subs] Fs L W; try discriminate L; [constructor |]. rewrite Forall_cons_iff in Fs. destruct Fs as [Bs Fs]. apply Forall_cons_iff in W. destruct W as [Bw W]. cbn [map2]. constructor; [| apply IH; try assumption; cbn in L; lia].
  destruct H as [H | H]; [left; exact H | right]. unfold negate_word, u32. change (2 ^ 16) with 65536 in *. replace ((- w) mod 65536) with (65536 - w) by (apply (Z.mod_unique_pos _ _ (-1)); lia). rewrite Z.mod_small by lia. lia.
Qed.
Lemma offsets_range : Forall (fun t => 0 <= t <= 255) RNS_MODULI_T.
Proof. pose proof offsets_377 as F. induction F as [|m t ms ts (_ & H & _) F IH]; constructor; [lia | exact IH]. Qed.
Lemma opn_length n w f a : opn n w f a -> length a = n.
Proof. intros H. apply Forall2_length in H. rewrite mapn_length in H. lia. Qed.
Lemma opn_row n w f a i : opn n w f a -> w <= 2 -> (i < n)%nat -> length (nth i a []) = length RNS_MODULI_T /\ Forall (fun d => 0 <= d < 2 * 2 ^ 16) (nth i a []).
Proof.
  intros H Hw Hi. pose proof (forall2_nth _ _ _ 0 [] i H ltac:(rewrite mapn_length; lia)) as [[L _] B]. split; [rewrite L; apply (Forall2_length _ _ _ offsets_377) |]. eapply Forall_impl; [| exact B]. cbn beta. intros d Hd. change (2 ^ 16) with 65536 in *. lia.
Qed.
Lemma sum4_nonzero n w1 w3 w4 B f g h k a b d e c : opn n w1 f a -> stands_for n B g b -> clean n g b -> (forall i, (i < n)%nat -> g i <> 0) -> opn n w3 h d -> opn n w4 k e -> w1 <= 2 -> w3 <= 2 -> w4 <= 2 ->
  sum_rns [a; neg_rns b; d; e] = Some c -> forall i, (i < n)%nat -> no_zero_word RNS_MODULI_T (nth i c []).
Proof.
  intros Ha Sb Cb Nb Hd He W1 W3 W4 E i Hi. pose proof (neg_step n B g b Sb Cb) as Hb. destruct (opn_row _ _ _ _ i Ha W1 Hi) as [La Fa]. destruct (opn_row _ _ _ _ i Hb ltac:(lia) Hi) as [Lb Fb]. destruct (opn_row _ _ _ _ i Hd W3 Hi) as [Ld Fd]. destruct (opn_row _ _ _ _ i He W4 Hi) as [Le Fe].
  pose proof (opn_length _ _ _ _ Ha) as LA. pose proof (opn_length _ _ _ _ Hb) as LB. pose proof (opn_length _ _ _ _ Hd) as LD. pose proof (opn_length _ _ _ _ He) as LE. pose proof (stands_length _ _ _ _ Sb) as LB'.
  unfold sum_rns, add_sub_rns_var in E. cbn [length Nat.ltb Nat.leb negb fold_left] in E. rewrite (offsets_u8_ok MODULI RNS_MODULI_T offsets_377) in E. cbn [bind] in E. injection E as <-.
  rewrite (nth_map_lt (fun r => map2 add_sub_word r RNS_MODULI_T) _ i [] []) by (rewrite !map2_length; lia). rewrite !(nth_map2 _ _ _ i [] [] []) by (rewrite ?map2_length; lia). apply sum4_row; try assumption; [apply offsets_range |].
  unfold neg_rns, negate_rns_for_var_add. rewrite (nth_map_lt (fun r => map2 negate_word r MODULI_SUB) b i [] []) by lia. apply neg_row_pos; [apply subs_range | rewrite subs_length; apply (Forall2_length _ _ _ offsets_377) | |].
  - destruct Sb as [R _]. apply (forall2_nth _ _ _ 0 [] i R). rewrite map_length, seq_length. exact Hi.
  - destruct (Cb i Hi) as [[Z0 _] | [_ N]]; [destruct (Nb i Hi Z0) | exact N].
Qed.
Lemma sum2_rep n w1 w2 f g a b : opn n w1 f a -> opn n w2 g b -> 1 <= w1 <= 2 -> 1 <= w2 <= 2 -> exists c, sum_rns [a; b] = Some c /\ rns_batch MODULI (mapn n (fun i => f i + g i)) c.
Proof.
  intros Ha Hb W1 W2. destruct (C48_add_sub_rns_var n [(w1, mapn n f, a); (w2, mapn n g, b)]) as (r & E & R); [discriminate | cbn; lia | constructor; [split; [cbn; lia | split; [apply mapn_length | exact Ha]] | constructor; [split; [cbn; lia | split; [apply mapn_length | exact Hb]] | constructor]] | cbn; lia |].
  exists r. split; [exact E |]. cbn [map fst snd row_sums] in R. rewrite map2_combine, mapn_map2 in R. exact R.
Qed.
Lemma stands_rep n B f a : stands_for n B f a -> rns_batch MODULI (mapn n f) a. Proof. intros [R _]. exact R. Qed.
