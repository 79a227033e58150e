(** C61: the reference modular multiplication on residue vectors.
    [represents ms x c]: the words of c are congruent to x modulo the moduli; [rns_batch ms xs a]: the rows of a stand for xs. *)
From Coq Require Import ZArith List Bool Lia.
From Verif Require Import Base.ZSum Base.Word Base.Bits Base.Lists Base.Modeq Base.Crt Base.Fermat.
From Verif Require Import Ckks.Model_barrett Ckks.Model_rns_utils Ckks.Prop_crt Ec.Model_util Ec.Model_field Ec.Model_field_rns Ec.Spec_rns377 Ec.Prop_util Ec.Proof_rns377 Ec.Proof_shifted.
From Verif Require Ec.Model_rnsref.
Import ListNotations.
Local Open Scope Z_scope.

(** ** the folds *)
Lemma fold_once_ok t x : 0 <= t <= 255 -> 0 <= x < 2 ^ 32 -> Model_rnsref.fold_once x t = x / 2 ^ 16 * t + x mod 2 ^ 16.
Proof.
  intros Ht Hx. unfold Model_rnsref.fold_once, shr32. cbn [andb Z.leb Z.ltb Z.compare Pos.compare Pos.compare_cont]. assert (U : 0 <= x / 2 ^ 16 < 65536) by (split; [apply Z.div_pos; [lia | reflexivity] | apply Z.div_lt_upper_bound; [reflexivity | exact (proj2 Hx)]]).
  change 65535 with (Z.ones 16). rewrite !Z.land_ones by lia. rewrite (Z.mod_small (x / 2 ^ 16)) by exact U. pose proof (Z.mod_pos_bound x (2 ^ 16) ltac:(reflexivity)) as B. change (2 ^ 16) with 65536 in *. unfold u32. rewrite (Z.mod_small (x / 65536 * t)) by nia. apply Z.mod_small. nia.
Qed.
Lemma reduce_word_ok m t v : 0 <= t <= 255 -> (2 ^ 16 == t [mod m]) -> 0 <= v < 2 ^ 32 -> 0 <= Model_rnsref.hardware_friendly_mod_reduce v t < 2 ^ 16 /\ (Model_rnsref.hardware_friendly_mod_reduce v t == v [mod m]).
Proof.
  intros Ht E Hv. unfold Model_rnsref.hardware_friendly_mod_reduce. rewrite (fold_once_ok t v Ht Hv). pose proof (fold_word m t v E) as F1.
  assert (D : forall x B, 0 <= x < 65536 * B -> 0 <= x / 2 ^ 16 < B /\ 0 <= x mod 2 ^ 16 < 65536) by (intros x B Hx; split; [change (2 ^ 16) with 65536; split; [apply Z.div_pos; lia | apply Z.div_lt_upper_bound; lia] | apply Z.mod_pos_bound; reflexivity]).
  destruct (D v 65536 ltac:(change (65536 * 65536) with (2 ^ 32); exact Hv)) as [U1 B1]. set (i1 := v / 2 ^ 16 * t + v mod 2 ^ 16) in *. assert (I1 : 0 <= i1 < 65536 * (t + 1)) by (unfold i1; nia).
  rewrite (fold_once_ok t i1 Ht) by (change (2 ^ 32) with (65536 * 65536); nia). pose proof (fold_word m t i1 E) as F2. destruct (D i1 (t + 1) I1) as [U2 B2]. set (i2 := i1 / 2 ^ 16 * t + i1 mod 2 ^ 16) in *. assert (I2 : 0 <= i2 <= 65535 + t * t) by (unfold i2; nia). assert (TT : t * t <= 65025) by nia.
  rewrite (fold_once_ok t i2 Ht) by (change (2 ^ 32) with 4294967296; lia). pose proof (fold_word m t i2 E) as F3. destruct (D i2 2 ltac:(lia)) as [U3 B3]. pose proof (Z.div_mod i2 (2 ^ 16) ltac:(discriminate)) as DM.
  assert (R : 0 <= i2 / 2 ^ 16 * t + i2 mod 2 ^ 16 < 2 ^ 16). { change (2 ^ 16) with 65536 in *. assert (C : i2 / 65536 = 0 \/ i2 / 65536 = 1) by lia. destruct C as [C | C]; rewrite C in *; lia. }
  rewrite Z.mod_small by exact R. split; [exact R |]. rewrite F3, F2, F1. reflexivity.
Qed.

(** one word: the three folds give a 16-bit word congruent to the input, for every uint32 and every offset of a byte *)
Theorem C61_word_reduction : forall m t v, 0 < m -> 0 <= t <= 255 -> (2 ^ 16 - t) mod m = 0 -> 0 <= v < 2 ^ 32 ->
  0 <= Model_rnsref.hardware_friendly_mod_reduce v t < 2 ^ 16 /\ Model_rnsref.hardware_friendly_mod_reduce v t mod m = v mod m.
Proof.
  intros m t v Hm Ht E Hv. destruct (reduce_word_ok m t v Ht) as [B R]; [| exact Hv | split; [exact B | apply eqm_mod_iff; assumption]].
  rewrite <- (Z.mod_small 0 m) in E by lia. apply (eqm_mod_iff _ _ _ Hm) in E. replace (2 ^ 16) with (2 ^ 16 - t + t) by ring. rewrite E. reflexivity.
Qed.
Print Assumptions C61_word_reduction.

(** ** the search for moduli *)
Definition found (st : list Z * list Z * Z * bool) : Prop :=
  let '(ms, os, prod, stop) := st in Forall2 (fun m t => 0 < m <= 2 ^ 16 /\ 0 <= t /\ (2 ^ 16 == t [mod m])) ms os /\ ForallOrdPairs (fun a b => Z.gcd a b = 1) ms /\ prod = lprod ms.
Lemma find_pass_found total initial shift candidates : (initial = 2 ^ 16 /\ shift = 0 \/ initial = 2 ^ 15 /\ shift = 1) -> Forall (fun i => 0 <= i < 255) candidates -> forall st, found st -> found (find_pass total initial shift candidates st).
Proof.
  intros HI. unfold find_pass. induction 1 as [|i l Hi F IH]; intros [[[ms os] prod] stop] H; [exact H |]. cbn [fold_left]. apply IH. destruct stop; [exact H |]. destruct (Z.eqb_spec (Z.gcd (initial - i) prod) 1) as [G | _]; [| exact H]. destruct H as (H1 & H2 & ->). cbv zeta. split; [| split].
  - constructor; [| exact H1]. destruct HI as [[-> ->] | [-> ->]]; rewrite Z.shiftl_mul_pow2 by lia; (split; [change (2 ^ 16) with 65536; change (2 ^ 15) with 32768; lia |]); (split; [change (2 ^ 0) with 1; change (2 ^ 1) with 2; lia |]); [exists 1 | exists 2]; change (2 ^ 16) with 65536; change (2 ^ 15) with 32768; change (2 ^ 0) with 1; change (2 ^ 1) with 2; lia.
  - constructor; [| exact H2]. apply Forall_forall. intros m Hm. assert (D : (m | lprod ms)) by (apply in_divides_lprod; exact Hm). apply Z.gcd_unique; [lia | apply Z.divide_1_l | apply Z.divide_1_l |]. intros d D1 D2. rewrite <- G. apply Z.gcd_greatest; [exact D1 | apply (Z.divide_trans _ m); assumption].
  - unfold lprod. cbn [fold_right]. ring.
Qed.
Lemma find_pass_first total initial shift candidates : forall ms os prod stop, ms <> [] -> fst (fst (fst (find_pass total initial shift candidates (ms, os, prod, stop)))) <> [].
Proof.
  unfold find_pass. induction candidates as [|i l IH]; intros ms os prod stop N; [exact N |]. cbn [fold_left]. destruct stop; [apply IH; exact N |]. destruct (Z.gcd (initial - i) prod =? 1); [cbv zeta; apply IH; discriminate | apply IH; exact N].
Qed.
Lemma find_pass_start total initial shift candidates : fst (fst (fst (find_pass total initial shift (0 :: candidates) ([], [], 1, false)))) <> [].
Proof.
  set (start := @nil Z). assert (E : find_pass total initial shift (0 :: candidates) (start, start, 1, false) = find_pass total initial shift candidates (initial - 0 :: start, Z.shiftl 0 shift :: start, 1 * (initial - 0), total <? 1 * (initial - 0))).
  { unfold find_pass at 1. cbn [fold_left]. rewrite Z.gcd_1_r. reflexivity. }
  rewrite E. apply find_pass_first. discriminate.
Qed.
Lemma rev_fop l : ForallOrdPairs (fun a b => Z.gcd a b = 1) l -> ForallOrdPairs (fun a b => Z.gcd a b = 1) (rev l).
Proof.
  induction 1 as [|x l F H IH]; [constructor |]. cbn [rev]. assert (G : forall l, ForallOrdPairs (fun a b => Z.gcd a b = 1) l -> Forall (fun y => Z.gcd y x = 1) l -> ForallOrdPairs (fun a b => Z.gcd a b = 1) (l ++ [x])).
  { clear. induction 1 as [|y l F H IH]; intros FX; cbn [app]; [constructor; constructor |]. rewrite Forall_cons_iff in FX. constructor; [apply Forall_app; split; [exact F | constructor; [apply FX | constructor]] | apply IH; apply FX]. }
  apply G; [exact IH |]. apply Forall_rev. eapply Forall_impl; [| exact F]. cbn beta. intros y E. rewrite Z.gcd_comm. exact E.
Qed.
Lemma rev_forall2 {A B} (P : A -> B -> Prop) l l' : Forall2 P l l' -> Forall2 P (rev l) (rev l').
Proof. induction 1 as [|x y l l' H _ IH]; [constructor |]. cbn [rev]. apply Forall2_app; [exact IH | constructor; [exact H | constructor]]. Qed.

(** whatever the target, the search returns pairwise coprime moduli of at most 16 bits with the offset of each: 2^16 = t (mod m) *)
Theorem C61_find_moduli : forall total, let '(ms, ts) := find_moduli total 16 in
  ms <> [] /\ coprime_moduli ms /\ Forall2 (fun m t => 0 < m <= 2 ^ 16 /\ 0 <= t /\ (2 ^ 16 - t) mod m = 0) ms ts.
Proof.
  intros total. unfold find_moduli. change (Z.to_nat (2 ^ Z.shiftr 16 1 - 1)) with 255%nat. set (cand := map Z.of_nat (seq 0 255)). assert (FC : Forall (fun i => 0 <= i < 255) cand) by (apply Forall_map, Forall_forall; intros i Hi; apply in_seq in Hi; lia).
  pose proof (find_pass_found total (2 ^ 16) 0 cand ltac:(left; split; reflexivity) FC ([], [], 1, false)) as F1. assert (N1 : fst (fst (fst (find_pass total (2 ^ 16) 0 cand ([], [], 1, false)))) <> []).
  { change cand with (0 :: map Z.of_nat (seq 1 254)). apply find_pass_start. }
  destruct (find_pass total (2 ^ 16) 0 cand ([], [], 1, false)) as [[[ms os] prod] stop]. cbn [fst] in N1. assert (F0 : found ([], [], 1, false)) by (repeat split; constructor). specialize (F1 F0). clear F0.
  assert (F2 : exists ms' os' prod' stop', (if stop then (ms, os, prod, stop) else if prod <? total then find_pass total (2 ^ (16 - 1)) 1 cand (ms, os, prod, false) else (ms, os, prod, stop)) = (ms', os', prod', stop') /\ found (ms', os', prod', stop') /\ ms' <> []).
  { destruct stop; [do 4 eexists; split; [reflexivity | split; assumption] |]. destruct (prod <? total); [| do 4 eexists; split; [reflexivity | split; assumption]]. pose proof (find_pass_found total (2 ^ 15) 1 cand ltac:(right; split; reflexivity) FC (ms, os, prod, false) F1) as F2. pose proof (find_pass_first total (2 ^ 15) 1 cand ms os prod false N1) as N2. change (2 ^ (16 - 1)) with (2 ^ 15). destruct (find_pass total (2 ^ 15) 1 cand (ms, os, prod, false)) as [[[ms' os'] prod'] stop']. do 4 eexists. split; [reflexivity | split; assumption]. }
  destruct F2 as (ms' & os' & prod' & stop' & -> & (F2 & G2 & _) & N2). clear F1 N1 FC. clearbody cand. split; [intros E; apply N2; rewrite <- (rev_involutive ms'), E; reflexivity |]. split.
  - split; [| apply rev_fop; exact G2]. apply Forall_rev. clear - F2. induction F2 as [|m t ms ts H F IH]; constructor; [lia | exact IH].
  - apply rev_forall2. clear - F2. induction F2 as [|m t ms ts (H1 & H2 & H3) F IH]; constructor; [| exact IH]. split; [exact H1 |]. split; [exact H2 |]. rewrite <- (Z.mod_0_l m) by lia. apply eqm_mod_iff; [lia |]. rewrite H3. apply eqm_eq. ring.
Qed.
Print Assumptions C61_find_moduli.

(** ** one row *)
Lemma Forall2_len {A B} (P : A -> B -> Prop) l l' : Forall2 P l l' -> length l = length l'.
Proof. induction 1 as [|? ? ? ? _ _ IH]; [reflexivity | cbn [length]; f_equal; exact IH]. Qed.
Lemma glue_halves b (W : list (list Z)) N : Forall (fun x => 0 <= x <= 255) b -> (length b <= 128)%nat -> length b = length W -> Forall (fun r => length r = N /\ words16 r) W ->
  let product := vecmat32 b (map (fun words => map (fun w => w mod 256) words ++ map (fun w => w / 256) words) W) (N + N) in
  map2 (fun l h => u32 (l + shl32 h 8)) (firstn N product) (skipn N product) = map (fun p => u32 (fst p + u32 (snd p * 2 ^ 8))) (pairs (vecmat32 b (map bytes_of_u16 W) (2 * N))).
Proof.
  intros Fb Lb L FW. cbv zeta. unfold vecmat32. rewrite pairs_seq, map_map. rewrite seq_app, map_app. set (A := map _ (seq 0 N)). set (B := map _ (seq (0 + N) N)). assert (LA : length A = N) by (unfold A; rewrite map_length, seq_length; reflexivity). assert (LB : length B = N) by (unfold B; rewrite map_length, seq_length; reflexivity).
  rewrite firstn_app, LA, Nat.sub_diag. cbn [firstn]. rewrite app_nil_r, firstn_all2 by lia. rewrite skipn_app, LA, Nat.sub_diag. cbn [skipn]. rewrite skipn_all2 by lia. cbn [app].
  apply (list_ext 0); [rewrite map2_length, map_length, seq_length; lia |]. intros j Hj. rewrite map2_length in Hj. rewrite (nth_map2 _ _ _ j 0 0 0) by lia. rewrite nth_map_seq by lia. cbn [Nat.add fst snd].
  assert (EA : nth j A 0 = u32 (dotZ b (map (fun r => nth (2 * j) r 0) (map bytes_of_u16 W)))).
  { unfold A. rewrite nth_map_seq by lia. cbn [Nat.add]. f_equal. rewrite !map_map. apply dot_ext. intros r Hr. rewrite Forall_forall in FW. destruct (FW r Hr) as [Lr _]. destruct (bytes_nth r j ltac:(lia)) as [-> _]. rewrite app_nth1 by (rewrite map_length; lia). rewrite (nth_map_lt _ _ _ _ 0) by lia. reflexivity. }
  assert (EB : nth j B 0 = u32 (dotZ b (map (fun r => nth (2 * j + 1) r 0) (map bytes_of_u16 W)))).
  { unfold B. rewrite (nth_map_lt _ _ _ _ 0%nat) by (rewrite seq_length; lia). rewrite seq_nth by lia. f_equal. rewrite !map_map. apply dot_ext. intros r Hr. rewrite Forall_forall in FW. destruct (FW r Hr) as [Lr _]. destruct (bytes_nth r j ltac:(lia)) as [_ ->]. rewrite app_nth2 by (rewrite map_length; lia). rewrite map_length, Lr. replace (0 + N + j - N)%nat with j by lia. rewrite (nth_map_lt _ _ _ _ 0) by lia. reflexivity. }
  rewrite EA, EB. reflexivity.
Qed.

Lemma corrected_same c W cor n : words16 c -> length c = n -> (0 < n <= 64)%nat -> length W = (2 * n)%nat -> Forall (fun r => length r = (n + 1)%nat /\ words16 r) W ->
  Model_rnsref.corrected_row 16 c (map (fun words => map (fun w => w mod 256) words ++ map (fun w => w / 256) words) W) cor n = mod_red_rns_row c (map bytes_of_u16 W, cor) n 16.
Proof.
  intros Wc L Hn LW FW. unfold Model_rnsref.corrected_row, mod_red_rns_row. pose proof (bytes_range c Wc) as Fb. assert (Lb : length (bytes_of_u16 c) = (2 * n)%nat) by (rewrite bytes_length, L; reflexivity). rewrite !map_length, Lb, LW, Nat.eqb_refl. cbn [andb]. destruct (length cor =? n)%nat; [| reflexivity]. cbn [negb].
  set (b := bytes_of_u16 c) in *. set (WR := map _ W). assert (HR : length (hd [] WR) = (n + 1 + (n + 1))%nat). { unfold WR. destruct W as [|r W']; [cbn in LW; lia |]. rewrite Forall_cons_iff in FW. cbn [map hd]. rewrite app_length, !map_length. lia. }
  assert (HL : length (hd [] (map bytes_of_u16 W)) = (2 * (n + 1))%nat). { destruct W as [|r W']; [cbn in LW; lia |]. rewrite Forall_cons_iff in FW. cbn [map hd]. rewrite bytes_length. lia. }
  rewrite HR, HL. pose proof (glue_halves b W (n + 1) Fb ltac:(lia) ltac:(lia) FW) as G. cbv zeta in G. fold WR in G. cbv zeta. set (product := vecmat32 b WR (n + 1 + (n + 1))) in *. assert (LP : length product = (n + 1 + (n + 1))%nat) by (unfold product, vecmat32; rewrite map_length, seq_length; reflexivity).
  rewrite firstn_length, skipn_length, LP. replace (Nat.min (n + 1) (n + 1 + (n + 1)) =? n + 1 + (n + 1) - (n + 1))%nat with true by (symmetry; apply Nat.eqb_eq; lia). cbn [negb]. rewrite G.
  destruct (glue_ok b W (n + 1) Fb ltac:(lia) ltac:(lia) FW) as [G2 GB]. rewrite G2. rewrite seq_app, map_app. cbn [seq map Nat.add]. rewrite skipn_app, skipn_all2, map_length, seq_length, Nat.sub_diag by (rewrite map_length, seq_length; lia). cbn [skipn app map].
  set (qe := dotZ b (map (fun r => nth n r 0) W)). specialize (GB n). fold qe in GB. rewrite Lb in GB. assert (KE : shr32 qe 16 = (qe / 2 ^ 16) mod 2 ^ 16). { unfold shr32. cbn [andb Z.leb Z.ltb Z.compare Pos.compare Pos.compare_cont]. symmetry. apply Z.mod_small. change (2 ^ 16) with 65536. split; [apply Z.div_pos; lia | apply Z.div_lt_upper_bound; lia]. }
  rewrite KE. reflexivity.
Qed.

Section row.
  Context (ms ts pre : list Z) (q : Z).
  Let n := length ms.
  Let M := lprod ms.
  Hypothesis HC : coprime_moduli ms.
  Hypothesis HO : offsets ms ts.
  Hypothesis Hn : (0 < n <= 64)%nat.
  Hypothesis Hpre : rns_precompute ms = Some pre.
  Hypothesis Hq : 0 < q.
  Hypothesis HM : 1020 * Z.of_nat n * q <= M.
  Let e (S : Z) := float_ceildiv (S * 2 ^ 16) M.
  Let wrow (S : Z) := map (fun m => (S mod q) mod m) ms ++ [e S].
  Let halves (words : list Z) := map (fun w => w mod 256) words ++ map (fun w => w / 256) words.

  Lemma estimates : Forall (fun S => 0 <= e S < 65536 /\ S * 2 ^ 16 <= e S * M < S * 2 ^ 16 + M) (shifted_of M pre).
  Proof. apply estimates_exact; [exact HC | exact (ms_range ms ts HO) | exact Hpre]. Qed.
  Lemma rows_ok : Forall (fun r => length r = (n + 1)%nat /\ words16 r) (map wrow (shifted_of M pre)).
  Proof. apply Forall_map. eapply Forall_impl; [| exact estimates]. cbn beta. intros S [B _]. unfold wrow. split; [rewrite app_length, map_length; reflexivity |]. apply Forall_app. split; [apply (words_mod ms ts HO Hn) | constructor; [exact B | constructor]]. Qed.

  Lemma constants_ok : Model_rnsref.rns_coefficients_precompute pre ms 2 16 M q = Some (map halves (map wrow (shifted_of M pre)), map (fun m => ((- M) mod q) mod m) ms).
  Proof.
    unfold Model_rnsref.rns_coefficients_precompute. assert (MP : 0 < M) by (apply lprod_pos; apply HC). destruct (Z.eqb_spec q 0); [lia |]. destruct (Z.eqb_spec M 0); [lia |]. cbn [orb]. fold (shifted_of M pre). cbv zeta.
    assert (E : sequence_opt (map (Model_rnsref.stacked_row ms 16 M q) (shifted_of M pre)) = Some (map halves (map wrow (shifted_of M pre)))).
    { pose proof estimates as He. induction He as [|S l [B _] He IH]; [reflexivity |]. cbn [map sequence_opt]. rewrite IH. unfold Model_rnsref.stacked_row, Model_rnsref.to_rns. rewrite (np_u16_ok ms Hn _ (words_mod ms ts HO Hn (S mod q))). fold (e S). rewrite (np_u16_ok ms Hn) by (constructor; [exact B | constructor]). reflexivity. }
    rewrite E. unfold Model_rnsref.to_rns. rewrite (np_u16_ok ms Hn _ (words_mod ms ts HO Hn ((- M) mod q))). reflexivity.
  Qed.

  Lemma product_row x y a b : rep ms x a -> rep ms y b -> words16 a -> words16 b -> 0 <= x * y -> 2 ^ 16 * (x * y) + 510 * Z.of_nat n * M < 2 ^ 16 * M ->
    exists z, Model_rnsref.rns_mod_reduce_row 16 a b n ts (map halves (map wrow (shifted_of M pre))) (map (fun m => ((- M) mod q) mod m) ms) pre M = Some z /\ (z == x * y [mod q]) /\ 0 <= z <= 1020 * Z.of_nat n * (q - 1).
  Proof.
    intros Ra Rb Wa Wb Hxy Hb. unfold Model_rnsref.rns_mod_reduce_row. assert (La : length a = n) by exact (rep_length _ _ _ Ra). assert (Lb : length b = n) by exact (rep_length _ _ _ Rb). assert (Lt : length ts = n) by (unfold n; symmetry; exact (Forall2_len _ _ _ HO)).
    rewrite La, Lb, Lt, Nat.eqb_refl. cbn [andb negb]. destruct (mul_words ms x y a b Ra Rb Wa Wb) as [Rp Bp]. set (mul := map2 _ a b) in *. cbv zeta.
    destruct (map2_word_ok Model_rnsref.hardware_friendly_mod_reduce (2 ^ 32) ms ts (x * y) mul HO) as [Rt Wt]; [intros; apply reduce_word_ok; assumption | exact Rp | exact Bp |]. set (tower := map2 _ mul ts) in *.
    assert (Hq' : 0 < q <= M) by (split; [exact Hq | nia]).
    rewrite (corrected_same tower (map wrow (shifted_of M pre)) _ n Wt (rep_length _ _ _ Rt) Hn); [| rewrite map_length; exact (shifted_length ms pre HC Hpre) | exact rows_ok].
    rewrite map_map. destruct (reduce_row_ok ms ts pre q HC HO Hn Hpre Hq' estimates (x * y) tower Rt Wt Hxy) as (r & z & Er & Rz & Fr & Ez & Bz & _). { fold n M. lia. }
    fold n in Er. match goal with |- context [ mod_red_rns_row ?a ?b ?c ?d] => replace (mod_red_rns_row a b c d) with (Some r) by (symmetry; exact Er) end. fold n in Bz. exists z. destruct (map2_word_ok Model_rnsref.hardware_friendly_mod_reduce (2 ^ 32) ms ts z r HO) as [Rf Wf]; [intros; apply reduce_word_ok; assumption | exact Rz | exact Fr |]. set (fin := map2 _ r ts) in *. assert (Lf : length fin = length ms) by exact (rep_length _ _ _ Rf).
    destruct (C43_rns_reconstruct ms fin HC Lf) as (pre' & w & Ep & Ew & Bw & Hw). rewrite Hpre in Ep. injection Ep as <-. unfold rns_reconstruct in Ew. assert (Lpre : length pre = length ms) by (destruct (icrt_ok ms HC) as (p & Ep & L & _); rewrite Hpre in Ep; injection Ep as <-; exact L). rewrite Lf, Lpre, !Nat.eqb_refl in Ew. cbn [andb negb] in Ew. unfold total_modulus in Ew. rewrite fold_left_mul, Z.mul_1_l in Ew. injection Ew as Ew.
    unfold Model_rnsref.rns_reconstruct. rewrite Lf, Lpre, Nat.ltb_irrefl. unfold M. rewrite Ew. split; [f_equal | split; [exact Ez | exact Bz]].
    apply (eqm_small (lprod ms)); [exact Bw | fold M; nia |]. apply (crt_unique ms w z HC). intros m Hm. apply (In_nth _ _ 0) in Hm. destruct Hm as (i & Hi & <-). pose proof (proj1 HC) as HP. rewrite Forall_forall in HP. pose proof (HP _ (nth_In ms 0 Hi)) as Pm. apply (eqm_mod_iff _ _ _ Pm). rewrite Hw by exact Hi.
    apply rep_iff in Rf; [| apply HC]. destruct Rf as [_ Rf]. specialize (Rf i Hi). rewrite (nth_indep ms 1 0 Hi) in Rf. exact Rf.
  Qed.
End row.

(** the reference product: build the moduli for any target, the constants for any modulus q, and multiply two batches of residue
    vectors.  The result is congruent to the product modulo q and below 1020 n q, for every pair of integers whose product stays
    below M (1 - 510 n / 2^16), where n is the number of moduli and M is their product. *)
Theorem C61_reference_product : forall total q ms ts M xs ys a b,
  find_moduli total 16 = (ms, ts) -> M = lprod ms -> (length ms <= 64)%nat -> Forall (fun t => t <= 255) ts -> 0 < q -> 1020 * Z.of_nat (length ms) * q <= M ->
  rns_batch ms xs a -> rns_batch ms ys b -> Forall2 (fun x y => 0 <= x * y /\ 2 ^ 16 * (x * y) + 510 * Z.of_nat (length ms) * M < 2 ^ 16 * M) xs ys ->
  exists icrt mat cor zs, rns_icrt_factors_compute M ms = Some icrt /\ Model_rnsref.rns_coefficients_precompute icrt ms 2 16 M q = Some (mat, cor) /\
    Model_rnsref.rns_mod_reduce (Some 16) a b (length ms) ts mat cor icrt M = Some zs /\ length zs = length xs /\
    forall i, (i < length xs)%nat -> nth i zs 0 mod q = (nth i xs 0 * nth i ys 0) mod q /\ 0 <= nth i zs 0 <= 1020 * Z.of_nat (length ms) * (q - 1).
Proof.
  intros total q ms ts M xs ys a b FM -> Ln FT Hq HM Ra Rb FX. pose proof (C61_find_moduli total) as H. rewrite FM in H. destruct H as (NE & HC & HO').
  assert (HO : offsets ms ts). { clear - HO' FT. induction HO' as [|m t ms ts (H1 & H2 & H3) F IH]; [constructor |]. rewrite Forall_cons_iff in FT. constructor; [| apply IH, FT]. split; [exact H1 |]. split; [lia |]. rewrite <- (Z.mod_0_l m) in H3 by lia. apply eqm_mod_iff in H3; [| lia]. replace (2 ^ 16) with (2 ^ 16 - t + t) by ring. rewrite H3. reflexivity. }
  assert (Hn : (0 < length ms <= 64)%nat) by (destruct ms; [congruence | cbn [length] in *; lia]).
  destruct (icrt_ok ms HC) as (pre & Hpre & _ & _). exists pre. eexists. eexists. pose proof Hpre as Hp. unfold rns_precompute, total_modulus in Hp. rewrite fold_left_mul, Z.mul_1_l in Hp.
  pose proof (constants_ok ms ts pre q HC HO Hn Hpre Hq) as K. set (mat := map _ (map _ _)) in K. set (cor := map _ ms) in K.
  assert (S : exists zs, sequence_opt (map (fun p => Model_rnsref.rns_mod_reduce_row 16 (fst p) (snd p) (length ms) ts mat cor pre (lprod ms)) (combine a b)) = Some zs /\ length zs = length xs /\ forall i, (i < length xs)%nat -> nth i zs 0 mod q = (nth i xs 0 * nth i ys 0) mod q /\ 0 <= nth i zs 0 <= 1020 * Z.of_nat (length ms) * (q - 1)).
  { clear K Hp. revert a b Ra Rb. induction FX as [|x y xs ys [X1 X2] FX IH]; intros a b Ra Rb; inversion Ra as [|? ca ? a' [Pa Wa] Ra']; inversion Rb as [|? cb ? b' [Pb Wb] Rb']; subst; [exists []; split; [reflexivity | split; [reflexivity | cbn; lia]] |].
    destruct (IH a' b' Ra' Rb') as (zs & Ez & Lz & Hz). apply rep_iff in Pa; [| apply HC]. apply rep_iff in Pb; [| apply HC]. destruct (product_row ms ts pre q HC HO Hn Hpre Hq HM x y ca cb Pa Pb Wa Wb X1 X2) as (z & Er & E & B). exists (z :: zs). cbn [combine map fst snd sequence_opt]. unfold mat, cor at 1. rewrite Er. fold mat cor. rewrite Ez. split; [reflexivity |]. split; [cbn [length]; lia |].
    intros [|i] Hi; [cbn [nth]; split; [apply eqm_mod_iff; assumption | exact B] | cbn [nth]; apply Hz; cbn [length] in Hi; lia]. }
  destruct S as (zs & Ez & Lz & Hz). exists zs. split; [exact Hp |]. split; [exact K |]. split; [| split; assumption]. unfold Model_rnsref.rns_mod_reduce.
  assert (LL : length a = length b). { rewrite <- (Forall2_len _ _ _ Ra), <- (Forall2_len _ _ _ Rb). exact (Forall2_len _ _ _ FX). }
  rewrite LL, Nat.eqb_refl. exact Ez.
Qed.
Print Assumptions C61_reference_product.

(** the script's own configuration meets the hypotheses: 50 moduli for the 377-bit modulus *)
Lemma script_moduli : let '(ms, ts) := find_moduli RNS_TARGET 16 in length ms = 50%nat /\ forallb (fun t => t <=? 255) ts = true /\ 51000 * MODULUS_377_INT <=? lprod ms = true /\ 2 ^ 16 * (MODULUS_377_INT * MODULUS_377_INT) + 25500 * lprod ms <? 2 ^ 16 * lprod ms = true.
Proof. vm_compute. repeat split. Qed.
Theorem C61_script : forall xs ys, length xs = length ys -> Forall (fun x => 0 <= x <= MODULUS_377_INT) (xs ++ ys) ->
  let '(ms, ts) := find_moduli RNS_TARGET 16 in
  let residues := map (fun x => Model_rnsref.to_rns x ms) in
  exists icrt mat cor zs, rns_icrt_factors_compute (lprod ms) ms = Some icrt /\ Model_rnsref.rns_coefficients_precompute icrt ms 2 16 (lprod ms) MODULUS_377_INT = Some (mat, cor) /\
    Model_rnsref.rns_mod_reduce (Some 16) (residues xs) (residues ys) (length ms) ts mat cor icrt (lprod ms) = Some zs /\ map (fun z => z mod MODULUS_377_INT) zs = map2 (fun x y => (x * y) mod MODULUS_377_INT) xs ys.
Proof.
  intros xs ys L F. destruct (find_moduli RNS_TARGET 16) as [ms ts] eqn:FM. pose proof script_moduli as H. rewrite FM in H. destruct H as (L50 & T & Q & P). apply Z.leb_le in Q. apply Z.ltb_lt in P. cbv zeta.
  pose proof (C61_find_moduli RNS_TARGET) as FH. rewrite FM in FH. destruct FH as (_ & _ & HO). assert (PR : Forall (fun m => 0 < m <= 2 ^ 16) ms) by (clear - HO; induction HO as [|? ? ? ? (H & _) _ IH]; constructor; assumption).
  assert (RB : forall l, rns_batch ms l (map (fun x => Model_rnsref.to_rns x ms) l)).
  { clear - PR. intros l. induction l as [|x l IH]; [constructor |]. cbn [map]. constructor; [| exact IH]. unfold Model_rnsref.to_rns. split; [split; [apply map_length |] |].
    - intros j Hj. rewrite (nth_map_lt _ _ _ _ 1 Hj). rewrite Forall_forall in PR. specialize (PR _ (nth_In ms 1 Hj)). apply Z.mod_mod. lia.
    - apply Forall_map. eapply Forall_impl; [| exact PR]. cbn beta. intros m Hm. pose proof (Z.mod_pos_bound x m ltac:(lia)). lia. }
  assert (QP : 0 < MODULUS_377_INT) by reflexivity. set (q := MODULUS_377_INT) in *. clearbody q.
  destruct (C61_reference_product RNS_TARGET q ms ts (lprod ms) xs ys (map (fun x => Model_rnsref.to_rns x ms) xs) (map (fun x => Model_rnsref.to_rns x ms) ys) FM eq_refl) as (icrt & mat & cor & zs & H1 & H2 & H3 & H4 & H5); [lia | apply Forall_forall; intros t Ht; rewrite forallb_forall in T; apply Z.leb_le, T, Ht | exact QP | rewrite L50; exact Q | apply RB | apply RB | |].
  { rewrite L50. clear - L F P. revert ys L F. induction xs as [|x xs IH]; intros [|y ys] L F; try discriminate L; [constructor |]. cbn [app] in F. rewrite Forall_cons_iff in F. destruct F as [Hx F]. apply Forall_app in F. destruct F as [F1 F2]. rewrite Forall_cons_iff in F2. destruct F2 as [Hy F2]. constructor; [| apply IH; [cbn in L; lia | apply Forall_app; split; assumption]]. change (510 * Z.of_nat 50) with 25500. split; [nia |]. assert (x * y <= q * q) by nia. lia. }
  exists icrt, mat, cor, zs. split; [exact H1 |]. split; [exact H2 |]. split; [exact H3 |]. apply (list_ext 0); [rewrite map_length, map2_length; lia |]. intros i Hi. rewrite map_length in Hi. rewrite (nth_map_lt _ _ _ _ 0 Hi). rewrite (nth_map2 _ _ _ i 0 0 0) by lia. apply H5. lia.
Qed.
Print Assumptions C61_script.

(** imported from another module, the function raises for every input: it reads a variable that only the script defines *)
Theorem C61_imported_refuted : forall a b n ts mat cor icrt M, Model_rnsref.rns_mod_reduce None a b n ts mat cor icrt M = None.
Proof. reflexivity. Qed.
Print Assumptions C61_imported_refuted.

(** the search may return offsets of more than a byte, and for those the three folds lose a carry *)
Theorem C61_wide_offset_refuted : ~ forall total ms ts i v, find_moduli total 16 = (ms, ts) -> (i < length ms)%nat -> 0 <= v < 2 ^ 32 ->
  Model_rnsref.hardware_friendly_mod_reduce v (nth i ts 0) mod nth i ms 0 = v mod nth i ms 0.
Proof.
  intros H. destruct (find_moduli (2 ^ 920) 16) as [ms ts] eqn:FM. assert (E : (fun p => ((58 <? length (fst p))%nat, nth 58 (fst p) 0, nth 58 (snd p) 0)) (find_moduli (2 ^ 920) 16) = (true, 32633, 270)) by (vm_compute; reflexivity).
  rewrite FM in E. cbn [fst snd] in E. injection E as E1 E2 E3. apply Nat.ltb_lt in E1. specialize (H (2 ^ 920) ms ts 58%nat 4294698955 FM E1 ltac:(split; [lia | reflexivity])). rewrite E2, E3 in H. vm_compute in H. discriminate H.
Qed.
Print Assumptions C61_wide_offset_refuted.

Example C61_example : find_moduli (2 ^ 40) 16 = ([65536; 65535; 65533], [0; 1; 3]) /\
  exists icrt mat cor, rns_icrt_factors_compute (65536 * 65535 * 65533) [65536; 65535; 65533] = Some icrt /\ Model_rnsref.rns_coefficients_precompute icrt [65536; 65535; 65533] 2 16 (65536 * 65535 * 65533) 1000003 = Some (mat, cor) /\
    Model_rnsref.rns_mod_reduce (Some 16) [Model_rnsref.to_rns 999999 [65536; 65535; 65533]] [Model_rnsref.to_rns 1000000 [65536; 65535; 65533]] 3 [0; 1; 3] mat cor icrt (65536 * 65535 * 65533) = Some [688002076] /\
    688002076 mod 1000003 = (999999 * 1000000) mod 1000003.
Proof.
  split; [vm_compute; reflexivity |]. eexists. eexists. eexists. split; [vm_compute; reflexivity |]. split; [vm_compute; reflexivity |]. split; [vm_compute; reflexivity | reflexivity].
Qed.
