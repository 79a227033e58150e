(** C48 continued: subtraction of products, and where the two negations fail. *)
From Coq Require Import ZArith List Bool Lia.
From Verif Require Import Base.ZSum Base.Word Base.Bits Base.Lists Base.Modeq Base.Crt Base.Fermat.
From Verif Require Import Ckks.Model_rns_utils Ckks.Prop_crt Ec.Model_util Ec.Model_field Ec.Model_field_rns Ec.Spec_chunks Ec.Spec_rns377 Ec.Proof_chunks Ec.Prop_util Ec.Proof_rns377 Ec.Proof_shifted Ec.Prop_rns377 Ec.Prop_rnsadd.
Import ListNotations.
Local Open Scope Z_scope.

(** every entry of the reduction matrix is positive *)
Lemma M377_literal : M377 = lprod MODULI_LITERAL.
Proof. rewrite M377_eq. destruct moduli_literal as [-> _]. reflexivity. Qed.
Lemma positive_377 : positive_entries MODULUS_377_INT.
Proof.
  intros pre Ep. destruct shifted_377 as (pre' & E & _ & E2). rewrite Ep in E. injection E as <-. pose proof entries_positive as H. rewrite <- E2, Forall_map in H. rewrite <- M377_eq in H. exact H.
Qed.
Lemma coprime_positive : Forall (fun m => 0 < m) MODULI.
Proof. apply coprime_377. Qed.
Lemma M377_pos : 0 < M377.
Proof. rewrite M377_eq. apply lprod_pos, coprime_positive. Qed.
Lemma p_small : 153400 * MODULUS_377_INT < lprod MODULI_LITERAL.
Proof. vm_compute. reflexivity. Qed.
Lemma p_M377 : 153400 * MODULUS_377_INT < M377.
Proof. rewrite M377_literal. exact p_small. Qed.

Lemma rep_unique ms x y c : coprime_moduli ms -> rep ms x c -> rep ms y c -> x == y [mod lprod ms].
Proof.
  intros HC Rx Ry. apply crt_unique; [exact HC |]. clear HC. revert Ry. induction Rx as [|m w ms c E Rx IH]; intros Ry m' Hm; [contradiction |]. inversion Ry as [|? ? ? ? E' Ry']; subst. destruct Hm as [<- | Hm]; [rewrite <- E, <- E'; reflexivity | apply IH; assumption].
Qed.
Lemma zero_rep ms c : Forall (fun w => w = 0) c -> length c = length ms -> rep ms 0 c.
Proof. intros F. revert ms. induction F as [|w c -> F IH]; intros [|m ms] L; try discriminate L; constructor; [apply eqm_refl | apply IH; cbn in L; lia]. Qed.
Lemma zero_row_value z c : rep MODULI z c -> Forall (fun w => w = 0) c -> 0 <= z < M377 -> z = 0.
Proof.
  intros R F B. assert (E : z == 0 [mod M377]) by (rewrite M377_eq; apply (rep_unique MODULI z 0 c); [apply coprime_377 | exact R | apply zero_rep; [exact F | apply (rep_length _ _ _ R)]]). apply (eqm_small M377); [exact B | pose proof M377_pos; lia | exact E].
Qed.

(** the rows of a product: all words zero, or none *)
Theorem C48_product_rows : forall xs ys a b, rns_batch MODULI xs a -> rns_batch MODULI ys b -> length xs = length ys ->
  Forall (fun x => 0 <= x < 468000 * MODULUS_377_INT) xs -> Forall (fun y => 0 <= y < 468000 * MODULUS_377_INT) ys ->
  exists r zs, mod_mul_rns_377 a b = Some r /\ rns_batch MODULI zs r /\ Forall2 (fun z xy => z mod MODULUS_377_INT = xy mod MODULUS_377_INT /\ 0 <= z < 51000 * MODULUS_377_INT) zs (map2 Z.mul xs ys) /\
    Forall2 (fun z row => z = 0 /\ Forall (fun w => w = 0) row \/ no_zero_word RNS_MODULI_T row) zs r.
Proof.
  intros xs ys a b Ra Rb L Fx Fy. destruct (mod_mul_377_batch xs ys a b Ra Rb L Fx Fy) as (r & zs & E & F1 & F2 & F3). exists r, zs. split; [exact E |]. split; [exact F1 |]. split; [exact F2 |]. specialize (F3 positive_377). assert (FB : Forall (fun z => 0 <= z < M377) zs). { pose proof p_M377. clear - F2 H. induction F2 as [|z v zs vs [_ B] F2 IH]; constructor; [lia | exact IH]. }
  clear - F1 F3 FB. unfold rns_batch in F1. induction F1 as [|z c zs r [Rc Wc] F1 IH]; [constructor |]. rewrite Forall_cons_iff in F3, FB. destruct F3 as [D F3], FB as [B FB]. constructor; [| apply IH; assumption]. destruct D as [D | D]; [left | right; exact D]. split; [| exact D]. apply (zero_row_value z c); [apply rep_iff; [apply coprime_positive | exact Rc] | exact D | exact B].
Qed.
Print Assumptions C48_product_rows.

(** subtracting a product that is not zero modulo p *)
Theorem C48_sub_product : forall xs us vs a u v, rns_batch MODULI xs a -> rns_batch MODULI us u -> rns_batch MODULI vs v -> length xs = length us -> length us = length vs ->
  Forall (fun x => 0 <= x < 468000 * MODULUS_377_INT) us -> Forall (fun y => 0 <= y < 468000 * MODULUS_377_INT) vs -> Forall (fun w => w mod MODULUS_377_INT <> 0) (map2 Z.mul us vs) ->
  exists b r rs, mod_mul_rns_377 u v = Some b /\ add_sub_rns_var [a; negate_rns_for_var_add b MODULI_SUB] RNS_MODULI_T = Some r /\ rns_batch MODULI rs r /\
    Forall2 (fun r xw => r mod MODULUS_377_INT = (fst xw - snd xw) mod MODULUS_377_INT /\ fst xw + 51400 * MODULUS_377_INT < r <= fst xw + 102400 * MODULUS_377_INT) rs (combine xs (map2 Z.mul us vs)).
Proof.
  intros xs us vs a u v Ra Ru Rv L1 L2 Fu Fv NZ. destruct (C48_product_rows us vs u v Ru Rv L2 Fu Fv) as (b & zs & E & F1 & F2 & F3). assert (LZ : length xs = length zs). { assert (length zs = length (map2 Z.mul us vs)) by (clear - F2; induction F2; cbn; congruence). rewrite map2_length in H. lia. }
  assert (NW : Forall (no_zero_word RNS_MODULI_T) b). { clear - F2 F3 NZ. revert F2 NZ. generalize (map2 Z.mul us vs) as ws. induction F3 as [|z row zs b D F3 IH]; intros ws F2 NZ; [constructor |]. inversion F2 as [|? w ? ws' [C _] F2']; subst. rewrite Forall_cons_iff in NZ. destruct NZ as [N1 NZ]. constructor; [| apply (IH ws'); assumption]. destruct D as [[-> _] | D]; [| exact D]. exfalso. apply N1. rewrite <- C. reflexivity. }
  destruct (C48_sub_partial xs zs a b Ra F1 LZ NW) as (r & Er & Fr). eexists. exists r. eexists. split; [exact E |]. split; [exact Er |]. split; [exact Fr |].
  assert (P0 : 0 < MODULUS_377_INT) by reflexivity. clear - F2 LZ P0. revert LZ F2. generalize (map2 Z.mul us vs) as ws. intros ws. revert xs ws. generalize MODULUS_377_INT as p, P0. intros p Pp. induction zs as [|z zs IH]; intros [|x xs] ws L F2; try discriminate L; inversion F2 as [|? w ? ws' [C B] F2']; subst; cbn [map2 combine]; constructor; [| apply IH; [cbn in L; lia | exact F2']].
  cbn [fst snd]. split; [| lia]. apply (eqm_mod_iff _ _ _ Pp). apply (eqm_mod_iff _ _ _ Pp) in C. rewrite <- C. exists 102400. ring.
Qed.
Print Assumptions C48_sub_product.

(** FINDING. The plain negation maps the all-zero vector to a vector standing for 102400 p - 2^16, so x - 0 is x - 65536. *)
Lemma negate_zero ms subs c : Forall2 (fun m s => 0 <= s < 65536 /\ (s == B377 - 2 ^ 16 [mod m])) ms subs -> length c = length ms -> Forall (fun w => w = 0) c ->
  rep ms (B377 - 2 ^ 16) (map2 negate_word c subs) /\ Forall (fun d => 0 <= d < 2 * 2 ^ 16) (map2 negate_word c subs).
Proof.
  intros HS. revert c. induction HS as [|m s ms subs [Hs Es] HS IH]; intros c L F; destruct c as [|w c]; try discriminate L; [split; constructor |]. rewrite Forall_cons_iff in F. destruct F as [-> F]. destruct (IH c ltac:(cbn in L; lia) F) as [I1 I2]. cbn [map2].
  assert (E : negate_word 0 s = s) by (unfold negate_word, u32; change ((- 0) mod 2 ^ 16) with 0; apply Z.mod_small; lia). rewrite E. change (2 * 2 ^ 16) with 131072. split; constructor; try assumption. lia.
Qed.
Lemma B377_eq : B377 = 102400 * MODULUS_377_INT.
Proof. reflexivity. Qed.
Theorem C48_sub_zero_refuted : forall x a, rns_batch MODULI [x] [a] ->
  exists r, add_sub_rns_var [[a]; negate_rns_for_var_add [repeat 0 50] MODULI_SUB] RNS_MODULI_T = Some r /\ rns_batch MODULI [x + 102400 * MODULUS_377_INT - 65536] r /\ (x + 102400 * MODULUS_377_INT - 65536) mod MODULUS_377_INT <> (x - 0) mod MODULUS_377_INT.
Proof.
  intros x a Ra. destruct (negate_zero MODULI MODULI_SUB (repeat 0 50) subs_377) as [N1 N2]; [rewrite length_377; reflexivity | apply Forall_forall; intros w Hw; apply repeat_spec in Hw; exact Hw |].
  destruct (C48_add_sub_rns_var 1 [(1, [x], [a]); (2, [B377 - 2 ^ 16], negate_rns_for_var_add [repeat 0 50] MODULI_SUB)]) as (r & E & F); [discriminate | cbn; lia | | cbn; lia |].
  - constructor; [| constructor; [| constructor]]; cbn [fst snd]; (split; [lia |]; split; [reflexivity |]); [exact Ra |]. unfold negate_rns_for_var_add. cbn [map]. constructor; [| constructor]. split; [apply rep_iff; [apply coprime_positive | exact N1] | exact N2].
  - exists r. split; [exact E |]. split. { cbn [map row_sums combine fst snd] in F. replace (x + 102400 * MODULUS_377_INT - 65536) with (x + (B377 - 2 ^ 16)); [exact F |]. rewrite B377_eq. change (2 ^ 16) with 65536. ring. }
    intros H. apply eqm_mod_iff in H; [| reflexivity]. assert (D : (MODULUS_377_INT | 65536)). { destruct H as [k Hk]. exists (102400 - k). lia. } apply Z.divide_pos_le in D; [| lia]. revert D. vm_compute. intros D. apply D. reflexivity.
Qed.
Print Assumptions C48_sub_zero_refuted.

(** FINDING. The zero check also zeroes the word of the modulus 2^16, where zero is an ordinary residue: whenever that word of a
    non-zero operand is zero the difference is wrong modulo p. *)
Definition TAIL : list Z := tl MODULI_LITERAL.
Lemma moduli_cons : MODULI = 65536 :: TAIL.
Proof. destruct moduli_literal as [-> _]. vm_compute. reflexivity. Qed.
Lemma offsets_cons : exists ts, RNS_MODULI_T = 0 :: ts /\ Forall (fun t => t <> 0) ts.
Proof. destruct moduli_literal as [_ ->]. exists (tl RNS_MODULI_T_LITERAL). split; [vm_compute; reflexivity |]. apply Forall_forall. intros t Ht E. subst t. revert Ht. vm_compute. intuition discriminate. Qed.
Lemma tail_gcd : Z.gcd MODULUS_377_INT (lprod TAIL) = 1 /\ MODULUS_377_INT > 65536 /\ (102400 * MODULUS_377_INT) mod 65536 <> 0.
Proof. vm_compute. split; [reflexivity |]. split; [reflexivity | discriminate]. Qed.
Global Opaque TAIL.

Lemma negate_zc_tail ms ts subs x c : offsets ms ts -> Forall (fun t => t <> 0) ts -> Forall2 (fun m s => 0 <= s < 65536 /\ (s == B377 - 2 ^ 16 [mod m])) ms subs -> rep ms x c -> words16 c -> no_zero_word ts c ->
  rep ms (B377 - x) (map2 negate_word_zero_check c subs) /\ Forall (fun d => 0 <= d < 2 * 2 ^ 16) (map2 negate_word_zero_check c subs).
Proof.
  intros HO FT HS R W Z0. destruct (negate_row_ok ms ts subs x c HO HS R W Z0) as [N1 N2]. assert (E : map2 negate_word_zero_check c subs = map2 negate_word c subs); [| rewrite E; split; assumption].
  assert (LS : length subs = length ms) by (clear - HS; induction HS; cbn; congruence). assert (LC : length c = length ms) by exact (rep_length _ _ _ R). clear - Z0 FT. revert subs. induction Z0 as [|t w ts c D Z0 IH]; intros [|s subs]; try reflexivity. rewrite Forall_cons_iff in FT. destruct FT as [T0 FT]. cbn [map2]. rewrite (IH FT). f_equal. destruct D as [D | D]; [contradiction |].
  unfold negate_word_zero_check, negate_word. destruct (Z.eqb_spec w 0); [contradiction |]. rewrite Z.mul_1_r. unfold u32. apply Z.mod_mod. lia.
Qed.
Theorem C48_zero_check_word_refuted : forall x y a b, rns_batch MODULI [x] [a] -> rns_batch MODULI [y] [0 :: b] -> no_zero_word RNS_MODULI_T (0 :: b) -> 0 <= x < 468000 * MODULUS_377_INT -> 0 <= y <= 102400 * MODULUS_377_INT ->
  exists r, add_sub_rns_var [[a]; negate_rns_for_var_add_zero_check [0 :: b] MODULI_SUB] RNS_MODULI_T = Some r /\
    forall v, 0 <= v < M377 -> rns_batch MODULI [v] r -> v mod MODULUS_377_INT <> (x - y) mod MODULUS_377_INT.
Proof.
  intros x y a b Ra Rb NZ Bx By. pose proof coprime_377 as HC. pose proof coprime_positive as HP. pose proof offsets_377 as HO. pose proof subs_377 as HS. pose proof M377_eq as EM. destruct offsets_cons as (ts & ET & FT). rewrite ET in *. rewrite moduli_cons in *. inversion HO as [|? ? ? ? O1 HO']; subst. revert HS. generalize MODULI_SUB as SUBS. intros SUBS HS. inversion HS as [|? s ? subs [Hs Es] HS' ]; subst. 
  inversion Ra as [|? ? ? ? [Ra1 Wa] _]; subst. inversion Rb as [|? ? ? ? [Rb1 Wb] _]; subst. apply rep_iff in Ra1; [| exact HP]. apply rep_iff in Rb1; [| exact HP]. inversion Ra1 as [|? w ? a' Ea Ra']; subst. inversion Rb1 as [|? ? ? ? Eb Rb']; subst. inversion NZ as [|? ? ? ? _ NZ']; subst. unfold words16 in Wb. rewrite Forall_cons_iff in Wb. destruct Wb as [_ Wb].
  destruct (negate_zc_tail TAIL ts subs y b HO' FT HS' Rb' Wb NZ') as [N1 N2].
  unfold add_sub_rns_var. cbn [length Nat.ltb Nat.leb negb fold_left]. rewrite (offsets_u8_ok _ _ HO). cbn [bind]. eexists. split; [reflexivity |]. unfold negate_rns_for_var_add_zero_check. cbn [map map2]. intros v Bv Rv Ev.
  inversion Rv as [|? ? ? ? [Rv1 _] _]; subst. apply rep_iff in Rv1; [| exact HP]. inversion Rv1 as [|? ? ? ? E0 Rv']; subst.
  assert (W0 : 0 <= w < 65536) by (unfold words16 in Wa; rewrite Forall_cons_iff in Wa; exact (proj1 Wa)). assert (E1 : v == x [mod 65536]). { rewrite <- Ea, <- E0. unfold negate_word_zero_check. rewrite Z.eqb_refl, Z.mul_0_r. change (u32 0) with 0. rewrite Z.add_0_l. replace (u32 w) with w by (unfold u32; rewrite Z.mod_small; lia). apply (proj2 (add_sub_word_ok 65536 0 w ltac:(lia) ltac:(apply O1) ltac:(lia))). }
  assert (E2 : v == x + (B377 - y) [mod lprod TAIL]).
  { inversion HC as [HP1 HC1]. inversion HP1 as [|? ? _ HP2]; subst. inversion HC1 as [|? ? _ HC2]; subst. assert (Wa' : Forall (fun d => 0 <= d < 1 * 2 ^ 16) a') by (unfold words16 in Wa; rewrite Forall_cons_iff in Wa; exact (proj2 Wa)).
    destruct (add_rows TAIL 2 1 (B377 - y) x _ a' ltac:(lia) ltac:(lia) ltac:(cbn; lia) N1 Ra' N2 Wa') as [A1 A2].
    destruct (map2_word_ok add_sub_word (2 ^ 24) TAIL ts (B377 - y + x) _ HO' ltac:(intros; apply add_sub_word_ok; assumption) A1) as [C1 C2]; [eapply Forall_impl; [| exact A2]; cbn beta; intros d Hd; change (2 ^ 24) with 16777216; change (2 ^ 16) with 65536 in Hd; lia |].
    rewrite Z.add_comm. apply (rep_unique TAIL v (B377 - y + x) _ (conj HP2 HC2) Rv' C1). }
  destruct tail_gcd as (G & PB & NB). assert (P0 : 0 < MODULUS_377_INT) by lia. apply (eqm_mod_iff _ _ _ P0) in Ev. rewrite B377_eq in *. set (D := v - (x + (102400 * MODULUS_377_INT - y))).
  assert (D1 : (lprod TAIL | D)) by exact E2. assert (D2 : (MODULUS_377_INT | D)). { destruct Ev as [k Hk]. exists (k - 102400). unfold D. lia. }
  assert (D3 : (MODULUS_377_INT * lprod TAIL | D)) by (apply coprime_divide_mul; assumption).
  assert (TP : 0 < lprod TAIL) by (apply lprod_pos; inversion HP; assumption). rewrite EM in Bv. change (lprod (65536 :: TAIL)) with (65536 * lprod TAIL) in Bv. assert (B2 : 0 <= x + (102400 * MODULUS_377_INT - y) < 65536 * lprod TAIL).
  { split; [lia |]. destruct range_377 as [R1 _]. rewrite <- M377_literal, EM in R1. change (lprod (65536 :: TAIL)) with (65536 * lprod TAIL) in R1. assert (PP : MODULUS_377_INT * 65536 <= MODULUS_377_INT * MODULUS_377_INT) by nia. set (pp := MODULUS_377_INT) in *. replace (468000 * pp * (468000 * pp)) with (219024000000 * (pp * pp)) in R1 by ring. change (2 ^ 16) with 65536 in R1. lia. }
  assert (D0 : D = 0). { destruct D3 as [k Hk]. assert (- (65536 * lprod TAIL) < D < 65536 * lprod TAIL) by (unfold D; lia). assert (PT : 65536 * lprod TAIL < MODULUS_377_INT * lprod TAIL) by (apply Z.mul_lt_mono_pos_r; lia). set (PQ := MODULUS_377_INT * lprod TAIL) in *. assert (K : k = 0 \/ 1 <= k \/ k <= -1) by lia. destruct K as [-> | [K | K]]; [lia | nia | nia]. }
  apply NB. destruct E1 as [k1 H1]. inversion Eb as [k2 H2]. apply Z.mod_divide; [lia |]. exists (k1 - k2). unfold D in D0. lia.
Qed.
Print Assumptions C48_zero_check_word_refuted.

(** such operands are among the products: the product of 53719 and 1 *)
Definition residues (ms : list Z) (x : Z) : list Z := map (fun m => x mod m) ms.
Definition product_row (ms ts : list Z) (x y : Z) : list Z := map2 rns_red_word (map2 (fun x y => u32 (x * y)) (residues ms x) (residues ms y)) ts.
Definition value_lit (M : Z) (c : list Z) (x : Z) : Z := dotZ (bytes_of_u16 c) SHIFTED_P + (dotZ (bytes_of_u16 c) SHIFTED - x) / M * ((- M) mod MODULUS_377_INT).
Lemma red_value_lit c x : red_value MODULUS_377_INT c x = value_lit (lprod MODULI_LITERAL) c x.
Proof. unfold red_value. destruct (rns_precompute MODULI) as [pre |] eqn:E; [| destruct shifted_377 as (? & E' & _); rewrite E in E'; discriminate E']. pose proof (row_value_377 pre c x E) as H. rewrite <- M377_eq in H. rewrite H. unfold value_lit. rewrite M377_literal. reflexivity. Qed.
Lemma witness_literal : let v x y := value_lit (lprod MODULI_LITERAL) (product_row MODULI_LITERAL RNS_MODULI_T_LITERAL x y) (x * y) mod 65536 =? 0 in (v 53719 1, v 1 3) = (true, false).
Proof. vm_compute. reflexivity. Qed.
Lemma witness_values : red_value MODULUS_377_INT (product_row MODULI RNS_MODULI_T 53719 1) 53719 mod 65536 = 0 /\ red_value MODULUS_377_INT (product_row MODULI RNS_MODULI_T 1 3) 3 mod 65536 <> 0.
Proof.
  pose proof witness_literal as H. cbv beta zeta in H. rewrite <- !red_value_lit in H. destruct moduli_literal as [EM ET]. rewrite <- EM, <- ET in H. change (53719 * 1) with 53719 in H. change (1 * 3) with 3 in H.
  revert H. generalize (red_value MODULUS_377_INT (product_row MODULI RNS_MODULI_T 53719 1) 53719), (red_value MODULUS_377_INT (product_row MODULI RNS_MODULI_T 1 3) 3). intros u v H. apply pair_equal_spec in H. destruct H as [H1 H2]. split; [apply Z.eqb_eq; exact H1 | apply Z.eqb_neq; exact H2].
Qed.
Lemma witness_value : red_value MODULUS_377_INT (product_row MODULI RNS_MODULI_T 53719 1) 53719 mod 65536 = 0.
Proof. exact (proj1 witness_values). Qed.
Theorem C48_zero_check_product_refuted : forall x a, rns_batch MODULI [x] [a] -> 0 <= x < 468000 * MODULUS_377_INT ->
  exists b r, mod_mul_rns_377 [residues MODULI 53719] [residues MODULI 1] = Some b /\ add_sub_rns_var [[a]; negate_rns_for_var_add_zero_check b MODULI_SUB] RNS_MODULI_T = Some r /\
    forall v, 0 <= v < M377 -> rns_batch MODULI [v] r -> v mod MODULUS_377_INT <> (x - 53719 * 1) mod MODULUS_377_INT.
Proof.
  intros x a Ra Bx. pose proof (residues_batch [53719]) as R1. pose proof (residues_batch [1]) as R2. cbn [map] in R1, R2. fold (residues MODULI 53719) in R1. fold (residues MODULI 1) in R2.
  destruct (C48_product_rows [53719] [1] _ _ R1 R2 eq_refl) as (b & zs & E & F1 & F2 & F3); [constructor; [split; [discriminate | reflexivity] | constructor] | constructor; [split; [discriminate | reflexivity] | constructor] |].
  destruct (mul_batch [53719] [1] _ _ R1 R2 eq_refl) as (c & Ec & Rc). assert (Ecc : c = [product_row MODULI RNS_MODULI_T 53719 1]) by (unfold mul_unreduced_rns_2u16, moduli_rns_red_internal_2u16 in Ec; rewrite (offsets_u8_ok MODULI RNS_MODULI_T offsets_377) in Ec; cbn [bind map2 map] in Ec; injection Ec as <-; reflexivity).
  destruct range_377 as [G1 G2]. rewrite <- M377_literal in G1, G2. destruct (matrix_377 MODULUS_377_INT (conj eq_refl G2)) as (mat & cor & _ & EM & _).
  destruct (mod_red_batch MODULUS_377_INT mat cor _ c (conj eq_refl G2) EM Rc) as (b' & zs' & E' & F1' & F2' & _ & V). { cbn [map2]. constructor; [| constructor]. split; [lia |]. assert (P0 : 0 < MODULUS_377_INT) by reflexivity. change (2 ^ 16) with 65536 in *. nia. }
  assert (EB : b' = b). { unfold mod_mul_rns_377, RNS_MAT in E. rewrite EM in E. cbn [bind] in E. unfold mod_mul_rns_2u16 in E. rewrite Ec in E. cbn [bind] in E. rewrite E' in E. injection E as E. exact E. }
  subst b' c. cbn [map2] in V, F2'. change (53719 * 1) with 53719 in *. pose proof witness_value as WV. revert WV V. generalize (red_value MODULUS_377_INT (product_row MODULI RNS_MODULI_T 53719 1) 53719) as z'. intros z' WV V. subst zs'. clear E' Ec Rc. inversion F1' as [|? row ? rows [Rr Wr] Fn]; subst. inversion Fn; subst. clear Fn. inversion F2' as [|? ? ? ? [Cz Bz] _]; subst. inversion F2 as [|z ? zs' ? [Cz2 Bz2] Hn]; subst. inversion Hn; subst. clear Hn. inversion F3 as [|? ? ? ? D Hn]; subst. clear Hn.
  assert (NZ : no_zero_word RNS_MODULI_T row). { destruct D as [[-> _] | D]; [| exact D]. exfalso. revert Cz2. vm_compute. discriminate. }
  assert (W0 : exists row', row = 0 :: row').
  { pose proof Rr as Rr'. apply rep_iff in Rr'; [| apply coprime_positive]. rewrite moduli_cons in Rr'. inversion Rr' as [|? w ? row' E0 _]; subst. exists row'. f_equal. assert (W0 : 0 <= w < 65536) by (unfold words16 in Wr; rewrite Forall_cons_iff in Wr; exact (proj1 Wr)). apply eqm_mod_iff in E0; [| lia]. rewrite WV in E0. rewrite Z.mod_small in E0 by lia. exact E0. }
  destruct W0 as (row' & ->). destruct (C48_zero_check_word_refuted x z' a row' Ra) as (r & Er & Hr); [constructor; [split; assumption | constructor] | exact NZ | exact Bx | lia |].
  exists [0 :: row'], r. split; [exact E |]. split; [exact Er |]. intros v Bv Rv H. apply (Hr v Bv Rv). rewrite H. assert (P0 : 0 < MODULUS_377_INT) by reflexivity. apply (eqm_mod_iff _ _ _ P0). apply (eqm_mod_iff _ _ _ P0) in Cz. rewrite Cz. reflexivity.
Qed.
Print Assumptions C48_zero_check_product_refuted.

(** FINDING. Up to 255 operands are accepted, but negated operands count double: the sum of 255 of them loses its carry. *)
Lemma overflow_literal : match add_sub_rns_var (repeat (negate_rns_for_var_add [repeat 1 50] MODULI_SUB) 255) RNS_MODULI_T_LITERAL with
  Some [r] => nth 1 r 0 mod nth 1 MODULI_LITERAL 1 =? (255 * (102400 * MODULUS_377_INT - 1)) mod nth 1 MODULI_LITERAL 1 | _ => true end = false.
Proof. vm_compute. reflexivity. Qed.
Theorem C48_many_negated_refuted : exists b r, rns_batch MODULI [1] [b] /\ operand MODULI 2 [102400 * MODULUS_377_INT - 1] (negate_rns_for_var_add [b] MODULI_SUB) /\
  add_sub_rns_var (repeat (negate_rns_for_var_add [b] MODULI_SUB) 255) RNS_MODULI_T = Some [r] /\ ~ represents MODULI (255 * (102400 * MODULUS_377_INT - 1)) r.
Proof.
  exists (repeat 1 50). assert (RB : rns_batch MODULI [1] [repeat 1 50]). { constructor; [| constructor]. split; [| apply Forall_forall; intros w Hw; apply repeat_spec in Hw; subst w; change (2 ^ 16) with 65536; lia]. split; [rewrite length_377; reflexivity |]. intros j Hj. rewrite length_377 in Hj. f_equal. apply (repeat_spec 50 1). apply nth_In. exact Hj. }
  pose proof overflow_literal as H. destruct moduli_literal as [EM ET]. rewrite <- EM, <- ET in H. destruct (add_sub_rns_var (repeat (negate_rns_for_var_add [repeat 1 50] MODULI_SUB) 255) RNS_MODULI_T) as [[|r [|]]|]; try discriminate H. exists r. split; [exact RB |]. split.
  - rewrite <- B377_eq. refine (C48_negate_partial [1] [repeat 1 50] RB _). constructor; [| constructor]. destruct offsets_cons as (ts & E & _). assert (LT : length RNS_MODULI_T = 50%nat) by (rewrite ET; reflexivity). unfold no_zero_word. clear - LT. change 50%nat with (length (repeat 1 50)) in LT. revert LT. assert (F : Forall (fun w => w <> 0) (repeat 1 50)) by (apply Forall_forall; intros w Hw; apply repeat_spec in Hw; lia). revert F. generalize (repeat 1 50) as l, RNS_MODULI_T as ts. intros l ts F. revert ts. induction F as [|w l Hw F IH]; intros [|t ts] L; try discriminate L; constructor; [right; exact Hw | apply IH; cbn in L; lia].
  - split; [reflexivity |]. intros [_ R]. specialize (R 1%nat ltac:(rewrite length_377; lia)). apply Z.eqb_neq in H. apply H. exact R.
Qed.
Print Assumptions C48_many_negated_refuted.

(** the hypotheses are met: 7 - (3 * 5) *)
Example C48_example : exists b r v, mod_mul_rns_377 [residues MODULI 3] [residues MODULI 5] = Some b /\ add_sub_rns_var [[residues MODULI 7]; negate_rns_for_var_add b MODULI_SUB] RNS_MODULI_T = Some r /\ rns_batch MODULI [v] r /\ v mod MODULUS_377_INT = (7 - 15) mod MODULUS_377_INT.
Proof.
  destruct (C48_sub_product [7] [3] [5] _ _ _ (residues_batch _) (residues_batch _) (residues_batch _) eq_refl eq_refl) as (b & r & rs & E1 & E2 & F1 & F2); try (constructor; [split; [discriminate | reflexivity] | constructor]).
  - cbn [map2]. constructor; [vm_compute; discriminate | constructor].
  - cbn [map2 combine] in F2. inversion F2 as [|v ? vs ? [C _] Hn]; subst. inversion Hn; subst. exists b, r, v. split; [exact E1 |]. split; [exact E2 |]. split; [exact F1 | exact C].
Qed.
