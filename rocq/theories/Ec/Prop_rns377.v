(** C47: RNS modular multiplication is congruent modulo p.  C48: RNS addition and subtraction.
    [represents ms x c]: the words of c are congruent to x modulo the moduli; [words16 c]: they are 16-bit words;
    [rns_batch ms xs a]: the rows of a stand for the integers xs. *)
From Coq Require Import ZArith List Bool Lia.
From Verif Require Import Base.ZSum Base.Word Base.Bits Base.Lists Base.Modeq Base.Crt Base.Fermat.
From Verif Require Import Ckks.Model_rns_utils Ckks.Prop_crt Ec.Model_util Ec.Model_field Ec.Model_field_rns Ec.Spec_chunks Ec.Spec_rns377 Ec.Proof_chunks Ec.Prop_util Ec.Proof_rns377 Ec.Proof_shifted.
Import ListNotations.
Local Open Scope Z_scope.

(** one 32-bit word: three folds give a 16-bit word congruent to it, for every modulus m with 2^16 congruent to t, t at most 255 *)
Theorem C47_word_reduction : forall m t v, 0 < m -> 0 <= t <= 255 -> (2 ^ 16 - t) mod m = 0 -> 0 <= v < 2 ^ 32 -> 0 <= rns_red_word v t < 2 ^ 16 /\ rns_red_word v t mod m = v mod m.
Proof.
  intros m t v Hm Ht E Hv. destruct (red_word_ok m t v Ht) as [B R]; [| exact Hv |]. { apply eqm_mod_iff; [exact Hm |]. rewrite <- (Z.mod_small 0 m) in E by lia. apply (eqm_mod_iff _ _ _ Hm) in E. apply (eqm_mod_iff _ _ _ Hm). replace (2 ^ 16) with (2 ^ 16 - t + t) by ring. rewrite E. reflexivity. }
  split; [exact B |]. apply eqm_mod_iff; assumption.
Qed.
Print Assumptions C47_word_reduction.

(** the module's constants *)
Definition M377 : Z := lprod MODULI.
Definition check_offsets (ms ts : list Z) : bool := (length ms =? length ts)%nat && forallb (fun p => (0 <? fst p) && (fst p <=? 2 ^ 16) && (0 <=? snd p) && (snd p <=? 255) && ((2 ^ 16 - snd p) mod fst p =? 0)) (combine ms ts).
Lemma check_offsets_ok ms ts : check_offsets ms ts = true -> offsets ms ts.
Proof.
  unfold check_offsets. intros H. apply andb_true_iff in H. destruct H as [L F]. apply Nat.eqb_eq in L. revert ts L F. induction ms as [|m ms IH]; intros [|t ts] L F; try discriminate L; [constructor |]. cbn [combine forallb fst snd] in F. apply andb_true_iff in F. destruct F as [H F].
  rewrite !andb_true_iff in H. destruct H as ((((H1 & H2) & H3) & H4) & H5). apply Z.ltb_lt in H1. apply Z.leb_le in H2, H3, H4. apply Z.eqb_eq in H5. constructor; [| apply IH; [cbn in L; lia | exact F]]. split; [lia |]. split; [lia |].
  rewrite <- (Z.mod_small 0 m) in H5 by lia. apply (eqm_mod_iff _ _ _ H1) in H5. replace (2 ^ 16) with (2 ^ 16 - t + t) by ring. rewrite H5. reflexivity.
Qed.
Lemma offsets_377 : offsets MODULI RNS_MODULI_T.
Proof. destruct moduli_literal as [-> ->]. apply check_offsets_ok. vm_compute. reflexivity. Qed.

Lemma size_literal : length MODULI_LITERAL = 50%nat /\ Z.log2 (lprod MODULI_LITERAL) = 791.
Proof. vm_compute. split; reflexivity. Qed.

Lemma constants_377 : exists pre, rns_precompute MODULI = Some pre /\ Forall (fun S => 0 <= float_ceildiv (S * 2 ^ 16) M377 < 65536 /\ S * 2 ^ 16 <= float_ceildiv (S * 2 ^ 16) M377 * M377 < S * 2 ^ 16 + M377) (shifted_of M377 pre).
Proof.
  unfold M377. destruct C43_moduli as (_ & _ & HC & _). destruct (icrt_ok MODULI HC) as (pre & Ep & _). exists pre. split; [exact Ep |]. apply estimates_exact; [exact HC | | exact Ep].
  pose proof offsets_377 as HO. clear - HO. induction HO as [|m t ms ts [H _] HO IH]; constructor; assumption.
Qed.
Lemma length_377 : length MODULI = 50%nat.
Proof. destruct moduli_literal as [-> _]. apply size_literal. Qed.
Lemma coprime_377 : coprime_moduli MODULI.
Proof. apply C43_moduli. Qed.

Lemma matrix_gen ms ts pre q M : M = lprod ms -> coprime_moduli ms -> offsets ms ts -> length ms = 50%nat -> rns_precompute ms = Some pre ->
  Forall (fun S => 0 <= float_ceildiv (S * 2 ^ 16) M < 65536 /\ S * 2 ^ 16 <= float_ceildiv (S * 2 ^ 16) M * M < S * 2 ^ 16 + M) (shifted_of M pre) -> 0 < q <= M ->
  exists mat cor, rns_coefficients_precompute pre ms 2 16 M q = Some (mat, cor) /\
  forall x c, rep ms x c -> words16 c -> 0 <= x -> 2 ^ 16 * x + 25500 * M < 2 ^ 16 * M ->
    exists r z, mod_red_rns_row c (mat, cor) 50 16 = Some r /\ rep ms z r /\ Forall (fun v => 0 <= v < 2 ^ 32) r /\ (z == x [mod q]) /\ 0 <= z <= 51000 * (q - 1) /\
      row_extra ms M q (shifted_of M pre) c r x z.
Proof.
  intros -> HC HO L Hp He Hq. assert (Hn : (0 < length ms <= 64)%nat) by (rewrite L; lia).
  eexists. eexists. split; [exact (coefficients_ok ms ts pre q HO Hn Hq He) |]. intros x c R W Hx Hb. pose proof (reduce_row_ok ms ts pre q HC HO Hn Hp Hq He x c R W Hx) as RR. rewrite L in RR. exact (RR Hb).
Qed.
Lemma construct_gen ms pre q M : M = lprod ms -> length ms = 50%nat -> Z.log2 M = 791 -> rns_precompute ms = Some pre ->
  (let M := total_modulus ms in
  if negb (Z.of_nat (length ms) =? (Z.log2 M + 1 + 16 - 1) / 16) then None
  else match rns_icrt_factors_compute M ms with
       | None => None
       | Some icrt => rns_coefficients_precompute icrt ms 2 16 M q
       end) = rns_coefficients_precompute pre ms 2 16 M q.
Proof.
  intros -> L LM Ep. assert (EM : total_modulus ms = lprod ms) by (unfold total_modulus; rewrite fold_left_mul; ring). unfold rns_precompute in Ep. cbv zeta. rewrite EM in *. rewrite L, LM, Ep. reflexivity.
Qed.
Lemma log_377 : Z.log2 M377 = 791.
Proof. unfold M377. destruct moduli_literal as [-> _]. apply size_literal. Qed.
Lemma M377_eq : M377 = lprod MODULI.
Proof. unfold M377. reflexivity. Qed.
Global Opaque MODULI RNS_MODULI_T M377.

Lemma matrix_377 q : 0 < q <= M377 -> exists mat cor pre, construct_rns_matrix q = Some (mat, cor) /\ rns_precompute MODULI = Some pre /\
  forall x c, rep MODULI x c -> words16 c -> 0 <= x -> 2 ^ 16 * x + 25500 * M377 < 2 ^ 16 * M377 ->
    exists r z, mod_red_rns_row c (mat, cor) 50 16 = Some r /\ rep MODULI z r /\ Forall (fun v => 0 <= v < 2 ^ 32) r /\ (z == x [mod q]) /\ 0 <= z <= 51000 * (q - 1) /\
      row_extra MODULI M377 q (shifted_of M377 pre) c r x z.
Proof.
  intros Hq. destruct constants_377 as (pre & Ep & He). assert (E : construct_rns_matrix q = rns_coefficients_precompute pre MODULI 2 16 M377 q) by (unfold construct_rns_matrix; exact (construct_gen MODULI pre q M377 M377_eq length_377 log_377 Ep)). rewrite E.
  destruct (matrix_gen MODULI RNS_MODULI_T pre q M377 M377_eq coprime_377 offsets_377 length_377 Ep He Hq) as (mat & cor & EM & H). exists mat, cor, pre. split; [exact EM |]. split; [exact Ep | exact H].
Qed.

(** reduction modulo any q up to the product of the moduli *)
Definition positive_entries (q : Z) : Prop := forall pre, rns_precompute MODULI = Some pre -> Forall (fun S => Forall (fun m => 0 < (S mod q) mod m) MODULI) (shifted_of M377 pre).
(** the value of a reduced row in closed form *)
Definition red_value (q : Z) (c : list Z) (x : Z) : Z := match rns_precompute MODULI with Some pre => row_value M377 q (shifted_of M377 pre) c x | None => 0 end.
Definition zero_link (q : Z) (c r : list Z) : Prop := (positive_entries q -> (exists w, In w c /\ w <> 0) -> no_zero_word RNS_MODULI_T r) /\ (Forall (fun w => w = 0) c -> Forall (fun v => v = 0) r).
Lemma reduced_no_zero ms ts r : offsets ms ts -> length r = length ms -> Forall (fun v => 0 <= v < 2 ^ 32) r -> Forall (fun v => 0 < v) r -> no_zero_word ts (map2 rns_red_word r ts).
Proof.
  intros HO. revert r. induction HO as [|m t ms ts (Pm & Pt & Et) HO IH]; intros [|v r] L F1 F2; try discriminate L; [constructor |]. rewrite Forall_cons_iff in F1, F2. destruct F1 as [B1 F1], F2 as [B2 F2]. cbn [map2]. constructor; [| apply IH; [cbn in L; lia | exact F1 | exact F2]].
  destruct (Z.eq_dec t 0) as [-> | T0]; [left; reflexivity | right; apply red_word_nonzero; lia].
Qed.
Lemma reduced_zero ts r : Forall (fun v => v = 0) r -> Forall (fun v => v = 0) (map2 rns_red_word r ts).
Proof. intros F. revert ts. induction F as [|v r -> F IH]; intros [|t ts]; constructor; [| apply IH]. unfold rns_red_word, split_view_32_to_16, u32. rewrite Z.mul_0_l. reflexivity. Qed.
Lemma mod_red_batch q mat cor xs c : 0 < q <= M377 -> construct_rns_matrix q = Some (mat, cor) -> rns_batch MODULI xs c -> Forall (fun x => 0 <= x /\ 2 ^ 16 * x < 40036 * M377) xs ->
  exists r zs, mod_red_rns_2u16 c (mat, cor) RNS_MODULI_T NUM_MODULI = Some r /\ rns_batch MODULI zs r /\ Forall2 (fun z x => z mod q = x mod q /\ 0 <= z <= 51000 * (q - 1)) zs xs /\ Forall2 (zero_link q) c r /\ zs = map2 (red_value q) c xs.
Proof.
  intros Hq EM RB FX. destruct (matrix_377 q Hq) as (mat' & cor' & pre & EM' & Ep & H). rewrite EM in EM'. injection EM' as <- <-. unfold mod_red_rns_2u16, moduli_rns_red_internal_2u16. change RNS_PRECISION with 16. rewrite (offsets_u8_ok MODULI RNS_MODULI_T offsets_377).
  assert (PM : Forall (fun m => 0 < m) MODULI) by apply coprime_377. change NUM_MODULI with 50%nat.
  assert (S : exists r zs, sequence_opt (map (fun row => mod_red_rns_row row (mat, cor) 50 16) c) = Some r /\ Forall2 (fun z v => rep MODULI z v /\ Forall (fun w => 0 <= w < 2 ^ 32) v) zs r /\ Forall2 (fun z x => z mod q = x mod q /\ 0 <= z <= 51000 * (q - 1)) zs xs /\ Forall2 (fun c r => zero_link q c (map2 rns_red_word r RNS_MODULI_T)) c r /\ zs = map2 (red_value q) c xs).
  { induction RB as [|x v xs c [Rv Wv] RB IH]; [exists [], []; repeat split; constructor |]. rewrite Forall_cons_iff in FX. destruct FX as [[X1 X2] FX]. destruct (IH FX) as (r & zs & E & F1 & F2 & F3 & F4). apply rep_iff in Rv; [| exact PM]. destruct (H x v Rv Wv X1 ltac:(lia)) as (w & z & Ew & Rw & Fw & Ez & Bz & Nz & Zz & Vz).
    exists (w :: r), (z :: zs). cbn [map sequence_opt]. rewrite Ew, E. split; [reflexivity |]. split; [constructor; [split; assumption | assumption] |]. split; [constructor; [split; [apply eqm_mod_iff; [lia | exact Ez] | exact Bz] | assumption] |]. split; [| cbn [map2]; f_equal; [rewrite Vz; unfold red_value; rewrite Ep; reflexivity | exact F4]]. constructor; [| exact F3].
    split; [| intros H0; apply reduced_zero, Zz, H0]. intros HP HW. apply (reduced_no_zero MODULI); [apply offsets_377 | apply (rep_length _ _ _ Rw) | exact Fw | apply Nz; [apply HP; exact Ep | exact HW]]. }
  destruct S as (r & zs & E & F1 & F2 & F3 & F4). rewrite E. cbn [bind]. eexists. exists zs. split; [reflexivity |]. split; [| split; [exact F2 | split; [clear - F3; induction F3; constructor; assumption | exact F4]]].
  clear - F1 PM. unfold rns_batch. induction F1 as [|z v zs r [Rv Fv] F1 IH]; [constructor |]. cbn [map]. constructor; [| exact IH]. destruct (map2_word_ok rns_red_word (2 ^ 32) MODULI RNS_MODULI_T z v offsets_377) as [A1 A2]; [intros; apply red_word_ok; assumption | exact Rv | exact Fv |]. split; [apply rep_iff; assumption | exact A2].
Qed.

Theorem C47_mod_red : forall q xs c, 0 < q <= M377 -> rns_batch MODULI xs c -> Forall (fun x => 0 <= x /\ 2 ^ 16 * x < 40036 * M377) xs ->
  exists mat r zs, construct_rns_matrix q = Some mat /\ mod_red_rns_2u16 c mat RNS_MODULI_T NUM_MODULI = Some r /\ rns_batch MODULI zs r /\ Forall2 (fun z x => z mod q = x mod q /\ 0 <= z <= 51000 * (q - 1)) zs xs.
Proof.
  intros q xs c Hq RB FX. destruct (matrix_377 q Hq) as (mat & cor & _ & EM & _). destruct (mod_red_batch q mat cor xs c Hq EM RB FX) as (r & zs & E & F1 & F2 & _). exists (mat, cor), r, zs. split; [exact EM |]. split; [exact E |]. split; [exact F1 | exact F2].
Qed.
Print Assumptions C47_mod_red.

Lemma mul_batch xs ys a b : rns_batch MODULI xs a -> rns_batch MODULI ys b -> length xs = length ys ->
  exists c, mul_unreduced_rns_2u16 a b RNS_MODULI_T = Some c /\ rns_batch MODULI (map2 Z.mul xs ys) c.
Proof.
  intros Ra Rb L. unfold mul_unreduced_rns_2u16, moduli_rns_red_internal_2u16. rewrite (offsets_u8_ok MODULI RNS_MODULI_T offsets_377). cbn [bind]. eexists. split; [reflexivity |]. assert (PM : Forall (fun m => 0 < m) MODULI) by apply coprime_377.
  unfold rns_batch in *. revert ys b Rb L. induction Ra as [|x u xs a [Ru Wu] Ra IH]; intros ys b Rb L; inversion Rb as [|y v ys' b' [Rv Wv] Rb']; subst; try discriminate L; [constructor |]. cbn [map2 map]. constructor; [| apply IH; [exact Rb' | cbn in L; lia]].
  apply rep_iff in Ru; [| exact PM]. apply rep_iff in Rv; [| exact PM]. destruct (mul_words MODULI x y u v Ru Rv Wu Wv) as [M1 M2]. destruct (map2_word_ok rns_red_word (2 ^ 32) MODULI RNS_MODULI_T (x * y) _ offsets_377 ltac:(intros; apply red_word_ok; assumption) M1 M2) as [A1 A2]. split; [apply rep_iff; assumption | exact A2].
Qed.

(** modular multiplication; the condition on the product is the exact range in which the estimated quotient is guaranteed *)
Lemma mod_mul_batch q xs ys a b : 0 < q <= M377 -> rns_batch MODULI xs a -> rns_batch MODULI ys b -> Forall2 (fun x y => 0 <= x * y /\ 2 ^ 16 * (x * y) < 40036 * M377) xs ys ->
  exists mat r zs, construct_rns_matrix q = Some mat /\ mod_mul_rns_2u16 a b mat RNS_MODULI_T = Some r /\ rns_batch MODULI zs r /\ Forall2 (fun z xy => z mod q = xy mod q /\ 0 <= z <= 51000 * (q - 1)) zs (map2 Z.mul xs ys) /\
    (positive_entries q -> Forall (fun row => Forall (fun w => w = 0) row \/ no_zero_word RNS_MODULI_T row) r).
Proof.
  intros Hq Ra Rb F. assert (L : length xs = length ys) by (clear - F; induction F; cbn; congruence). destruct (mul_batch xs ys a b Ra Rb L) as (c & Ec & Rc).
  destruct (matrix_377 q Hq) as (mat & cor & _ & EM & _). destruct (mod_red_batch q mat cor _ c Hq EM Rc) as (r & zs & E2 & F1 & F2 & F3 & _). { clear - F. induction F as [|x y xs ys H F IH]; [constructor |]. cbn [map2]. constructor; [exact H | exact IH]. }
  exists (mat, cor), r, zs. split; [exact EM |]. split; [unfold mod_mul_rns_2u16; rewrite Ec; exact E2 |]. split; [exact F1 |]. split; [exact F2 |]. intros HP. clear - F3 HP. induction F3 as [|u v c r [L1 L2] F3 IH]; constructor; [| exact IH].
  destruct (Forall_dec (fun w => w = 0) (fun w => Z.eq_dec w 0) u) as [H0 | H0]; [left; apply L2; exact H0 | right; apply L1; [exact HP |]]. apply neg_Forall_Exists_neg in H0; [| intros w; apply Z.eq_dec]. apply Exists_exists in H0. destruct H0 as (w & Hw & Nw). exists w. split; assumption.
Qed.
Theorem C47_mod_mul : forall q xs ys a b, 0 < q <= M377 -> rns_batch MODULI xs a -> rns_batch MODULI ys b -> Forall2 (fun x y => 0 <= x * y /\ 2 ^ 16 * (x * y) < 40036 * M377) xs ys ->
  exists mat r zs, construct_rns_matrix q = Some mat /\ mod_mul_rns_2u16 a b mat RNS_MODULI_T = Some r /\ rns_batch MODULI zs r /\ Forall2 (fun z xy => z mod q = xy mod q /\ 0 <= z <= 51000 * (q - 1)) zs (map2 Z.mul xs ys).
Proof.
  intros q xs ys a b Hq Ra Rb F. destruct (mod_mul_batch q xs ys a b Hq Ra Rb F) as (mat & r & zs & E1 & E2 & F1 & F2 & _). exists mat, r, zs. split; [exact E1 |]. split; [exact E2 |]. split; assumption.
Qed.
Print Assumptions C47_mod_mul.

(** the 377-bit prime: products of values below 468000 p are reduced to values below 51000 p, so sums of up to nine products can be multiplied again *)
Lemma range_377 : 2 ^ 16 * ((468000 * MODULUS_377_INT) * (468000 * MODULUS_377_INT)) < 40036 * lprod MODULI_LITERAL /\ MODULUS_377_INT <= lprod MODULI_LITERAL.
Proof. vm_compute. split; [reflexivity | discriminate]. Qed.
Lemma mod_mul_377_batch xs ys a b : rns_batch MODULI xs a -> rns_batch MODULI ys b -> length xs = length ys ->
  Forall (fun x => 0 <= x < 468000 * MODULUS_377_INT) xs -> Forall (fun y => 0 <= y < 468000 * MODULUS_377_INT) ys ->
  exists r zs, mod_mul_rns_377 a b = Some r /\ rns_batch MODULI zs r /\ Forall2 (fun z xy => z mod MODULUS_377_INT = xy mod MODULUS_377_INT /\ 0 <= z < 51000 * MODULUS_377_INT) zs (map2 Z.mul xs ys) /\
    (positive_entries MODULUS_377_INT -> Forall (fun row => Forall (fun w => w = 0) row \/ no_zero_word RNS_MODULI_T row) r).
Proof.
  intros Ra Rb L Fx Fy. destruct range_377 as [R1 R2]. assert (EM : M377 = lprod MODULI_LITERAL) by (rewrite M377_eq; destruct moduli_literal as [-> _]; reflexivity). rewrite <- EM in R1, R2. set (p := MODULUS_377_INT) in *. assert (P0 : 0 < p) by reflexivity.
  destruct (mod_mul_batch p xs ys a b ltac:(lia) Ra Rb) as (mat & r & zs & E1 & E2 & F1 & F2 & F3).
  { clear - Fx Fy L R1 P0. revert ys L Fy. induction Fx as [|x xs Hx Fx IH]; intros [|y ys] L Fy; try discriminate L; [constructor |]. rewrite Forall_cons_iff in Fy. destruct Fy as [Hy Fy]. constructor; [| apply IH; [cbn in L; lia | exact Fy]]. split; [nia |]. assert (x * y <= (468000 * p) * (468000 * p)) by (apply Z.mul_le_mono_nonneg; lia). lia. }
  exists r, zs. split; [unfold mod_mul_rns_377, RNS_MAT; fold p; rewrite E1; exact E2 |]. split; [exact F1 |]. split; [| exact F3]. clear - F2 P0. induction F2 as [|z v zs vs [H1 H2] F2 IH]; constructor; [| exact IH]. split; [exact H1 | lia].
Qed.
Theorem C47_mod_mul_377 : forall xs ys a b, rns_batch MODULI xs a -> rns_batch MODULI ys b -> length xs = length ys ->
  Forall (fun x => 0 <= x < 468000 * MODULUS_377_INT) xs -> Forall (fun y => 0 <= y < 468000 * MODULUS_377_INT) ys ->
  exists r zs, mod_mul_rns_377 a b = Some r /\ rns_batch MODULI zs r /\ Forall2 (fun z xy => z mod MODULUS_377_INT = xy mod MODULUS_377_INT /\ 0 <= z < 51000 * MODULUS_377_INT) zs (map2 Z.mul xs ys).
Proof. intros xs ys a b Ra Rb L Fx Fy. destruct (mod_mul_377_batch xs ys a b Ra Rb L Fx Fy) as (r & zs & E & F1 & F2 & _). exists r, zs. split; [exact E |]. split; assumption. Qed.
Print Assumptions C47_mod_mul_377.

(** the residues of any integer meet the hypotheses: x = 5 p + 3 and y = 2^400 *)
Lemma residues_batch xs : rns_batch MODULI xs (map (fun x => map (fun m => x mod m) MODULI) xs).
Proof.
  assert (F : Forall (fun m => 0 < m <= 2 ^ 16) MODULI). { pose proof offsets_377 as HO. induction HO as [|m t ms ts (H1 & H2 & H3) HO IH]; constructor; [lia | exact IH]. }
  unfold rns_batch. induction xs as [|x xs IH]; [constructor |]. cbn [map]. constructor; [| exact IH]. split.
  - apply rep_iff; [eapply Forall_impl; [| exact F]; cbn beta; intros; lia |]. unfold rep. clear IH. induction F as [|m ms Hm F IH]; [constructor |]. cbn [map]. constructor; [| exact IH]. apply eqm_mod.
  - unfold words16. apply Forall_map. eapply Forall_impl; [| exact F]. cbn beta. intros m Hm. pose proof (Z.mod_pos_bound x m ltac:(lia)). lia.
Qed.
Lemma forall2_single {A B} (R : A -> B -> Prop) zs w : Forall2 R zs [w] -> exists z, zs = [z] /\ R z w.
Proof. intros F. inversion F as [|z ? zs' ? H H2]; subst. inversion H2; subst. exists z. split; [reflexivity | exact H]. Qed.
Example C47_example : exists r z, mod_mul_rns_377 [map (fun m => (5 * MODULUS_377_INT + 3) mod m) MODULI] [map (fun m => (2 ^ 390) mod m) MODULI] = Some r /\ rns_batch MODULI [z] r /\ z mod MODULUS_377_INT = (3 * 2 ^ 390) mod MODULUS_377_INT.
Proof.
  destruct (C47_mod_mul_377 [5 * MODULUS_377_INT + 3] [2 ^ 390] _ _ (residues_batch _) (residues_batch _) eq_refl) as (r & zs & E & F1 & F2); [constructor; [split; [discriminate | reflexivity] | constructor] | constructor; [split; [discriminate | reflexivity] | constructor] |].
  cbn [map2] in F2. apply forall2_single in F2. destruct F2 as (z & -> & H & _). exists r, z. split; [exact E |]. split; [exact F1 |]. rewrite H. reflexivity.
Qed.
