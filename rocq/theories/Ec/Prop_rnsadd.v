(** C48: RNS addition and subtraction.
    [represents ms x c]: the words of c are congruent to x modulo the moduli; [operand ms w xs v]: the rows of v stand for the
    integers xs, with words below w * 2^16; [row_sums xss]: the row-wise sums. *)
From Coq Require Import ZArith List Bool Lia.
From Verif Require Import Base.ZSum Base.Word Base.Bits Base.Lists Base.Modeq Base.Crt Base.Fermat.
From Verif Require Import Ckks.Model_rns_utils Ckks.Prop_crt Ec.Model_util Ec.Model_field Ec.Model_field_rns Ec.Spec_chunks Ec.Spec_rns377 Ec.Proof_chunks Ec.Prop_util Ec.Proof_rns377 Ec.Prop_rns377.
Import ListNotations.
Local Open Scope Z_scope.

(** the same with congruences *)
Definition opd (ms : list Z) (w : Z) (xs : list Z) (v : batch) : Prop := Forall2 (fun x c => rep ms x c /\ Forall (fun d => 0 <= d < w * 2 ^ 16) c) xs v.
Lemma opd_iff ms w xs v : Forall (fun m => 0 < m) ms -> (operand ms w xs v <-> opd ms w xs v).
Proof. intros P. split; intros F; (induction F as [|x c xs v [R B] F IH]; constructor; [split; [apply rep_iff; assumption | exact B] | exact IH]). Qed.

Lemma add_rows ms w1 w2 x y c d : 0 <= w1 -> 0 <= w2 -> w1 + w2 <= 2 ^ 16 -> rep ms x c -> rep ms y d -> Forall (fun v => 0 <= v < w1 * 2 ^ 16) c -> Forall (fun v => 0 <= v < w2 * 2 ^ 16) d ->
  rep ms (x + y) (map2 (fun a b => u32 (a + b)) c d) /\ Forall (fun v => 0 <= v < (w1 + w2) * 2 ^ 16) (map2 (fun a b => u32 (a + b)) c d).
Proof.
  intros W1 W2 W R. revert d. induction R as [|m a ms c Ea R IH]; intros d Rd Fc Fd; inversion Rd as [|? b ? d' Eb Rd']; subst; [split; constructor |]. rewrite Forall_cons_iff in Fc, Fd. destruct Fc as [Ha Fc], Fd as [Hb Fd]. cbn [map2]. destruct (IH d' Rd' Fc Fd) as [I1 I2].
  assert (B : 0 <= a + b < (w1 + w2) * 2 ^ 16) by lia. change (2 ^ 16) with 65536 in *. assert (E : u32 (a + b) = a + b) by (unfold u32; apply Z.mod_small; lia). rewrite E. split; constructor; try assumption. apply eqm_add_mor; assumption.
Qed.
Lemma add_batches ms w1 w2 xs ys v u : 0 <= w1 -> 0 <= w2 -> w1 + w2 <= 2 ^ 16 -> length xs = length ys -> opd ms w1 xs v -> opd ms w2 ys u ->
  opd ms (w1 + w2) (map2 Z.add xs ys) (map2 (map2 (fun a b => u32 (a + b))) v u).
Proof.
  intros W1 W2 W L Fv. revert ys u L. induction Fv as [|x c xs v [R B] Fv IH]; intros ys u L Fu; inversion Fu as [|y d ys' u' [R' B'] Fu']; subst; try discriminate L; [constructor |]. cbn [map2]. constructor; [apply (add_rows ms w1 w2); assumption | apply IH; [cbn in L; lia | exact Fu']].
Qed.

(** the operands of a call, with their weights *)
Definition weight (l : list (Z * list Z * list (list Z))) : Z := fold_right (fun o s => fst (fst o) + s) 0 l.
Lemma weight_cons o l : weight (o :: l) = fst (fst o) + weight l.
Proof. reflexivity. Qed.
Definition good_operands (ms : list Z) (n : nat) (l : list (Z * list Z * list (list Z))) : Prop := Forall (fun o => 1 <= fst (fst o) /\ length (snd (fst o)) = n /\ operand ms (fst (fst o)) (snd (fst o)) (snd o)) l.

Lemma map2_add_comm a b : map2 Z.add a b = map2 Z.add b a.
Proof. revert b. induction a as [|x a IH]; intros [|y b]; [reflexivity .. |]. cbn [map2]. rewrite (IH b), Z.add_comm. reflexivity. Qed.
Lemma map2_add_assoc a b c : map2 Z.add a (map2 Z.add b c) = map2 Z.add (map2 Z.add a b) c.
Proof. revert b c. induction a as [|x a IH]; intros [|y b] [|z c]; try reflexivity. cbn [map2]. rewrite IH, Z.add_assoc. reflexivity. Qed.
Lemma map2_combine a b : map (fun p => fst p + snd p) (combine a b) = map2 Z.add a b.
Proof. revert b. induction a as [|x a IH]; intros [|y b]; [reflexivity .. |]. cbn [combine map map2 fst snd]. rewrite IH. reflexivity. Qed.
Lemma map2_len a b : length a = length b -> length (map2 Z.add a b) = length b.
Proof. intros L. rewrite map2_length. lia. Qed.

Lemma fold_operands ms n l : Forall (fun m => 0 < m) ms -> good_operands ms n l -> forall w xs v, 0 <= w -> length xs = n -> opd ms w xs v -> w + weight l <= 256 ->
  opd ms (w + weight l) (row_sums (xs :: map (fun o => snd (fst o)) l)) (fold_left (fun acc v => map2 (map2 (fun x y => u32 (x + y))) v acc) (map snd l) v).
Proof.
  intros P G. induction G as [|o l (W1 & L1 & O1) G IH]; intros w xs v Hw L O HW; [cbn [weight fold_right map fold_left row_sums]; rewrite Z.add_0_r; exact O |].
  assert (WL : 0 <= weight l). { clear - G. induction G as [|o l (W & _) G IH]; [cbn; lia |]. rewrite weight_cons. lia. }
  rewrite weight_cons in *. cbn [map fold_left]. apply (opd_iff _ _ _ _ P) in O1. pose proof (add_batches ms (fst (fst o)) w (snd (fst o)) xs (snd o) v ltac:(lia) Hw ltac:(change (2 ^ 16) with 65536; lia) ltac:(congruence) O1 O) as A.
  specialize (IH (fst (fst o) + w) (map2 Z.add (snd (fst o)) xs) _ ltac:(lia) ltac:(rewrite map2_len by congruence; exact L) A ltac:(lia)). replace (w + (fst (fst o) + weight l)) with (fst (fst o) + w + weight l) by lia.
  replace (row_sums (xs :: snd (fst o) :: map (fun o => snd (fst o)) l)) with (row_sums (map2 Z.add (snd (fst o)) xs :: map (fun o => snd (fst o)) l)); [exact IH |].
  cbn [row_sums]. destruct l as [|o2 l]; [cbn [map]; rewrite map2_combine; apply map2_add_comm |]. cbn [map]. rewrite !map2_combine, (map2_add_comm (snd (fst o)) xs). symmetry. apply map2_add_assoc.
Qed.

(** sums of up to 255 operands whose word bounds add up to at most 256 * 2^16: fresh values and products count 1, negated values 2 *)
Lemma add_sub_gen ms ts n l : Forall (fun m => 0 < m) ms -> offsets ms ts -> l <> [] -> (length l < 256)%nat -> good_operands ms n l -> weight l <= 256 ->
  exists r, add_sub_rns_var (map snd l) ts = Some r /\ rns_batch ms (row_sums (map (fun o => snd (fst o)) l)) r.
Proof.
  intros P HO N Lt G W. destruct l as [|o l]; [contradiction |]. unfold add_sub_rns_var. cbn [map]. cbv zeta. rewrite (offsets_u8_ok _ _ HO). match goal with |- context [negb ?b] => replace b with true by (symmetry; apply Nat.ltb_lt; cbn [length] in *; rewrite map_length; exact Lt) end. cbn [negb bind].
  eexists. split; [reflexivity |]. inversion G as [|? ? (W1 & L1 & O1) G']; subst. rewrite weight_cons in W. apply (opd_iff _ _ _ _ P) in O1. pose proof (fold_operands ms _ l P G' (fst (fst o)) (snd (fst o)) (snd o) ltac:(lia) eq_refl O1 W) as F.
  set (acc := fold_left _ _ _) in *. set (xs := row_sums _) in *. clearbody acc xs. clear - F W HO P. unfold rns_batch. induction F as [|x c xs acc [R B] F IH]; [constructor |]. cbn [map]. constructor; [| exact IH].
  destruct (map2_word_ok add_sub_word (2 ^ 24) ms ts x c HO) as [A1 A2]; [intros; apply add_sub_word_ok; assumption | exact R | | split; [apply rep_iff; assumption | exact A2]].
  eapply Forall_impl; [| exact B]. cbn beta. intros d Hd. change (2 ^ 24) with (256 * 2 ^ 16). change (2 ^ 16) with 65536 in *. lia.
Qed.
Theorem C48_add_sub_rns_var : forall n l, l <> [] -> (length l < 256)%nat -> good_operands MODULI n l -> weight l <= 256 ->
  exists r, add_sub_rns_var (map snd l) RNS_MODULI_T = Some r /\ rns_batch MODULI (row_sums (map (fun o => snd (fst o)) l)) r.
Proof. intros n l. apply add_sub_gen; [apply coprime_377 | apply offsets_377]. Qed.
Print Assumptions C48_add_sub_rns_var.

(** two and three operands *)
Theorem C48_add_rns : forall xs ys zs a b c, rns_batch MODULI xs a -> rns_batch MODULI ys b -> rns_batch MODULI zs c -> length xs = length ys -> length xs = length zs ->
  (exists r, add_rns_2u16 a b RNS_MODULI_T = Some r /\ rns_batch MODULI (row_sums [xs; ys]) r) /\ (exists r, add_rns_3u16 a b c RNS_MODULI_T = Some r /\ rns_batch MODULI (row_sums [xs; ys; zs]) r).
Proof.
  intros xs ys zs a b c Ra Rb Rc L1 L2.
  assert (O : forall xs a, rns_batch MODULI xs a -> operand MODULI 1 xs a) by (intros ? ? F; exact F).
  split.
  - destruct (C48_add_sub_rns_var (length xs) [(1, xs, a); (1, ys, b)]) as (r & E & F); [discriminate | cbn; lia | | cbn; lia |].
    + constructor; [| constructor; [| constructor]]; cbn [fst snd]; (split; [lia |]; split; [congruence | apply O; assumption]).
    + exists r. split; [exact E | exact F].
  - destruct (C48_add_sub_rns_var (length xs) [(1, xs, a); (1, ys, b); (1, zs, c)]) as (r & E & F); [discriminate | cbn; lia | | cbn; lia |].
    + constructor; [| constructor; [| constructor; [| constructor]]]; cbn [fst snd]; (split; [lia |]; split; [congruence | apply O; assumption]).
    + exists r. split; [exact E | exact F].
Qed.
Print Assumptions C48_add_rns.

(** negation: correct when no word of the operand is zero (or the modulus is 2^16) *)
Definition B377 : Z := 102400 * MODULUS_377_INT.
Definition check_sub (ms ts subs : list Z) : bool := (length ms =? length subs)%nat && forallb (fun p => (0 <=? snd p) && (snd p <? 65536) && ((B377 - 2 ^ 16 - snd p) mod fst p =? 0)) (combine ms subs) && forallb (fun p => implb (snd p =? 0) ((2 ^ 16) mod fst p =? 0)) (combine ms ts).
Lemma check_sub_literal : check_sub MODULI_LITERAL RNS_MODULI_T_LITERAL MODULI_SUB = true.
Proof. vm_compute. reflexivity. Qed.

Lemma negate_word_ok m t sub x w : 0 < m -> (2 ^ 16 == t [mod m]) -> 0 <= sub < 65536 -> (sub == B377 - 2 ^ 16 [mod m]) -> (w == x [mod m]) -> 0 <= w < 2 ^ 16 -> t = 0 \/ w <> 0 ->
  (negate_word w sub == B377 - x [mod m]) /\ 0 <= negate_word w sub < 2 * 2 ^ 16.
Proof.
  intros Pm Et Hs Es Ew Hw Hz. change (2 ^ 16) with 65536 in *. unfold negate_word. change (2 ^ 16) with 65536.
  destruct (Z.eq_dec w 0) as [-> | W0].
  - destruct Hz as [-> | Hz]; [| contradiction]. change ((- 0) mod 65536) with 0. unfold u32. rewrite Z.mod_small by lia. split; [| lia]. rewrite Es, Et, <- Ew. reflexivity.
  - assert (E : (- w) mod 65536 = 65536 - w) by (symmetry; apply (Z.mod_unique _ _ (-1)); lia). rewrite E. unfold u32. rewrite Z.mod_small by lia. split; [| lia]. rewrite Es, <- Ew. apply eqm_eq. ring.
Qed.
Lemma negate_row_ok ms ts subs x c : offsets ms ts -> Forall2 (fun m s => 0 <= s < 65536 /\ (s == B377 - 2 ^ 16 [mod m])) ms subs -> rep ms x c -> words16 c -> no_zero_word ts c ->
  rep ms (B377 - x) (map2 negate_word c subs) /\ Forall (fun d => 0 <= d < 2 * 2 ^ 16) (map2 negate_word c subs).
Proof.
  intros HO. revert subs c. induction HO as [|m t ms ts (Pm & Pt & Et) HO IH]; intros subs c HS R W Z0; inversion HS as [|? s ? subs' [Hs Es] HS']; subst; inversion R as [|? w ? c' Ew R']; subst; [split; constructor |].
  unfold words16 in W. rewrite Forall_cons_iff in W. destruct W as [Hw W]. inversion Z0 as [|? ? ? ? Hz Z0']; subst. cbn [map2]. destruct (IH subs' c' HS' R' W Z0') as [I1 I2]. destruct (negate_word_ok m t s x w ltac:(lia) Et Hs Es Ew Hw Hz) as [N1 N2]. split; constructor; assumption.
Qed.
Lemma subs_377 : Forall2 (fun m s => 0 <= s < 65536 /\ (s == B377 - 2 ^ 16 [mod m])) MODULI MODULI_SUB.
Proof.
  pose proof check_sub_literal as H. pose proof offsets_377 as HO. destruct moduli_literal as [EM _]. rewrite <- EM in H. unfold check_sub in H. rewrite !andb_true_iff in H. destruct H as [[L F] _]. apply Nat.eqb_eq in L. apply offsets_pos in HO. revert L F. generalize MODULI_SUB as subs. clear EM. induction HO as [|m ms Pm HO IH]; intros [|s subs] L F; try discriminate L; [constructor |].
  cbn [combine forallb fst snd] in F. apply andb_true_iff in F. destruct F as [F1 F]. rewrite !andb_true_iff in F1. destruct F1 as [[H1 H2] H3]. apply Z.leb_le in H1. apply Z.ltb_lt in H2. apply Z.eqb_eq in H3. constructor; [| apply IH; [cbn in L; lia | exact F]]. split; [lia |].
  rewrite <- (Z.mod_small 0 m) in H3 by lia. apply (eqm_mod_iff _ _ _ Pm) in H3. apply eqm_sym. replace (B377 - 2 ^ 16) with (B377 - 2 ^ 16 - s + s) by ring. rewrite H3. reflexivity.
Qed.
Global Opaque MODULI_SUB B377.

Theorem C48_negate_partial : forall xs a, rns_batch MODULI xs a -> Forall (no_zero_word RNS_MODULI_T) a -> operand MODULI 2 (map (fun x => B377 - x) xs) (negate_rns_for_var_add a MODULI_SUB).
Proof.
  intros xs a R Z0. assert (P : Forall (fun m => 0 < m) MODULI) by apply coprime_377. unfold operand, negate_rns_for_var_add. revert Z0. induction R as [|x c xs a [Rc Wc] R IH]; intros Z0; [constructor |]. rewrite Forall_cons_iff in Z0. destruct Z0 as [Zc Z0]. cbn [map]. constructor; [| apply IH; exact Z0].
  apply rep_iff in Rc; [| exact P]. destruct (negate_row_ok MODULI RNS_MODULI_T MODULI_SUB x c offsets_377 subs_377 Rc Wc Zc) as [N1 N2]. split; [apply rep_iff; assumption | exact N2].
Qed.
Print Assumptions C48_negate_partial.

(** subtraction: the result stands for x - y plus 102400 p *)
Theorem C48_sub_partial : forall xs ys a b, rns_batch MODULI xs a -> rns_batch MODULI ys b -> length xs = length ys -> Forall (no_zero_word RNS_MODULI_T) b ->
  exists r, add_sub_rns_var [a; negate_rns_for_var_add b MODULI_SUB] RNS_MODULI_T = Some r /\ rns_batch MODULI (map2 (fun x y => x - y + 102400 * MODULUS_377_INT) xs ys) r.
Proof.
  intros xs ys a b Ra Rb L Z0. pose proof (C48_negate_partial ys b Rb Z0) as ON.
  destruct (C48_add_sub_rns_var (length xs) [(1, xs, a); (2, map (fun x => B377 - x) ys, negate_rns_for_var_add b MODULI_SUB)]) as (r & E & F); [discriminate | cbn; lia | | cbn; lia |].
  - constructor; [| constructor; [| constructor]]; cbn [fst snd]; (split; [lia |]; split; [rewrite ?map_length; congruence | assumption]).
  - exists r. split; [exact E |]. cbn [map fst snd row_sums] in F. rewrite map2_combine in F. replace (map2 (fun x y => x - y + 102400 * MODULUS_377_INT) xs ys) with (map2 Z.add xs (map (fun x => B377 - x) ys)); [exact F |].
    clear. revert ys. induction xs as [|x xs IH]; intros [|y ys]; [reflexivity .. |]. cbn [map map2]. rewrite IH. f_equal. assert (EB : B377 = 102400 * MODULUS_377_INT) by reflexivity. rewrite EB. ring.
Qed.
Print Assumptions C48_sub_partial.

(** the variant with a zero check agrees when no word is zero, and maps the all-zero vector to itself *)
Theorem C48_zero_check_partial : forall a subs, Forall (fun c => Forall (fun w => w <> 0) c) a -> Forall (fun s => 0 <= s < 65536) subs -> negate_rns_for_var_add_zero_check a subs = negate_rns_for_var_add a subs.
Proof.
  intros a subs F S. unfold negate_rns_for_var_add_zero_check, negate_rns_for_var_add. apply map_ext_in. intros c Hc. rewrite Forall_forall in F. specialize (F c Hc). clear Hc. revert subs S. induction F as [|w c Hw F IH]; intros [|s subs] S; try reflexivity. rewrite Forall_cons_iff in S. destruct S as [Hs S]. cbn [map2]. rewrite (IH subs S). f_equal.
  unfold negate_word_zero_check, negate_word. destruct (Z.eqb_spec w 0) as [E | _]; [contradiction |]. rewrite Z.mul_1_r. unfold u32. rewrite Z.mod_mod by lia. reflexivity.
Qed.
Print Assumptions C48_zero_check_partial.
Theorem C48_zero_check_zero : forall n subs, length subs = n -> negate_rns_for_var_add_zero_check [repeat 0 n] subs = [repeat 0 n].
Proof. intros n subs <-. unfold negate_rns_for_var_add_zero_check. cbn [map]. f_equal. induction subs as [|s subs IH]; [reflexivity |]. cbn [length repeat map2]. rewrite IH. f_equal. unfold negate_word_zero_check. rewrite Z.eqb_refl, Z.mul_0_r. reflexivity. Qed.
Print Assumptions C48_zero_check_zero.
