(** RNS reduction: word-size reductions, quotient estimation, modular multiplication and addition. *)
From Coq Require Import ZArith List Bool Lia.
From Verif Require Import Base.ZSum Base.Word Base.Bits Base.Lists Base.Modeq Base.Crt Base.Fermat.
From Verif Require Import Ckks.Model_rns_utils Ckks.Prop_crt Ec.Model_util Ec.Model_field Ec.Model_field_rns Ec.Spec_chunks Ec.Spec_rns377 Ec.Proof_chunks Ec.Prop_util.
Import ListNotations.
Local Open Scope Z_scope.

(** moduli and their offsets: 2^16 is congruent to t *)
Definition offsets (ms ts : list Z) : Prop := Forall2 (fun m t => 0 < m <= 2 ^ 16 /\ 0 <= t <= 255 /\ (2 ^ 16 == t [mod m])) ms ts.

Lemma half_split v : 0 <= v < 2 ^ 24 -> split_view_32_to_16_8 v = (v / 2 ^ 16, v mod 2 ^ 16).
Proof. intros H. unfold split_view_32_to_16_8. f_equal. apply Z.mod_small. change (2 ^ 8) with 256. change (2 ^ 24) with 16777216 in H. change (2 ^ 16) with 65536. split; [apply Z.div_pos; lia | apply Z.div_lt_upper_bound; lia]. Qed.
Lemma fold_word m t v : (2 ^ 16 == t [mod m]) -> (v / 2 ^ 16 * t + v mod 2 ^ 16 == v [mod m]).
Proof. intros E. rewrite <- E. apply eqm_eq. pose proof (Z.div_mod v (2 ^ 16) ltac:(discriminate)). lia. Qed.

Lemma red_word_ok m t v : 0 <= t <= 255 -> (2 ^ 16 == t [mod m]) -> 0 <= v < 2 ^ 32 -> 0 <= rns_red_word v t < 2 ^ 16 /\ (rns_red_word v t == v [mod m]).
Proof.
  intros Ht E Hv. unfold rns_red_word. unfold split_view_32_to_16.
  pose proof (Z.mod_pos_bound v (2 ^ 16) ltac:(reflexivity)) as B1. assert (U1 : 0 <= v / 2 ^ 16 < 65536) by (split; [apply Z.div_pos; [lia | reflexivity] | apply Z.div_lt_upper_bound; [reflexivity | exact (proj2 Hv)]]). pose proof (fold_word m t v E) as F1.
  set (u1 := v / 2 ^ 16) in *. set (l1 := v mod 2 ^ 16) in *. change (2 ^ 16) with 65536 in B1.
  assert (Q1 : 0 <= u1 * t <= 65535 * t) by nia. replace (u32 (l1 + u32 (u1 * t))) with (u1 * t + l1) by (unfold u32; rewrite (Z.mod_small (u1 * t)) by nia; rewrite Z.mod_small by nia; ring).
  set (i1 := u1 * t + l1) in *. assert (I1 : 0 <= i1 <= 65535 * (t + 1)) by (unfold i1; nia). rewrite half_split by (change (2 ^ 24) with 16777216; nia).
  pose proof (fold_word m t i1 E) as F2. assert (B2 : 0 <= i1 mod 2 ^ 16 < 65536) by (apply Z.mod_pos_bound; reflexivity). assert (U2 : 0 <= i1 / 2 ^ 16 <= t). { change (2 ^ 16) with 65536. split; [apply Z.div_pos; lia |]. assert (i1 / 65536 < t + 1); [| lia]. apply Z.div_lt_upper_bound; lia. }
  set (u2 := i1 / 2 ^ 16) in *. set (l2 := i1 mod 2 ^ 16) in *. assert (Q2 : 0 <= u2 * t <= t * t) by nia. assert (TT : t * t <= 65025) by nia.
  replace (u32 (l2 + (u2 * t) mod 2 ^ 16)) with (u2 * t + l2) by (change (2 ^ 16) with 65536; unfold u32; rewrite (Z.mod_small (u2 * t)) by lia; rewrite Z.mod_small by lia; ring).
  set (i2 := u2 * t + l2) in *. assert (I2 : 0 <= i2 <= 65535 + t * t) by (unfold i2; lia). rewrite half_split by (change (2 ^ 24) with 16777216; lia).
  pose proof (fold_word m t i2 E) as F3. assert (B3 : 0 <= i2 mod 2 ^ 16 < 65536) by (apply Z.mod_pos_bound; reflexivity). pose proof (Z.div_mod i2 (2 ^ 16) ltac:(discriminate)) as DM. change (2 ^ 16) with 65536 in *.
  assert (U3 : i2 / 65536 = 0 \/ i2 / 65536 = 1). { assert (0 <= i2 / 65536) by (apply Z.div_pos; lia). assert (i2 / 65536 < 2) by (apply Z.div_lt_upper_bound; lia). lia. }
  set (u3 := i2 / 65536) in *. set (l3 := i2 mod 65536) in *. assert (Q3 : 0 <= u3 * t <= 255) by (destruct U3 as [-> | ->]; lia). change (2 ^ 8) with 256. rewrite (Z.mod_small (u3 * t)) by lia.
  assert (R : 0 <= l3 + u3 * t < 65536) by (destruct U3 as [U3 | U3]; rewrite U3 in *; lia). rewrite Z.mod_small by exact R. split; [exact R |].
  apply (eqm_trans _ _ i2); [rewrite Z.add_comm; exact F3 |]. apply (eqm_trans _ _ i1); [exact F2 | exact F1].
Qed.

Lemma add_sub_word_ok m t v : 0 <= t <= 255 -> (2 ^ 16 == t [mod m]) -> 0 <= v < 2 ^ 24 -> 0 <= add_sub_word v t < 2 ^ 16 /\ (add_sub_word v t == v [mod m]).
Proof.
  intros Ht E Hv. unfold add_sub_word. rewrite half_split by exact Hv.
  pose proof (Z.mod_pos_bound v (2 ^ 16) ltac:(reflexivity)) as B1. assert (U1 : 0 <= v / 2 ^ 16 < 256) by (split; [apply Z.div_pos; [lia | reflexivity] | apply Z.div_lt_upper_bound; [reflexivity | exact (proj2 Hv)]]). pose proof (fold_word m t v E) as F1.
  set (u1 := v / 2 ^ 16) in *. set (l1 := v mod 2 ^ 16) in *. change (2 ^ 16) with 65536 in *.
  assert (Q1 : 0 <= u1 * t <= 255 * t) by nia. replace (u32 ((u1 * t) mod 65536 + l1)) with (u1 * t + l1) by (unfold u32; rewrite (Z.mod_small (u1 * t)) by nia; rewrite Z.mod_small by nia; ring).
  set (i2 := u1 * t + l1) in *. assert (I2 : 0 <= i2 <= 65535 + 255 * t) by (unfold i2; lia). rewrite half_split by (change (2 ^ 24) with 16777216; lia).
  pose proof (fold_word m t i2 E) as F3. change (2 ^ 16) with 65536 in *. pose proof (Z.mod_pos_bound i2 65536 ltac:(reflexivity)) as B3. pose proof (Z.div_mod i2 65536 ltac:(discriminate)) as DM.
  assert (U3 : i2 / 65536 = 0 \/ i2 / 65536 = 1). { assert (0 <= i2 / 65536) by (apply Z.div_pos; lia). assert (i2 / 65536 < 2) by (apply Z.div_lt_upper_bound; lia). lia. }
  set (u3 := i2 / 65536) in *. set (l3 := i2 mod 65536) in *. assert (Q3 : 0 <= u3 * t <= 255) by (destruct U3 as [-> | ->]; lia). change (2 ^ 8) with 256. rewrite (Z.mod_small (u3 * t)) by lia.
  assert (R : 0 <= u3 * t + l3 < 65536) by (destruct U3 as [U3 | U3]; rewrite U3 in *; lia). rewrite Z.mod_small by exact R. split; [exact R |].
  apply (eqm_trans _ _ i2); [exact F3 | exact F1].
Qed.

(** congruence of a residue vector, as a relation on lists *)
Definition rep (ms : list Z) (x : Z) (c : list Z) : Prop := Forall2 (fun m w => w == x [mod m]) ms c.
Lemma rep_length ms x c : rep ms x c -> length c = length ms.
Proof. induction 1 as [|m w ms c _ _ IH]; [reflexivity | cbn; congruence]. Qed.
Lemma rep_iff ms x c : Forall (fun m => 0 < m) ms -> (represents ms x c <-> rep ms x c).
Proof.
  intros P. unfold represents, rep. split.
  - revert c. induction P as [|m ms Pm P IH]; intros [|w c] [L H]; try discriminate L; [constructor |]. constructor; [apply eqm_mod_iff; [exact Pm |]; exact (H 0%nat ltac:(cbn; lia)) |]. apply IH. split; [cbn in L; lia |]. intros j Hj. exact (H (S j) ltac:(cbn; lia)).
  - intros F. revert P. induction F as [|m w ms c E F IH]; intros P; [split; [reflexivity | intros j Hj; cbn in Hj; lia] |]. rewrite Forall_cons_iff in P. destruct P as [Pm P]. destruct (IH P) as [L H]. split; [cbn; congruence |]. intros [|j] Hj; [apply eqm_mod_iff; assumption | apply H; cbn in Hj; lia].
Qed.
Lemma offsets_pos ms ts : offsets ms ts -> Forall (fun m => 0 < m) ms.
Proof. induction 1 as [|m t ms ts H _ IH]; constructor; [lia | exact IH]. Qed.

(** a word-wise reduction keeps the representation *)
Lemma map2_word_ok (f : Z -> Z -> Z) (B : Z) ms ts x c : offsets ms ts -> (forall m t v, 0 <= t <= 255 -> (2 ^ 16 == t [mod m]) -> 0 <= v < B -> 0 <= f v t < 2 ^ 16 /\ (f v t == v [mod m])) ->
  rep ms x c -> Forall (fun v => 0 <= v < B) c -> rep ms x (map2 f c ts) /\ words16 (map2 f c ts).
Proof.
  intros O Hf. revert c. induction O as [|m t ms ts (Pm & Ht & E) O IH]; intros c R F; inversion R as [|? w ? c' Ew R']; subst; [split; constructor |]. rewrite Forall_cons_iff in F. destruct F as [Fw F]. cbn [map2].
  destruct (IH c' R' F) as [I1 I2]. destruct (Hf m t w Ht E Fw) as [H1 H2]. split; constructor; try assumption. apply (eqm_trans _ _ w); assumption.
Qed.
Lemma offsets_u8_ok ms ts : offsets ms ts -> offsets_u8 ts = Some ts.
Proof. intros O. unfold offsets_u8. replace (forallb _ ts) with true; [reflexivity |]. symmetry. apply forallb_forall. intros t Ht. induction O as [|m t' ms ts H _ IH]; [contradiction |]. destruct Ht as [<- | Ht]; [apply andb_true_iff; split; [apply Z.leb_le | apply Z.ltb_lt]; lia | apply IH; exact Ht]. Qed.

(** products of residue words *)
Lemma mul_words ms x y a b : rep ms x a -> rep ms y b -> words16 a -> words16 b -> rep ms (x * y) (map2 (fun u v => u32 (u * v)) a b) /\ Forall (fun v => 0 <= v < 2 ^ 32) (map2 (fun u v => u32 (u * v)) a b).
Proof.
  intros Ra. revert b. induction Ra as [|m u ms a Eu Ra IH]; intros b Rb Wa Wb; inversion Rb as [|? v ? b' Ev Rb']; subst; [split; constructor |]. unfold words16 in *. rewrite Forall_cons_iff in Wa, Wb. destruct Wa as [Hu Wa], Wb as [Hv Wb]. cbn [map2]. destruct (IH b' Rb' Wa Wb) as [I1 I2]. change (2 ^ 16) with 65536 in *.
  assert (B : 0 <= u * v < 2 ^ 32) by (change (2 ^ 32) with (65536 * 65536); nia). unfold u32. rewrite (Z.mod_small (u * v)) by exact B. split; constructor; try assumption. apply eqm_mul_mor; assumption.
Qed.

Lemma dot_bound A B a b : 0 <= A -> 0 <= B -> Forall (fun x => 0 <= x <= A) a -> Forall (fun y => 0 <= y <= B) b -> 0 <= dotZ a b <= Z.of_nat (length a) * A * B.
Proof.
  intros HA HB Fa. revert b. induction Fa as [|x a Hx Fa IH]; intros b Fb; [unfold dotZ; cbn; lia |]. destruct b as [|y b]; [unfold dotZ; cbn [map2 lsum fold_right]; cbn [length]; nia |]. rewrite Forall_cons_iff in Fb. destruct Fb as [Hy Fb]. rewrite dotZ_cons. specialize (IH b Fb). cbn [length]. rewrite Nat2Z.inj_succ. assert (0 <= x * y <= A * B) by nia. lia.
Qed.
Lemma dot_linear {A} (f g h : A -> Z) c b l : (forall x, In x l -> h x = f x + c * g x) -> dotZ b (map h l) = dotZ b (map f l) + c * dotZ b (map g l).
Proof.
  revert b. induction l as [|x l IH]; intros b H; [destruct b; unfold dotZ; cbn; ring |]. destruct b as [|y b]; [unfold dotZ; cbn; ring |]. cbn [map]. rewrite !dotZ_cons, (IH b) by (intros; apply H; right; assumption). rewrite (H x) by (left; reflexivity). ring.
Qed.
Lemma dot_ext {A} (f g : A -> Z) b l : (forall x, In x l -> f x = g x) -> dotZ b (map f l) = dotZ b (map g l).
Proof. intros H. f_equal. apply map_ext_in. exact H. Qed.
Lemma dot_eqm {A} (f g : A -> Z) m b l : (forall x, In x l -> f x == g x [mod m]) -> dotZ b (map f l) == dotZ b (map g l) [mod m].
Proof. revert b. induction l as [|x l IH]; intros b H; [destruct b; apply eqm_refl |]. destruct b as [|y b]; [apply eqm_refl |]. cbn [map]. rewrite !dotZ_cons. apply eqm_add_mor; [apply eqm_mul_mor; [apply eqm_refl | apply H; left; reflexivity] | apply IH; intros; apply H; right; assumption]. Qed.

Lemma bytes_nth l j : (j < length l)%nat -> nth (2 * j) (bytes_of_u16 l) 0 = nth j l 0 mod 256 /\ nth (2 * j + 1) (bytes_of_u16 l) 0 = nth j l 0 / 256.
Proof. revert j. induction l as [|x l IH]; intros j Hj; [cbn in Hj; lia |]. destruct j as [|j]; [split; reflexivity |]. replace (2 * S j)%nat with (S (S (2 * j))) by lia. cbn [bytes_of_u16 flat_map app]. apply (IH j). cbn in Hj; lia. Qed.
Lemma bytes_length l : length (bytes_of_u16 l) = (2 * length l)%nat.
Proof. induction l as [|x l IH]; [reflexivity |]. cbn [bytes_of_u16 flat_map app length]. fold (bytes_of_u16 l). rewrite IH. lia. Qed.
Lemma bytes_range l : words16 l -> Forall (fun b => 0 <= b <= 255) (bytes_of_u16 l).
Proof.
  unfold words16. induction 1 as [|x l Hx _ IH]; [constructor |]. change (bytes_of_u16 (x :: l)) with (x mod 256 :: x / 256 :: bytes_of_u16 l). change (2 ^ 16) with 65536 in Hx. constructor; [pose proof (Z.mod_pos_bound x 256 ltac:(lia)); lia |]. constructor; [| exact IH].
  split; [apply Z.div_pos; lia |]. assert (x / 256 < 256) by (apply Z.div_lt_upper_bound; lia). lia.
Qed.
Lemma pairs_seq {A} (f : nat -> A) N s : pairs (map f (seq s (2 * N))) = map (fun j => (f (s + 2 * j)%nat, f (s + 2 * j + 1)%nat)) (seq 0 N).
Proof.
  revert s. induction N as [|N IH]; intros s; [reflexivity |]. replace (2 * S N)%nat with (S (S (2 * N))) by lia. cbn [seq map pairs]. rewrite IH. rewrite <- seq_shift, map_map. f_equal; [f_equal; f_equal; lia |]. apply map_ext. intros j. f_equal; f_equal; lia.
Qed.

(** gluing the byte columns back: every glued word is the exact dot product with the 16-bit matrix *)
Lemma glue_ok b (W : list (list Z)) N : Forall (fun x => 0 <= x <= 255) b -> (length b <= 128)%nat -> length b = length W -> Forall (fun r => length r = N /\ words16 r) W ->
  map (fun p => u32 (fst p + u32 (snd p * 2 ^ 8))) (pairs (vecmat32 b (map bytes_of_u16 W) (2 * N))) = map (fun j => dotZ b (map (fun r => nth j r 0) W)) (seq 0 N) /\
  forall j, 0 <= dotZ b (map (fun r => nth j r 0) W) <= Z.of_nat (length b) * 255 * 65535.
Proof.
  intros Fb Lb L FW. assert (WB : forall r j, In r W -> 0 <= nth j r 0 <= 65535). { intros r j Hr. rewrite Forall_forall in FW. destruct (FW r Hr) as [_ Wr]. destruct (Nat.lt_ge_cases j (length r)); [| rewrite nth_overflow by assumption; lia]. unfold words16 in Wr. rewrite Forall_forall in Wr. specialize (Wr _ (nth_In r 0 H)). change (2 ^ 16) with 65536 in Wr. lia. }
  assert (BD : forall j, 0 <= dotZ b (map (fun r => nth j r 0) W) <= Z.of_nat (length b) * 255 * 65535).
  { intros j. apply dot_bound; try lia; [exact Fb |]. apply Forall_map. apply Forall_forall. intros r Hr. apply WB. exact Hr. }
  split; [| exact BD]. unfold vecmat32. rewrite pairs_seq. rewrite map_map. apply map_ext_in. intros j Hj. apply in_seq in Hj. cbn [fst snd Nat.add].
  rewrite !map_map. rewrite (dot_ext (fun x => nth (2 * j) (bytes_of_u16 x) 0) (fun r => nth j r 0 mod 256)). 2: { intros r Hr. apply bytes_nth. rewrite Forall_forall in FW. destruct (FW r Hr). lia. }
  rewrite (dot_ext (fun x => nth (2 * j + 1) (bytes_of_u16 x) 0) (fun r => nth j r 0 / 256)). 2: { intros r Hr. apply bytes_nth. rewrite Forall_forall in FW. destruct (FW r Hr). lia. }
  rewrite (dot_linear (fun r => nth j r 0 mod 256) (fun r => nth j r 0 / 256) (fun r => nth j r 0) 256). 2: { intros r Hr. pose proof (Z.div_mod (nth j r 0) 256 ltac:(lia)). lia. }
  assert (B1 : 0 <= dotZ b (map (fun r => nth j r 0 mod 256) W) <= Z.of_nat (length b) * 255 * 255). { apply dot_bound; try lia; [exact Fb |]. apply Forall_map. apply Forall_forall. intros r Hr. pose proof (Z.mod_pos_bound (nth j r 0) 256 ltac:(lia)). lia. }
  assert (B2 : 0 <= dotZ b (map (fun r => nth j r 0 / 256) W) <= Z.of_nat (length b) * 255 * 255). { apply dot_bound; try lia; [exact Fb |]. apply Forall_map. apply Forall_forall. intros r Hr. specialize (WB r j Hr). split; [apply Z.div_pos; lia |]. assert (nth j r 0 / 256 < 256) by (apply Z.div_lt_upper_bound; lia). lia. }
  change (2 ^ 8) with 256. unfold u32. rewrite (Z.mod_small (dotZ b _)) by lia. rewrite (Z.mod_small (dotZ b (map (fun r => nth j r 0 / 256) W))) by lia. rewrite (Z.mod_small (_ * 256)) by lia. rewrite Z.mod_small by lia. ring.
Qed.

Lemma dot_positive b l : Forall (fun x => 0 <= x <= 255) b -> Forall (fun y => 0 < y) l -> length b = length l -> (exists x, In x b /\ x <> 0) -> 0 < dotZ b l.
Proof.
  intros Fb. revert l. induction Fb as [|x b Hx Fb IH]; intros [|y l] Fl L (w & Hw & Nw); try discriminate L; [contradiction |]. rewrite Forall_cons_iff in Fl. destruct Fl as [Hy Fl]. rewrite dotZ_cons. assert (L' : length b = length l) by (cbn in L; lia).
  assert (0 <= dotZ b l). { clear - Fb Fl. revert l Fl. induction Fb as [|u b Hu Fb IH]; intros [|v l] Fl; [unfold dotZ; cbn; lia .. |]. rewrite Forall_cons_iff in Fl. destruct Fl as [Hv Fl]. rewrite dotZ_cons. specialize (IH l Fl). nia. }
  destruct Hw as [<- | Hw]; [nia |]. specialize (IH l Fl L' (ex_intro _ w (conj Hw Nw))). nia.
Qed.
Lemma dot_zero b l : Forall (fun x => x = 0) b -> dotZ b l = 0.
Proof. intros F. revert l. induction F as [|x b -> F IH]; intros [|y l]; try reflexivity. rewrite dotZ_cons, IH. ring. Qed.
Lemma bytes_zero c : Forall (fun w => w = 0) c -> Forall (fun x => x = 0) (bytes_of_u16 c).
Proof. induction 1 as [|w c -> _ IH]; [constructor |]. change (bytes_of_u16 (0 :: c)) with (0 mod 256 :: 0 / 256 :: bytes_of_u16 c). constructor; [reflexivity |]. constructor; [reflexivity | exact IH]. Qed.
Lemma bytes_nonzero c : (exists w, In w c /\ w <> 0) -> exists x, In x (bytes_of_u16 c) /\ x <> 0.
Proof.
  intros (w & Hw & Nw). assert (E : w mod 256 <> 0 \/ w / 256 <> 0). { pose proof (Z.div_mod w 256 ltac:(lia)). destruct (Z.eq_dec (w mod 256) 0); [| left; assumption]. destruct (Z.eq_dec (w / 256) 0); [lia | right; assumption]. }
  unfold bytes_of_u16. destruct E as [E | E]; [exists (w mod 256) | exists (w / 256)]; (split; [apply in_flat_map; exists w; split; [exact Hw | cbn; tauto] | exact E]).
Qed.
(** a fold of a non-zero word is not zero, unless the offset is *)
Lemma red_word_nonzero t v : 0 < t <= 255 -> 0 < v < 2 ^ 32 -> rns_red_word v t <> 0.
Proof.
  intros Ht Hv. unfold rns_red_word, split_view_32_to_16. change (2 ^ 32) with 4294967296 in Hv. assert (U1 : 0 <= v / 2 ^ 16 < 65536) by (change (2 ^ 16) with 65536; split; [apply Z.div_pos; lia | apply Z.div_lt_upper_bound; lia]). change (2 ^ 16) with 65536 in *. pose proof (Z.div_mod v 65536 ltac:(lia)) as D1. pose proof (Z.mod_pos_bound v 65536 ltac:(lia)) as B1. set (u1 := v / 65536) in *. set (l1 := v mod 65536) in *.
  replace (u32 (l1 + u32 (u1 * t))) with (l1 + u1 * t) by (unfold u32; rewrite (Z.mod_small (u1 * t)) by nia; rewrite Z.mod_small by nia; ring). set (i1 := l1 + u1 * t). assert (I1 : 0 < i1 <= 65535 * (t + 1)) by (unfold i1; nia). clearbody i1. clear D1 B1 U1 u1 l1 Hv v.
  rewrite half_split by (change (2 ^ 24) with 16777216; nia). change (2 ^ 16) with 65536. pose proof (Z.div_mod i1 65536 ltac:(lia)) as D2. pose proof (Z.mod_pos_bound i1 65536 ltac:(lia)) as B2. assert (U2 : 0 <= i1 / 65536 <= t) by (split; [apply Z.div_pos; lia |]; assert (i1 / 65536 < t + 1); [apply Z.div_lt_upper_bound; lia | lia]). set (u2 := i1 / 65536) in *. set (l2 := i1 mod 65536) in *.
  assert (TT : u2 * t <= 65025) by nia. replace (u32 (l2 + (u2 * t) mod 65536)) with (l2 + u2 * t) by (unfold u32; rewrite (Z.mod_small (u2 * t)) by nia; rewrite Z.mod_small by nia; ring). set (i2 := l2 + u2 * t). assert (I2 : 0 < i2 <= 130560) by (unfold i2; nia). clearbody i2. clear D2 B2 U2 TT u2 l2 I1 i1.
  rewrite half_split by (change (2 ^ 24) with 16777216; lia). change (2 ^ 16) with 65536. pose proof (Z.div_mod i2 65536 ltac:(lia)) as D3. pose proof (Z.mod_pos_bound i2 65536 ltac:(lia)) as B3. assert (U3 : i2 / 65536 = 0 \/ i2 / 65536 = 1). { assert (0 <= i2 / 65536) by (apply Z.div_pos; lia). assert (i2 / 65536 < 2) by (apply Z.div_lt_upper_bound; lia). lia. }
  set (u3 := i2 / 65536) in *. set (l3 := i2 mod 65536) in *. change (2 ^ 8) with 256. destruct U3 as [U3 | U3]; rewrite U3 in *; [rewrite Z.mod_small by (cbn; lia); cbn; lia |]. rewrite Z.mul_1_l, (Z.mod_small t) by lia. rewrite Z.mod_small by lia. lia.
Qed.

(** what more the reduction of one row satisfies: zero rows stay zero, others have no zero word, and the value in closed form *)
Definition shifted_of (M : Z) (pre : list Z) : list Z := flat_map (fun factor => map (fun b => (Z.shiftl 1 (8 * Z.of_nat b) * factor) mod M) (seq 0 2)) pre.
Definition row_value (M q : Z) (shifted c : list Z) (x : Z) : Z := dotZ (bytes_of_u16 c) (map (fun S => S mod q) shifted) + (dotZ (bytes_of_u16 c) shifted - x) / M * ((- M) mod q).
Definition row_extra (ms : list Z) (M q : Z) (shifted c r : list Z) (x z : Z) : Prop :=
  (Forall (fun S => Forall (fun m => 0 < (S mod q) mod m) ms) shifted -> (exists w, In w c /\ w <> 0) -> Forall (fun v => 0 < v) r) /\
  (Forall (fun w => w = 0) c -> Forall (fun v => v = 0) r) /\ z = row_value M q shifted c x.

Section reduction.
  Context (ms ts pre : list Z) (q : Z).
  Let n := length ms.
  Let M := lprod ms.
  Let shifted := flat_map (fun factor => map (fun b => (Z.shiftl 1 (8 * Z.of_nat b) * factor) mod M) (seq 0 2)) pre.
  Let e (S : Z) := float_ceildiv (S * 2 ^ 16) M.
  Let wrow (S : Z) := map (fun m => (S mod q) mod m) ms ++ [e S].

  Hypothesis HC : coprime_moduli ms.
  Hypothesis HO : offsets ms ts.
  Hypothesis Hn : (0 < n <= 64)%nat.
  Hypothesis Hpre : rns_precompute ms = Some pre.
  Hypothesis Hq : 0 < q <= M.
  (** the quotient constants are the rounded-up fractions *)
  Hypothesis He : Forall (fun S => 0 <= e S < 65536 /\ S * 2 ^ 16 <= e S * M < S * 2 ^ 16 + M) shifted.

  Lemma M_pos : 0 < M.
  Proof. apply lprod_pos. apply HC. Qed.
  Lemma ms_range : Forall (fun m => 0 < m <= 2 ^ 16) ms.
  Proof. clear - HO. induction HO as [|m t ms' ts' H F IH]; [constructor |]. constructor; [lia | exact (IH F)]. Qed.
  Lemma np_u16_ok l : words16 l -> np_u16 l = Some l.
  Proof. intros W. unfold np_u16. replace (forallb _ l) with true; [reflexivity |]. symmetry. apply forallb_forall. intros x Hx. unfold words16 in W. rewrite Forall_forall in W. specialize (W x Hx). change (2 ^ 16) with 65536 in W. apply andb_true_iff. split; [apply Z.leb_le | apply Z.ltb_lt]; lia. Qed.
  Lemma words_mod x : words16 (map (fun m => x mod m) ms).
  Proof. apply Forall_map. eapply Forall_impl; [| exact ms_range]. cbn beta. intros m Hm. pose proof (Z.mod_pos_bound x m ltac:(lia)). lia. Qed.
  Lemma to_rns_small x : x < M -> to_rns x ms = Some (map (fun m => x mod m) ms).
  Proof. intros H. unfold to_rns, total_modulus. rewrite fold_left_mul, Z.mul_1_l. fold M. destruct (Z.ltb_spec x M); [reflexivity | lia]. Qed.

  (** the constants are built, and are these *)
  Lemma coefficients_ok : rns_coefficients_precompute pre ms 2 16 M q = Some (map (fun S => bytes_of_u16 (wrow S)) shifted, map (fun m => ((- M) mod q) mod m) ms).
  Proof.
    unfold rns_coefficients_precompute. fold shifted. cbv zeta. match goal with |- context [map ?g shifted] => set (f := g) end.
    assert (E : forall S, In S shifted -> f S = Some (bytes_of_u16 (wrow S))).
    { intros S HS. unfold f. pose proof (Z.mod_pos_bound S q ltac:(lia)). rewrite to_rns_small by lia. rewrite (np_u16_ok _ (words_mod (S mod q))). rewrite Forall_forall in He. destruct (He S HS) as [B _]. fold (e S). rewrite np_u16_ok by (constructor; [exact B | constructor]).
      unfold wrow, bytes_of_u16. rewrite flat_map_app. reflexivity. }
    assert (E2 : sequence_opt (map f shifted) = Some (map (fun S => bytes_of_u16 (wrow S)) shifted)).
    { clear - E. induction shifted as [|S l IH]; [reflexivity |]. cbn [map sequence_opt]. rewrite (E S) by (left; reflexivity). rewrite IH by (intros; apply E; right; assumption). reflexivity. }
    rewrite E2. pose proof (Z.mod_pos_bound (- M) q ltac:(lia)). rewrite to_rns_small by lia. rewrite (np_u16_ok _ (words_mod ((- M) mod q))). reflexivity.
  Qed.

  Lemma pre_length : length pre = n.
  Proof. destruct (icrt_ok ms HC) as (p & Ep & L & _). rewrite Hpre in Ep. injection Ep as <-. exact L. Qed.
  Lemma shifted_length : length shifted = (2 * n)%nat.
  Proof. rewrite <- pre_length. unfold shifted. clear. set (F := fun factor : Z => _). assert (LF : forall f, length (F f) = 2%nat) by reflexivity. clearbody F. induction pre as [|f l IH]; [reflexivity |]. cbn [flat_map length]. rewrite app_length, LF, IH. lia. Qed.
  Lemma shifted_range : Forall (fun S => 0 <= S < M) shifted.
  Proof. pose proof M_pos as MP. unfold shifted. apply Forall_forall. intros S HS. apply in_flat_map in HS. destruct HS as (f & _ & HS). apply in_map_iff in HS. destruct HS as (b & <- & _). apply Z.mod_pos_bound. exact MP. Qed.

  (** the byte-weighted sum is x modulo the product of the moduli *)
  Lemma sum_eqm x c : rep ms x c -> dotZ (bytes_of_u16 c) shifted == x [mod M].
  Proof.
    intros R. assert (L : length c = n) by exact (rep_length _ _ _ R).
    assert (E1 : dotZ (bytes_of_u16 c) shifted == dotZ pre c [mod M]).
    { pose proof pre_length as Lp. rewrite <- Lp in L. clear Lp R. unfold shifted. clear He Hpre. revert c L. induction pre as [|f l IH]; intros [|w c] L; try discriminate L; [apply eqm_refl |].
      change (bytes_of_u16 (w :: c)) with (w mod 256 :: w / 256 :: bytes_of_u16 c). cbn [flat_map seq map app]. rewrite !dotZ_cons. specialize (IH c ltac:(cbn in L; lia)). rewrite IH. change (Z.shiftl 1 (8 * Z.of_nat 0)) with 1. change (Z.shiftl 1 (8 * Z.of_nat 1)) with 256. rewrite (eqm_mod M (1 * f)), (eqm_mod M (256 * f)).
      apply eqm_eq. pose proof (Z.div_mod w 256 ltac:(lia)). nia. }
    rewrite E1. destruct (C43_rns_reconstruct ms c HC L) as (p & y & Ep & Er & By & Hy). rewrite Hpre in Ep. injection Ep as <-. unfold rns_reconstruct in Er. rewrite L in Er. fold n in Er. rewrite pre_length, !Nat.eqb_refl in Er. cbn [andb negb] in Er. unfold total_modulus in Er. rewrite fold_left_mul, Z.mul_1_l in Er. injection Er as Er. fold M in Er.
    rewrite <- (eqm_mod M (dotZ pre c)), Er. apply crt_unique; [exact HC |]. intros m Hm. apply (In_nth _ _ 0) in Hm. destruct Hm as (i & Hi & <-). pose proof (proj1 HC) as HP. rewrite Forall_forall in HP. apply (eqm_mod_iff _ _ _ (HP _ (nth_In _ 0 Hi))). rewrite (Hy i Hi).
    apply (eqm_mod_iff _ _ _ (HP _ (nth_In _ 0 Hi))). clear - R Hi. revert i Hi. induction R as [|m w ms' c Ew R IH]; intros i Hi; [cbn in Hi; lia |]. destruct i as [|i]; [exact Ew | apply IH; cbn in Hi; lia].
  Qed.

  Lemma reduce_row_ok x c : rep ms x c -> words16 c -> 0 <= x -> 2 ^ 16 * x + 255 * (2 * Z.of_nat n) * M < 2 ^ 16 * M ->
    exists r z, mod_red_rns_row c (map (fun S => bytes_of_u16 (wrow S)) shifted, map (fun m => ((- M) mod q) mod m) ms) n 16 = Some r /\ rep ms z r /\ Forall (fun v => 0 <= v < 2 ^ 32) r /\ (z == x [mod q]) /\ 0 <= z <= 1020 * Z.of_nat n * (q - 1) /\
      row_extra ms M q shifted c r x z.
  Proof.
    intros R W Hx Hb. assert (L : length c = n) by exact (rep_length _ _ _ R). set (b := bytes_of_u16 c). assert (Lb : length b = (2 * n)%nat) by (unfold b; rewrite bytes_length, L; reflexivity).
    pose proof (bytes_range c W) as Fb. fold b in Fb. pose proof M_pos as MP. pose proof shifted_range as SR. unfold mod_red_rns_row. fold b. rewrite !map_length, Lb, shifted_length. fold n. rewrite !Nat.eqb_refl. cbn [andb negb]. cbv zeta.
    set (K0 := dotZ b (map e shifted) / 2 ^ 16).
    set (WW := map wrow shifted). rewrite <- (map_map wrow bytes_of_u16). fold WW. assert (LW : length WW = (2 * n)%nat) by (unfold WW; rewrite map_length; apply shifted_length).
    assert (FW : Forall (fun r => length r = (n + 1)%nat /\ words16 r) WW). { unfold WW. apply Forall_map. eapply Forall_impl; [| exact He]. cbn beta. intros S [B _]. unfold wrow. split; [rewrite app_length, map_length; reflexivity |]. apply Forall_app. split; [apply words_mod | constructor; [exact B | constructor]]. }
    assert (LH : length (hd [] (map bytes_of_u16 WW)) = (2 * (n + 1))%nat). { destruct WW as [|r0 W']; [cbn in LW; lia |]. cbn [map hd]. rewrite bytes_length. rewrite Forall_cons_iff in FW. destruct FW as [[-> _] _]. reflexivity. }
    rewrite LH. destruct (glue_ok b WW (n + 1) Fb ltac:(lia) ltac:(lia) FW) as [G GB]. rewrite G. rewrite seq_app, map_app. cbn [seq map Nat.add].
    rewrite firstn_app, firstn_all2, map_length, seq_length, Nat.sub_diag by (rewrite map_length, seq_length; lia). cbn [firstn]. rewrite app_nil_r.
    rewrite skipn_app, skipn_all2, map_length, seq_length, Nat.sub_diag by (rewrite map_length, seq_length; lia). cbn [skipn app map].
    assert (QE : dotZ b (map (fun r => nth n r 0) WW) = dotZ b (map e shifted)). { unfold WW. rewrite map_map. apply dot_ext. intros S _. unfold wrow. rewrite app_nth2, map_length by (rewrite map_length; unfold n; lia). fold n. rewrite Nat.sub_diag. reflexivity. }
    assert (CJ : forall j, (j < n)%nat -> dotZ b (map (fun r => nth j r 0) WW) = dotZ b (map (fun S => (S mod q) mod nth j ms 1) shifted)).
    { intros j Hj. unfold WW. rewrite map_map. apply dot_ext. intros S _. unfold wrow. rewrite app_nth1 by (rewrite map_length; exact Hj). rewrite (nth_map_lt (fun m => (S mod q) mod m) ms j 0 1 Hj). reflexivity. }
    rewrite QE. change (2 ^ 16) with 65536 in *.
    pose proof (GB n) as QB. rewrite QE in QB. rewrite Lb in QB, GB. set (qe := dotZ b (map e shifted)) in *. assert (K0B : 0 <= K0 < 255 * (2 * Z.of_nat n)). { unfold K0. split; [apply Z.div_pos; lia |]. apply Z.div_lt_upper_bound; lia. }
    rewrite (Z.mod_small (qe / 65536)) by (fold K0; lia). fold K0.
    (* the estimate is exact *)
    set (Y := dotZ b shifted). assert (YE : Y == x [mod M]) by (apply sum_eqm; exact R).
    assert (QY : Y * 65536 <= qe * M <= Y * 65536 + 255 * (2 * Z.of_nat n) * M).
    { unfold Y, qe. assert (G2 : forall b l, Forall (fun x => 0 <= x <= 255) b -> length b = length l -> Forall (fun S => 0 <= e S < 65536 /\ S * 2 ^ 16 <= e S * M < S * 2 ^ 16 + M) l -> dotZ b l * 65536 <= dotZ b (map e l) * M <= dotZ b l * 65536 + 255 * Z.of_nat (length b) * M).
      { clear - MP. intros b l Fb. revert l. induction Fb as [|u b Hu Fb IH]; intros [|S l] L F; try discriminate L; [unfold dotZ; cbn; lia |]. rewrite Forall_cons_iff in F. destruct F as [(_ & HS) F]. change (2 ^ 16) with 65536 in HS. cbn [map length]. rewrite !dotZ_cons. specialize (IH l ltac:(cbn in L; lia) F). rewrite Nat2Z.inj_succ. assert (u * S * 65536 <= u * e S * M <= u * S * 65536 + 255 * M) by nia. lia. }
      specialize (G2 b shifted Fb ltac:(rewrite Lb, shifted_length; reflexivity) He). rewrite Lb in G2. replace (Z.of_nat (2 * n)) with (2 * Z.of_nat n) in G2 by lia. exact G2. }
    destruct YE as [K YK]. assert (EK : K0 = K). { unfold K0. symmetry. apply (Z.div_unique _ _ _ (qe - 65536 * K)); [left | ring]. assert (Y = x + K * M) by lia. split; nia. }
    set (z := dotZ b (map (fun S => S mod q) shifted) + K0 * ((- M) mod q)).
    exists (map2 (fun v c0 => u32 (v + u32 (K0 * c0))) (map (fun j => dotZ b (map (fun r => nth j r 0) WW)) (seq 0 n)) (map (fun m => ((- M) mod q) mod m) ms)), z. split; [reflexivity |].
    set (out := map2 _ _ _). assert (Lo : length out = n) by (unfold out; rewrite map2_length, !map_length, seq_length; unfold n; lia).
    assert (OJ : forall j, (j < n)%nat -> nth j out 0 = dotZ b (map (fun S => (S mod q) mod nth j ms 1) shifted) + K0 * (((- M) mod q) mod nth j ms 1) /\ 0 <= nth j out 0 < 2 ^ 32).
    { intros j Hj. unfold out. rewrite (nth_map2 _ _ _ j 0 0 0) by (rewrite ?map_length, ?seq_length; exact Hj). rewrite nth_map_seq by exact Hj. rewrite (nth_map_lt (fun m => ((- M) mod q) mod m) ms j 0 1 Hj). rewrite (CJ j Hj). specialize (GB j). rewrite (CJ j Hj) in GB.
      pose proof ms_range as MR. rewrite Forall_forall in MR. specialize (MR _ (nth_In ms 1 Hj)). change (2 ^ 16) with 65536 in MR. pose proof (Z.mod_pos_bound ((- M) mod q) (nth j ms 1) ltac:(lia)) as CB. unfold u32. assert (P1 : 0 <= K0 * (((- M) mod q) mod nth j ms 1) <= 255 * (2 * Z.of_nat n) * 65535) by nia. rewrite (Z.mod_small (K0 * _)) by lia. rewrite Z.mod_small by lia. split; [reflexivity |]. change (2 ^ 32) with 4294967296. lia. }
    split.
    { apply rep_iff; [apply HC |]. split; [exact Lo |]. intros j Hj. pose proof (proj1 HC) as HP. rewrite Forall_forall in HP. pose proof (HP _ (nth_In ms 1 Hj)) as Pm. apply eqm_mod_iff; [exact Pm |]. rewrite (proj1 (OJ j Hj)). unfold z. apply eqm_add_mor; [apply dot_eqm; intros S _; apply eqm_mod | apply eqm_mul_mor; [apply eqm_refl | apply eqm_mod]]. }
    split. { apply Forall_forall. intros v Hv. apply (In_nth _ _ 0) in Hv. destruct Hv as (j & Hj & <-). apply OJ. lia. }
    split.
    { unfold z. apply (eqm_trans _ _ (Y + K0 * (- M))); [apply eqm_add_mor; [| apply eqm_mul_mor; [apply eqm_refl | apply eqm_mod]] |]. { unfold Y. rewrite <- (map_id shifted) at 2. apply dot_eqm. intros S _. apply eqm_mod. } apply eqm_eq. lia. }
    assert (QM : 0 <= (- M) mod q <= q - 1) by (pose proof (Z.mod_pos_bound (- M) q ltac:(lia)); lia).
    assert (DB : 0 <= dotZ b (map (fun S => S mod q) shifted) <= Z.of_nat (length b) * 255 * (q - 1)). { apply dot_bound; try lia; [exact Fb |]. apply Forall_map. apply Forall_forall. intros S _. pose proof (Z.mod_pos_bound S q ltac:(lia)). lia. }
    rewrite Lb in DB. unfold z. assert (0 <= K0 * ((- M) mod q) <= 255 * (2 * Z.of_nat n) * (q - 1)) by nia. split; [lia |]. unfold row_extra.
    assert (FO : forall P : Z -> Prop, (forall j, (j < n)%nat -> P (nth j out 0)) -> Forall P out) by (intros P HP; apply Forall_forall; intros v Hv; apply (In_nth _ _ 0) in Hv; destruct Hv as (j & Hj & <-); apply HP; lia). split; [| split].
    - intros HS HW. apply FO. intros j Hj. rewrite (proj1 (OJ j Hj)). assert (MR : 0 < nth j ms 1) by (pose proof ms_range as MR; rewrite Forall_forall in MR; apply (MR _ (nth_In ms 1 Hj))). assert (0 <= K0 * (((- M) mod q) mod nth j ms 1)) by (pose proof (Z.mod_pos_bound ((- M) mod q) (nth j ms 1) MR); nia).
      assert (0 < dotZ b (map (fun S => (S mod q) mod nth j ms 1) shifted)); [| lia]. apply dot_positive; [exact Fb | | rewrite map_length, Lb, shifted_length; reflexivity | apply bytes_nonzero; assumption].
      apply Forall_map. eapply Forall_impl; [| exact HS]. cbn beta. intros S FS. rewrite Forall_forall in FS. apply FS. apply nth_In. exact Hj.
    - intros HZ. assert (BZ : Forall (fun x => x = 0) b) by (apply bytes_zero; exact HZ). assert (DZ : forall l, dotZ b l = 0) by (intros l; apply dot_zero; exact BZ). apply FO. intros j Hj. rewrite (proj1 (OJ j Hj)), DZ. unfold K0, qe. rewrite DZ. reflexivity.
    - unfold row_value. fold b. fold Y. rewrite EK. f_equal. f_equal. replace (Y - x) with (K * M) by lia. symmetry. apply Z.div_mul. lia.
  Qed.
  (** without the bound on x the quotient estimate may be one too large *)
  Lemma reduce_row_any x c : rep ms x c -> words16 c -> 0 <= x < M ->
    exists r z, mod_red_rns_row c (map (fun S => bytes_of_u16 (wrow S)) shifted, map (fun m => ((- M) mod q) mod m) ms) n 16 = Some r /\ rep ms z r /\ Forall (fun v => 0 <= v < 2 ^ 32) r /\ 0 <= z <= 1020 * Z.of_nat n * (q - 1) /\ ((z == x [mod q]) \/ (z == x - M [mod q])).
  Proof.
    intros R W Hx. assert (L : length c = n) by exact (rep_length _ _ _ R). set (b := bytes_of_u16 c). assert (Lb : length b = (2 * n)%nat) by (unfold b; rewrite bytes_length, L; reflexivity).
    pose proof (bytes_range c W) as Fb. fold b in Fb. pose proof M_pos as MP. pose proof shifted_range as SR. unfold mod_red_rns_row. fold b. rewrite !map_length, Lb, shifted_length. fold n. rewrite !Nat.eqb_refl. cbn [andb negb]. cbv zeta.
    set (K0 := dotZ b (map e shifted) / 2 ^ 16).
    set (WW := map wrow shifted). rewrite <- (map_map wrow bytes_of_u16). fold WW. assert (LW : length WW = (2 * n)%nat) by (unfold WW; rewrite map_length; apply shifted_length).
    assert (FW : Forall (fun r => length r = (n + 1)%nat /\ words16 r) WW). { unfold WW. apply Forall_map. eapply Forall_impl; [| exact He]. cbn beta. intros S [B _]. unfold wrow. split; [rewrite app_length, map_length; reflexivity |]. apply Forall_app. split; [apply words_mod | constructor; [exact B | constructor]]. }
    assert (LH : length (hd [] (map bytes_of_u16 WW)) = (2 * (n + 1))%nat). { destruct WW as [|r0 W']; [cbn in LW; lia |]. cbn [map hd]. rewrite bytes_length. rewrite Forall_cons_iff in FW. destruct FW as [[-> _] _]. reflexivity. }
    rewrite LH. destruct (glue_ok b WW (n + 1) Fb ltac:(lia) ltac:(lia) FW) as [G GB]. rewrite G. rewrite seq_app, map_app. cbn [seq map Nat.add].
    rewrite firstn_app, firstn_all2, map_length, seq_length, Nat.sub_diag by (rewrite map_length, seq_length; lia). cbn [firstn]. rewrite app_nil_r.
    rewrite skipn_app, skipn_all2, map_length, seq_length, Nat.sub_diag by (rewrite map_length, seq_length; lia). cbn [skipn app map].
    assert (QE : dotZ b (map (fun r => nth n r 0) WW) = dotZ b (map e shifted)). { unfold WW. rewrite map_map. apply dot_ext. intros S _. unfold wrow. rewrite app_nth2, map_length by (rewrite map_length; unfold n; lia). fold n. rewrite Nat.sub_diag. reflexivity. }
    assert (CJ : forall j, (j < n)%nat -> dotZ b (map (fun r => nth j r 0) WW) = dotZ b (map (fun S => (S mod q) mod nth j ms 1) shifted)).
    { intros j Hj. unfold WW. rewrite map_map. apply dot_ext. intros S _. unfold wrow. rewrite app_nth1 by (rewrite map_length; exact Hj). rewrite (nth_map_lt (fun m => (S mod q) mod m) ms j 0 1 Hj). reflexivity. }
    rewrite QE. change (2 ^ 16) with 65536 in *.
    pose proof (GB n) as QB. rewrite QE in QB. rewrite Lb in QB, GB. set (qe := dotZ b (map e shifted)) in *. assert (K0B : 0 <= K0 < 255 * (2 * Z.of_nat n)). { unfold K0. split; [apply Z.div_pos; lia |]. apply Z.div_lt_upper_bound; lia. }
    rewrite (Z.mod_small (qe / 65536)) by (fold K0; lia). fold K0.
    (* the estimate is exact *)
    set (Y := dotZ b shifted). assert (YE : Y == x [mod M]) by (apply sum_eqm; exact R).
    assert (QY : Y * 65536 <= qe * M <= Y * 65536 + 255 * (2 * Z.of_nat n) * M).
    { unfold Y, qe. assert (G2 : forall b l, Forall (fun x => 0 <= x <= 255) b -> length b = length l -> Forall (fun S => 0 <= e S < 65536 /\ S * 2 ^ 16 <= e S * M < S * 2 ^ 16 + M) l -> dotZ b l * 65536 <= dotZ b (map e l) * M <= dotZ b l * 65536 + 255 * Z.of_nat (length b) * M).
      { clear - MP. intros b l Fb. revert l. induction Fb as [|u b Hu Fb IH]; intros [|S l] L F; try discriminate L; [unfold dotZ; cbn; lia |]. rewrite Forall_cons_iff in F. destruct F as [(_ & HS) F]. change (2 ^ 16) with 65536 in HS. cbn [map length]. rewrite !dotZ_cons. specialize (IH l ltac:(cbn in L; lia) F). rewrite Nat2Z.inj_succ. assert (u * S * 65536 <= u * e S * M <= u * S * 65536 + 255 * M) by nia. lia. }
      specialize (G2 b shifted Fb ltac:(rewrite Lb, shifted_length; reflexivity) He). rewrite Lb in G2. replace (Z.of_nat (2 * n)) with (2 * Z.of_nat n) in G2 by lia. exact G2. }
    destruct YE as [K YK]. assert (EK : K0 = K \/ K0 = K + 1). { assert (YK2 : Y = x + K * M) by lia. assert (KL : 65536 * K <= qe) by nia. assert (KU : qe < 65536 * (K + 2)) by nia. assert (K <= K0) by (unfold K0; apply Z.div_le_lower_bound; lia). assert (K0 < K + 2) by (unfold K0; apply Z.div_lt_upper_bound; lia). lia. }
    set (z := dotZ b (map (fun S => S mod q) shifted) + K0 * ((- M) mod q)).
    exists (map2 (fun v c0 => u32 (v + u32 (K0 * c0))) (map (fun j => dotZ b (map (fun r => nth j r 0) WW)) (seq 0 n)) (map (fun m => ((- M) mod q) mod m) ms)), z. split; [reflexivity |].
    set (out := map2 _ _ _). assert (Lo : length out = n) by (unfold out; rewrite map2_length, !map_length, seq_length; unfold n; lia).
    assert (OJ : forall j, (j < n)%nat -> nth j out 0 = dotZ b (map (fun S => (S mod q) mod nth j ms 1) shifted) + K0 * (((- M) mod q) mod nth j ms 1) /\ 0 <= nth j out 0 < 2 ^ 32).
    { intros j Hj. unfold out. rewrite (nth_map2 _ _ _ j 0 0 0) by (rewrite ?map_length, ?seq_length; exact Hj). rewrite nth_map_seq by exact Hj. rewrite (nth_map_lt (fun m => ((- M) mod q) mod m) ms j 0 1 Hj). rewrite (CJ j Hj). specialize (GB j). rewrite (CJ j Hj) in GB.
      pose proof ms_range as MR. rewrite Forall_forall in MR. specialize (MR _ (nth_In ms 1 Hj)). change (2 ^ 16) with 65536 in MR. pose proof (Z.mod_pos_bound ((- M) mod q) (nth j ms 1) ltac:(lia)) as CB. unfold u32. assert (P1 : 0 <= K0 * (((- M) mod q) mod nth j ms 1) <= 255 * (2 * Z.of_nat n) * 65535) by nia. rewrite (Z.mod_small (K0 * _)) by lia. rewrite Z.mod_small by lia. split; [reflexivity |]. change (2 ^ 32) with 4294967296. lia. }
    split.
    { apply rep_iff; [apply HC |]. split; [exact Lo |]. intros j Hj. pose proof (proj1 HC) as HP. rewrite Forall_forall in HP. pose proof (HP _ (nth_In ms 1 Hj)) as Pm. apply eqm_mod_iff; [exact Pm |]. rewrite (proj1 (OJ j Hj)). unfold z. apply eqm_add_mor; [apply dot_eqm; intros S _; apply eqm_mod | apply eqm_mul_mor; [apply eqm_refl | apply eqm_mod]]. }
    split. { apply Forall_forall. intros v Hv. apply (In_nth _ _ 0) in Hv. destruct Hv as (j & Hj & <-). apply OJ. lia. }
    assert (ZE : z == Y + K0 * (- M) [mod q]). { unfold z. apply eqm_add_mor; [| apply eqm_mul_mor; [apply eqm_refl | apply eqm_mod]]. unfold Y. rewrite <- (map_id shifted) at 2. apply dot_eqm. intros S _. apply eqm_mod. }
    assert (QM : 0 <= (- M) mod q <= q - 1) by (pose proof (Z.mod_pos_bound (- M) q ltac:(lia)); lia).
    assert (DB : 0 <= dotZ b (map (fun S => S mod q) shifted) <= Z.of_nat (length b) * 255 * (q - 1)). { apply dot_bound; try lia; [exact Fb |]. apply Forall_map. apply Forall_forall. intros S _. pose proof (Z.mod_pos_bound S q ltac:(lia)). lia. }
    rewrite Lb in DB. split; [unfold z; assert (0 <= K0 * ((- M) mod q) <= 255 * (2 * Z.of_nat n) * (q - 1)) by nia; lia |].
    destruct EK as [EK | EK]; [left | right]; rewrite ZE; apply eqm_eq; rewrite EK; lia.
  Qed.
End reduction.
