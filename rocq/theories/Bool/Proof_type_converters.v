From Coq Require Import ZArith List Bool Lia.
From Verif Require Import Bool.Model_type_converters Bool.Proof_lut.
Import ListNotations.
Local Open Scope Z_scope.

Lemma fold_or_bits bs : forall k a j, 0 <= j ->
  Z.testbit (fold_left (fun result i => Z.lor result (Z.shiftl (Z.b2z (nth i bs false)) (Z.of_nat i))) (seq 0 k) a) j =
  Z.testbit a j || ((j <? Z.of_nat k) && nth (Z.to_nat j) bs false).
Proof.
  induction k as [|k IH]; intros a j Hj.
  - cbn [seq fold_left]. destruct (Z.ltb_spec j (Z.of_nat 0)); [lia|]. rewrite andb_false_l, orb_false_r. reflexivity.
  - rewrite seq_S, fold_left_app. cbn [fold_left]. rewrite Z.lor_spec, IH by lia. rewrite Nat.add_0_l, b2z_shiftl_bit by lia.
    destruct (Z.testbit a j); [reflexivity|]. cbn [orb].
    destruct (Z.eqb_spec (Z.of_nat k) j) as [<-|Hne].
    + rewrite Nat2Z.id. destruct (Z.ltb_spec (Z.of_nat k) (Z.of_nat k)); [lia|]. destruct (Z.ltb_spec (Z.of_nat k) (Z.of_nat (S k))); [|lia]. reflexivity.
    + cbn [andb]. rewrite orb_false_r. destruct (Z.ltb_spec j (Z.of_nat k)), (Z.ltb_spec j (Z.of_nat (S k))); try lia; reflexivity.
Qed.

Lemma fold_or_nonneg bs l : forall a, 0 <= a -> 0 <= fold_left (fun result i => Z.lor result (Z.shiftl (Z.b2z (nth i bs false)) (Z.of_nat i))) l a.
Proof.
  induction l as [|i l IH]; intros a Ha; cbn [fold_left]; [exact Ha|]. apply IH, Z.lor_nonneg. split; [exact Ha|].
  apply Z.shiftl_nonneg. destruct (nth i bs false); cbn; lia.
Qed.

(** sum of the bits, the specification of the value of a bit slice *)
Fixpoint bits_value (bs : list bool) : Z := match bs with [] => 0 | b :: r => Z.b2z b + 2 * bits_value r end.

Lemma bits_value_range bs : 0 <= bits_value bs < 2 ^ Z.of_nat (length bs).
Proof.
  induction bs as [|b bs IH]; [cbn; lia|]. cbn [bits_value length]. rewrite Nat2Z.inj_succ, Z.pow_succ_r by lia. destruct b; cbn [Z.b2z]; lia.
Qed.
Lemma bits_value_testbit bs : forall j, 0 <= j -> Z.testbit (bits_value bs) j = nth (Z.to_nat j) bs false.
Proof.
  induction bs as [|b bs IH]; intros j Hj; cbn [bits_value].
  - rewrite Z.bits_0. destruct (Z.to_nat j); reflexivity.
  - rewrite Z.add_comm. destruct (Z.eq_dec j 0) as [->|Hj0].
    + rewrite Z.testbit_0_r. reflexivity.
    + replace j with (Z.succ (j - 1)) by lia. rewrite Z.testbit_succ_r by lia. rewrite IH by lia.
      replace (Z.to_nat (Z.succ (j - 1))) with (S (Z.to_nat (j - 1))) by lia. reflexivity.
Qed.

Lemma bit_slice_to_uint_value bs n : bit_slice_to_uint bs n = if (length bs =? n)%nat then Some (bits_value bs) else None.
Proof.
  unfold bit_slice_to_uint. destruct (Nat.eqb_spec (length bs) n) as [<-|Hne]; cbn [negb]; [|reflexivity]. f_equal.
  apply Z.bits_inj'. intros j Hj. rewrite fold_or_bits by lia. rewrite Z.bits_0, bits_value_testbit by lia. cbn [orb].
  destruct (Z.ltb_spec j (Z.of_nat (length bs))) as [H|H]; [reflexivity|]. rewrite nth_overflow by lia. reflexivity.
Qed.

Lemma land1_bit x i : 0 <= i -> negb (Z.land (Z.shiftr x i) 1 =? 0) = Z.testbit x i.
Proof.
  intros Hi. change 1 with (Z.ones 1). rewrite Z.land_ones by lia. change (2 ^ 1) with 2. rewrite <- Z.bit0_mod, Z.shiftr_spec by lia.
  rewrite Z.add_0_l. destruct (Z.testbit x i); reflexivity.
Qed.
Lemma uint_to_bit_slice_bits x n : uint_to_bit_slice x n = map (fun i => Z.testbit x (Z.of_nat i)) (seq 0 n).
Proof. apply map_ext_in. intros i _. apply land1_bit. lia. Qed.
Lemma uint_to_bit_slice_length x n : length (uint_to_bit_slice x n) = n.
Proof. unfold uint_to_bit_slice. rewrite map_length, seq_length. reflexivity. Qed.
Lemma uint_to_bit_slice_nth x n i : (i < n)%nat -> nth i (uint_to_bit_slice x n) false = Z.testbit x (Z.of_nat i).
Proof.
  intros Hi. rewrite uint_to_bit_slice_bits. rewrite (nth_indep _ false (Z.testbit x (Z.of_nat 0))) by (rewrite map_length, seq_length; exact Hi).
  rewrite (map_nth (fun i => Z.testbit x (Z.of_nat i))), seq_nth by exact Hi. reflexivity.
Qed.

(** the value of the slice of x is x modulo 2^n *)
Lemma slice_value x n : bits_value (uint_to_bit_slice x n) = x mod 2 ^ Z.of_nat n.
Proof.
  apply Z.bits_inj'. intros j Hj. rewrite bits_value_testbit by lia.
  destruct (Z.lt_ge_cases j (Z.of_nat n)) as [H|H].
  - rewrite Z.mod_pow2_bits_low by lia. rewrite uint_to_bit_slice_nth by lia. f_equal. lia.
  - rewrite Z.mod_pow2_bits_high by lia. apply nth_overflow. rewrite uint_to_bit_slice_length. lia.
Qed.
Lemma value_slice bs : uint_to_bit_slice (bits_value bs) (length bs) = bs.
Proof.
  apply (nth_ext _ _ false false); [apply uint_to_bit_slice_length|]. intros i Hi. rewrite uint_to_bit_slice_length in Hi.
  rewrite uint_to_bit_slice_nth by exact Hi. rewrite bits_value_testbit by lia. rewrite Nat2Z.id. reflexivity.
Qed.

Lemma bit_slice_to_u8_value bs : length bs = 8%nat -> bit_slice_to_u8 bs = Some (bits_value bs).
Proof. intros H. unfold bit_slice_to_u8. rewrite H. cbn [Nat.eqb negb]. rewrite bit_slice_to_uint_value, H. reflexivity. Qed.

Lemma u8_to_bit_slice_spec x : u8_to_bit_slice x = if (0 <=? x) && (x <=? 255) then Some (uint_to_bit_slice x 8) else None.
Proof.
  unfold u8_to_bit_slice. destruct (Z.ltb_spec x 0), (Z.ltb_spec 255 x), (Z.leb_spec 0 x), (Z.leb_spec x 255); cbn [orb andb]; try lia; reflexivity.
Qed.

Definition is_byte (x : Z) : Prop := 0 <= x <= 255.
Lemma extend_bits_some l : Forall is_byte l -> extend_bits l = Some (flat_map (fun x => uint_to_bit_slice x 8) l).
Proof.
  induction 1 as [|x l Hx Hl IH]; [reflexivity|]. cbn [extend_bits flat_map]. rewrite u8_to_bit_slice_spec, IH.
  unfold is_byte in Hx. destruct (Z.leb_spec 0 x), (Z.leb_spec x 255); try lia. reflexivity.
Qed.
Lemma extend_bits_none l : ~ Forall is_byte l -> extend_bits l = None.
Proof.
  induction l as [|x l IH]; intros H; [exfalso; apply H; constructor|]. cbn [extend_bits]. rewrite u8_to_bit_slice_spec.
  destruct (Z.leb_spec 0 x), (Z.leb_spec x 255); cbn [andb]; try reflexivity.
  rewrite IH; [reflexivity|]. intros HF. apply H. constructor; [unfold is_byte; lia|exact HF].
Qed.
Lemma extend_bits_length l bs : extend_bits l = Some bs -> length bs = (8 * length l)%nat.
Proof.
  revert bs. induction l as [|x l IH]; cbn [extend_bits]; intros bs H; [injection H as <-; reflexivity|].
  rewrite u8_to_bit_slice_spec in H. destruct (_ && _); [|discriminate]. destruct (extend_bits l) as [b|]; [|discriminate].
  assert (E : bs = uint_to_bit_slice x 8 ++ b) by congruence. subst bs.
  rewrite app_length, uint_to_bit_slice_length, (IH b eq_refl). cbn [length]. lia.
Qed.

(** one group of eight bits in bit_slice_to_bytes: the byte gets its own low seven bits and bit 7 of the buffer *)
Lemma bytes_group g b0 b1 b2 b3 b4 b5 b6 b7 c0 c1 c2 c3 c4 c5 c6 c7 rest result :
  bytes_loop (8 * g) (b0 :: b1 :: b2 :: b3 :: b4 :: b5 :: b6 :: b7 :: rest) [c0;c1;c2;c3;c4;c5;c6;c7] result =
  bytes_loop (8 * S g) rest [b0;b1;b2;b3;b4;b5;b6;b7] (result ++ [bits_value [b0;b1;b2;b3;b4;b5;b6;c7]]).
Proof.
  cbn [bytes_loop].
  assert (M : forall j, (j < 8)%nat -> forall i, i = (8 * g + j)%nat -> (i mod 8 = j)%nat).
  { intros j Hj i ->. rewrite Nat.add_comm, Nat.mul_comm, Nat.mod_add by lia. apply Nat.mod_small. exact Hj. }
  rewrite (M 1%nat ltac:(lia) (8 * g + 1)%nat) by lia.
  rewrite (M 2%nat ltac:(lia) (S (8 * g) + 1)%nat) by lia.
  rewrite (M 3%nat ltac:(lia) (S (S (8 * g)) + 1)%nat) by lia.
  rewrite (M 4%nat ltac:(lia) (S (S (S (8 * g))) + 1)%nat) by lia.
  rewrite (M 5%nat ltac:(lia) (S (S (S (S (8 * g)))) + 1)%nat) by lia.
  rewrite (M 6%nat ltac:(lia) (S (S (S (S (S (8 * g))))) + 1)%nat) by lia.
  rewrite (M 7%nat ltac:(lia) (S (S (S (S (S (S (8 * g)))))) + 1)%nat) by lia.
  assert (M8 : ((S (S (S (S (S (S (S (8 * g))))))) + 1) mod 8 = 0)%nat).
  { replace (S (S (S (S (S (S (S (8 * g))))))) + 1)%nat with ((S g) * 8)%nat by lia. apply Nat.mod_mul. lia. }
  rewrite M8. cbn [Nat.eqb].
  rewrite (M 0%nat ltac:(lia) (8 * g)%nat) by lia.
  rewrite (M 1%nat ltac:(lia) (S (8 * g))%nat) by lia.
  rewrite (M 2%nat ltac:(lia) (S (S (8 * g)))%nat) by lia.
  rewrite (M 3%nat ltac:(lia) (S (S (S (8 * g))))%nat) by lia.
  rewrite (M 4%nat ltac:(lia) (S (S (S (S (8 * g)))))%nat) by lia.
  rewrite (M 5%nat ltac:(lia) (S (S (S (S (S (8 * g))))))%nat) by lia.
  rewrite (M 6%nat ltac:(lia) (S (S (S (S (S (S (8 * g)))))))%nat) by lia.
  rewrite (M 7%nat ltac:(lia) (S (S (S (S (S (S (S (8 * g))))))))%nat) by lia.
  cbn [set_nth]. rewrite bit_slice_to_u8_value by reflexivity.
  replace (8 * S g)%nat with (S (S (S (S (S (S (S (S (8 * g)))))))))%nat by lia. reflexivity.
Qed.

(** what bit_slice_to_bytes returns on the bits of a list of bytes: bit 7 comes from the previous byte *)
Fixpoint shifted_msb (prev : bool) (l : list Z) : list Z :=
  match l with
  | [] => []
  | x :: r => (x mod 128 + 128 * Z.b2z prev) :: shifted_msb (Z.testbit x 7) r
  end.

Lemma low7 x p : bits_value [Z.testbit x 0; Z.testbit x 1; Z.testbit x 2; Z.testbit x 3; Z.testbit x 4; Z.testbit x 5; Z.testbit x 6; p] = x mod 128 + 128 * Z.b2z p.
Proof.
  change 128 with (2 ^ Z.of_nat 7) at 1. rewrite <- slice_value. rewrite uint_to_bit_slice_bits. cbn [seq map bits_value Z.of_nat Pos.of_succ_nat Pos.succ]. ring.
Qed.

Lemma bytes_loop_bytes l : forall g c0 c1 c2 c3 c4 c5 c6 p result,
  bytes_loop (8 * g) (flat_map (fun x => uint_to_bit_slice x 8) l) [c0;c1;c2;c3;c4;c5;c6;p] result = Some (result ++ shifted_msb p l).
Proof.
  induction l as [|x l IH]; intros g c0 c1 c2 c3 c4 c5 c6 p result; cbn [flat_map shifted_msb].
  - cbn [bytes_loop]. rewrite app_nil_r. reflexivity.
  - rewrite uint_to_bit_slice_bits. cbn [seq map app Z.of_nat Pos.of_succ_nat Pos.succ].
    rewrite bytes_group. rewrite IH. rewrite low7, <- app_assoc. reflexivity.
Qed.

Lemma bytes_actual l : l <> [] -> bit_slice_to_bytes (flat_map (fun x => uint_to_bit_slice x 8) l) = Some (shifted_msb false l).
Proof.
  intros Hl. unfold bit_slice_to_bytes. destruct (flat_map (fun x => uint_to_bit_slice x 8) l) as [|b bs] eqn:E.
  - destruct l as [|x l]; [congruence|]. apply (f_equal (@length bool)) in E. cbn [flat_map] in E. rewrite app_length, uint_to_bit_slice_length in E. cbn in E. lia.
  - rewrite <- E. apply (bytes_loop_bytes l 0).
Qed.

Definition is_ascii (x : Z) : Prop := 0 <= x < 128.
Lemma testbit7_ascii x : is_ascii x -> Z.testbit x 7 = false.
Proof. unfold is_ascii. intros H. destruct (Z.eq_dec x 0) as [->|]; [reflexivity|]. apply Z.bits_above_log2; [lia|]. apply Z.log2_lt_pow2; [lia|]. change (2 ^ 7) with 128. lia. Qed.
Lemma shifted_ascii l : Forall is_ascii l -> shifted_msb false l = l.
Proof.
  induction 1 as [|x l Hx Hl IH]; [reflexivity|]. cbn [shifted_msb Z.b2z]. rewrite testbit7_ascii by exact Hx. rewrite IH.
  unfold is_ascii in Hx. rewrite Z.mod_small by lia. f_equal. lia.
Qed.
Lemma ascii_byte l : Forall is_ascii l -> Forall is_byte l.
Proof. intros H. eapply Forall_impl; [|exact H]. unfold is_ascii, is_byte. intros; lia. Qed.
Lemma ascii_codec_some l : Forall is_ascii l -> ascii_codec l = Some l.
Proof.
  intros H. unfold ascii_codec. replace (forallb _ l) with true; [reflexivity|]. symmetry. apply forallb_forall. intros x Hx.
  rewrite Forall_forall in H. specialize (H x Hx). unfold is_ascii in H. destruct (Z.leb_spec 0 x), (Z.ltb_spec x 128); cbn; lia.
Qed.
Lemma ascii_codec_inv l r : ascii_codec l = Some r -> r = l /\ Forall is_ascii l.
Proof.
  unfold ascii_codec. destruct (forallb _ l) eqn:E; [|discriminate]. injection 1 as <-. split; [reflexivity|]. rewrite forallb_forall in E.
  apply Forall_forall. intros x Hx. specialize (E x Hx). apply andb_true_iff in E. destruct E as [E1 E2]. apply Z.leb_le in E1. apply Z.ltb_lt in E2. split; lia.
Qed.

Lemma flat_group l : forall g, (g < length l)%nat ->
  firstn 8 (skipn (8 * g) (flat_map (fun x => uint_to_bit_slice x 8) l)) = uint_to_bit_slice (nth g l 0) 8.
Proof.
  induction l as [|x l IH]; intros g Hg; [cbn in Hg; lia|]. cbn [flat_map]. destruct g as [|g].
  - change (8 * 0)%nat with 0%nat. cbn [skipn nth]. rewrite firstn_app, uint_to_bit_slice_length. rewrite firstn_all2 by (rewrite uint_to_bit_slice_length; lia).
    replace (8 - 8)%nat with 0%nat by lia. rewrite firstn_O, app_nil_r. reflexivity.
  - rewrite skipn_app, uint_to_bit_slice_length. rewrite skipn_all2 by (rewrite uint_to_bit_slice_length; lia).
    replace (8 * S g - 8)%nat with (8 * g)%nat by lia. cbn [app nth]. apply IH. cbn in Hg. lia.
Qed.

Lemma u8_list_spec l :
  match u8_list_to_bit_slice l with
  | Some bs => l <> [] /\ Forall (fun x => 0 <= x <= 255) l /\ length bs = (8 * length l)%nat /\
               forall g, (g < length l)%nat -> bit_slice_to_u8 (firstn 8 (skipn (8 * g) bs)) = Some (nth g l 0)
  | None => l = [] \/ ~ Forall (fun x => 0 <= x <= 255) l
  end.
Proof.
  unfold u8_list_to_bit_slice. destruct l as [|x l']; [left; reflexivity|]. set (l := x :: l').
  destruct (Forall_dec is_byte (fun z => match Z_le_dec 0 z, Z_le_dec z 255 with left a, left b => left (conj a b) | _, right b => right (fun h => b (proj2 h)) | right a, _ => right (fun h => a (proj1 h)) end) l) as [HF|HF].
  - rewrite extend_bits_some by exact HF. split; [discriminate|]. split; [exact HF|].
    split; [apply (extend_bits_length l); apply extend_bits_some, HF|]. intros g Hg. rewrite flat_group by exact Hg.
    rewrite bit_slice_to_u8_value by apply uint_to_bit_slice_length. rewrite slice_value. f_equal. apply Z.mod_small.
    rewrite Forall_forall in HF. specialize (HF (nth g l 0) (nth_In _ _ Hg)). unfold is_byte in HF. change (2 ^ Z.of_nat 8) with 256. lia.
  - rewrite extend_bits_none by exact HF. right. exact HF.
Qed.

Lemma u8_list_inv l bs : u8_list_to_bit_slice l = Some bs -> l <> [] /\ Forall is_byte l /\ bs = flat_map (fun x => uint_to_bit_slice x 8) l.
Proof.
  intros H. pose proof (u8_list_spec l) as HS. rewrite H in HS. destruct HS as (H1 & H2 & _). split; [exact H1|]. split; [exact H2|].
  unfold u8_list_to_bit_slice in H. destruct l; [discriminate|]. rewrite extend_bits_some in H by exact H2. congruence.
Qed.

Lemma shifted_length l : forall p, length (shifted_msb p l) = length l.
Proof. induction l as [|x l IH]; intros p; cbn; [reflexivity|]. rewrite IH. reflexivity. Qed.
Lemma testbit7 x : is_byte x -> Z.b2z (Z.testbit x 7) = x / 128.
Proof.
  unfold is_byte. intros H. rewrite Z.testbit_spec' by lia. change (2 ^ 7) with 128. apply Z.mod_small. split; [apply Z.div_pos; lia|].
  apply Z.div_lt_upper_bound; lia.
Qed.
Lemma shifted_nth l : Forall is_byte l -> forall p g, (g < length l)%nat ->
  nth g (shifted_msb p l) 0 = nth g l 0 mod 128 + 128 * (if (g =? 0)%nat then Z.b2z p else nth (g - 1) l 0 / 128).
Proof.
  induction 1 as [|x l Hx Hl IH]; intros p g Hg; [cbn in Hg; lia|]. cbn [shifted_msb]. destruct g as [|g]; [reflexivity|].
  cbn [nth Nat.eqb]. rewrite IH by (cbn in Hg; lia). f_equal. f_equal. replace (S g - 1)%nat with g by lia.
  destruct g as [|g]; cbn [Nat.eqb nth]; [apply testbit7, Hx|]. replace (S g - 1)%nat with g by lia. reflexivity.
Qed.

Lemma bytes_actual_nth l bs : u8_list_to_bit_slice l = Some bs ->
  exists out, bit_slice_to_bytes bs = Some out /\ length out = length l /\
    forall g, (g < length l)%nat ->
      nth g out 0 = nth g l 0 mod 128 + 128 * (if (g =? 0)%nat then 0 else nth (g - 1) l 0 / 128).
Proof.
  intros H. apply u8_list_inv in H. destruct H as (H1 & H2 & ->). exists (shifted_msb false l). split; [apply bytes_actual, H1|].
  split; [apply shifted_length|]. intros g Hg. rewrite shifted_nth by assumption. reflexivity.
Qed.

Lemma concat_repeat1 {A} (x : A) n : concat (repeat [x] n) = repeat x n.
Proof. induction n as [|n IH]; cbn; [reflexivity|]. rewrite IH. reflexivity. Qed.

Lemma str_roundtrip text static_len pad :
  Forall (fun c => 0 <= c < 128) text -> 0 <= pad < 128 ->
  let padding := match static_len with None => 0%nat | Some n => (Z.to_nat n - length text)%nat end in
  (text <> [] \/ padding <> 0%nat) ->
  exists bs, str_to_cleartext text static_len [pad] = Some bs /\ length bs = (8 * (length text + padding))%nat /\
             cleartext_to_str bs = Some (text ++ repeat pad padding).
Proof.
  intros Ht Hp padding Hne.
  assert (E : str_to_cleartext text static_len [pad] = u8_list_to_bit_slice (text ++ repeat pad padding)).
  { unfold str_to_cleartext. rewrite ascii_codec_some by exact Ht. unfold padding. destruct static_len as [n|]; [|cbn; rewrite app_nil_r; reflexivity].
    destruct (Z.eqb_spec n 0) as [->|Hn]; [cbn; rewrite app_nil_r; reflexivity|]. unfold list_repeat. rewrite concat_repeat1.
    replace (Z.to_nat (n - Z.of_nat (length text))) with (Z.to_nat n - length text)%nat by lia. reflexivity. }
  set (full := text ++ repeat pad padding) in *.
  assert (HF : Forall is_ascii full).
  { apply Forall_app. split; [exact Ht|]. apply Forall_forall. intros z Hz. apply repeat_spec in Hz. subst. exact Hp. }
  assert (Hfl : full <> []).
  { unfold full. intros HE. apply app_eq_nil in HE. destruct HE as [-> HE]. destruct Hne as [Hne|Hne]; [congruence|]. destruct padding; [congruence|discriminate]. }
  assert (Hlen : length full = (length text + padding)%nat) by (unfold full; rewrite app_length, repeat_length; reflexivity).
  exists (flat_map (fun x => uint_to_bit_slice x 8) full).
  assert (EB : u8_list_to_bit_slice full = Some (flat_map (fun x => uint_to_bit_slice x 8) full)).
  { unfold u8_list_to_bit_slice. destruct full; [congruence|]. apply extend_bits_some, ascii_byte, HF. }
  split; [rewrite E; exact EB|]. split; [rewrite <- Hlen; apply (extend_bits_length full); apply extend_bits_some, ascii_byte, HF|].
  unfold cleartext_to_str. rewrite bytes_actual by exact Hfl. rewrite shifted_ascii by exact HF. apply ascii_codec_some, HF.
Qed.
