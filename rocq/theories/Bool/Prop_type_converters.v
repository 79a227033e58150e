(** Property C20: the type conversions of jaxite_bool. *)
From Coq Require Import ZArith List Bool Lia.
From Verif Require Import Bool.Model_type_converters Bool.Proof_type_converters.
Import ListNotations.
Local Open Scope Z_scope.

(** a width-n unsigned integer survives the conversion to bits and back; bit i of the slice is bit i of the integer *)
Theorem C20_uint_roundtrip : forall x n, 0 <= x < 2 ^ Z.of_nat n ->
  let bs := uint_to_bit_slice x n in
  length bs = n /\ (forall i, (i < n)%nat -> nth i bs false = Z.testbit x (Z.of_nat i)) /\ bit_slice_to_uint bs n = Some x.
Proof.
  intros x n Hx bs. split; [apply uint_to_bit_slice_length|]. split; [intros i Hi; apply uint_to_bit_slice_nth; exact Hi|].
  unfold bs. rewrite bit_slice_to_uint_value, uint_to_bit_slice_length, Nat.eqb_refl, slice_value, Z.mod_small by exact Hx. reflexivity.
Qed.
Example C20_uint_roundtrip_ex : uint_to_bit_slice 37 6 = [true;false;true;false;false;true] /\ bit_slice_to_uint (uint_to_bit_slice 37 6) 6 = Some 37.
Proof. split; reflexivity. Qed.
Print Assumptions C20_uint_roundtrip.

Theorem C20_bits_roundtrip : forall bs n,
  match bit_slice_to_uint bs n with
  | Some x => length bs = n /\ 0 <= x < 2 ^ Z.of_nat n /\ uint_to_bit_slice x n = bs
  | None => length bs <> n
  end.
Proof.
  intros bs n. rewrite bit_slice_to_uint_value. destruct (Nat.eqb_spec (length bs) n) as [<-|H]; [|exact H].
  split; [reflexivity|]. split; [apply bits_value_range|apply value_slice].
Qed.
Print Assumptions C20_bits_roundtrip.

(** u8: accepted exactly on 0..255, and mutually inverse *)
Theorem C20_u8 : forall x,
  match u8_to_bit_slice x with
  | Some bs => 0 <= x <= 255 /\ bit_slice_to_u8 bs = Some x
  | None => x < 0 \/ 255 < x
  end.
Proof.
  intros x. rewrite u8_to_bit_slice_spec. destruct (Z.leb_spec 0 x), (Z.leb_spec x 255); cbn [andb]; try lia.
  split; [lia|]. rewrite bit_slice_to_u8_value by apply uint_to_bit_slice_length. rewrite slice_value, Z.mod_small by (cbn; lia). reflexivity.
Qed.
Theorem C20_u8_bits : forall bs,
  match bit_slice_to_u8 bs with
  | Some x => length bs = 8%nat /\ u8_to_bit_slice x = Some bs
  | None => length bs <> 8%nat
  end.
Proof.
  intros bs. unfold bit_slice_to_u8. destruct (Nat.eqb_spec (length bs) 8) as [H|H]; cbn [negb]; [|exact H].
  rewrite bit_slice_to_uint_value, H. cbn [Nat.eqb]. split; [reflexivity|]. rewrite u8_to_bit_slice_spec.
  pose proof (bits_value_range bs) as B. rewrite H in B. change (2 ^ Z.of_nat 8) with 256 in B.
  destruct (Z.leb_spec 0 (bits_value bs)), (Z.leb_spec (bits_value bs) 255); try lia. cbn [andb]. f_equal. rewrite <- H. apply value_slice.
Qed.
Print Assumptions C20_u8.
Print Assumptions C20_u8_bits.

(** lists: accepted exactly when non-empty with all entries in 0..255; entry g occupies bits 8g .. 8g+7 *)
Theorem C20_u8_list : forall l,
  match u8_list_to_bit_slice l with
  | Some bs => l <> [] /\ Forall (fun x => 0 <= x <= 255) l /\ length bs = (8 * length l)%nat /\
               forall g, (g < length l)%nat -> bit_slice_to_u8 (firstn 8 (skipn (8 * g) bs)) = Some (nth g l 0)
  | None => l = [] \/ ~ Forall (fun x => 0 <= x <= 255) l
  end.
Proof. exact u8_list_spec. Qed.
Example C20_u8_list_ex : u8_list_to_bit_slice [5; 128] = Some [true;false;true;false;false;false;false;false;false;false;false;false;false;false;false;true].
Proof. reflexivity. Qed.
Print Assumptions C20_u8_list.

(** bytes: the round trip holds for 7-bit data ... *)
Theorem C20_bytes_roundtrip_partial : forall l, l <> [] -> Forall (fun x => 0 <= x < 128) l ->
  exists bs, u8_list_to_bit_slice l = Some bs /\ bit_slice_to_bytes bs = Some l.
Proof.
  intros l Hl HF. exists (flat_map (fun x => uint_to_bit_slice x 8) l). split.
  - unfold u8_list_to_bit_slice. destruct l; [congruence|]. apply extend_bits_some, ascii_byte, HF.
  - rewrite bytes_actual by exact Hl. rewrite shifted_ascii by exact HF. reflexivity.
Qed.
Print Assumptions C20_bytes_roundtrip_partial.
(** ... missing for the full statement (all bytes), which is false.  Finding: each byte is emitted before its bit 7 is
    stored, so that it carries bit 7 of the previous byte (of nothing, for the first). *)
Theorem C20_bytes_roundtrip_refuted : exists l bs, l <> [] /\ Forall (fun x => 0 <= x <= 255) l /\
  u8_list_to_bit_slice l = Some bs /\ bit_slice_to_bytes bs <> Some l.
Proof.
  exists [200; 7]. eexists. split; [discriminate|]. split; [repeat constructor; lia|]. split; [reflexivity|]. vm_compute. discriminate.
Qed.
Print Assumptions C20_bytes_roundtrip_refuted.
(** exactly what it computes *)
Theorem C20_bytes_actual : forall l bs, u8_list_to_bit_slice l = Some bs ->
  exists out, bit_slice_to_bytes bs = Some out /\ length out = length l /\
    forall g, (g < length l)%nat ->
      nth g out 0 = nth g l 0 mod 128 + 128 * (if (g =? 0)%nat then 0 else nth (g - 1) l 0 / 128).
Proof. exact bytes_actual_nth. Qed.
Example C20_bytes_actual_ex : bit_slice_to_bytes (uint_to_bit_slice 200 8 ++ uint_to_bit_slice 7 8) = Some [72; 135].
Proof. reflexivity. Qed.
Print Assumptions C20_bytes_actual.
(** Finding: a slice whose length is not a multiple of 8 is accepted and its tail is lost *)
Theorem C20_bytes_tail_refuted : exists bs, (length bs mod 8 <> 0)%nat /\ bit_slice_to_bytes bs = Some [1].
Proof. exists [true;false;false;false;false;false;false;false;true;true]. split; [cbn; discriminate|reflexivity]. Qed.
Print Assumptions C20_bytes_tail_refuted.
(** Finding: uint_to_bit_slice accepts integers outside [0, 2^num_bits) and truncates them *)
Theorem C20_uint_range_refuted : exists x n, ~ (0 <= x < 2 ^ Z.of_nat n) /\ uint_to_bit_slice x n = uint_to_bit_slice 0 n.
Proof. exists 8, 3%nat. split; [cbn; lia|reflexivity]. Qed.
Print Assumptions C20_uint_range_refuted.

(** strings: every non-empty ASCII string survives, padded to the static length with the padding byte *)
Theorem C20_str_roundtrip : forall text static_len pad,
  Forall (fun c => 0 <= c < 128) text -> 0 <= pad < 128 ->
  let padding := match static_len with None => 0%nat | Some n => (Z.to_nat n - length text)%nat end in
  (text <> [] \/ padding <> 0%nat) ->
  exists bs, str_to_cleartext text static_len [pad] = Some bs /\ length bs = (8 * (length text + padding))%nat /\
             cleartext_to_str bs = Some (text ++ repeat pad padding).
Proof. exact str_roundtrip. Qed.
Example C20_str_ex : match str_to_cleartext [104; 105] (Some 4) [32] with Some bs => cleartext_to_str bs | None => None end = Some [104; 105; 32; 32].
Proof. reflexivity. Qed.
Print Assumptions C20_str_roundtrip.
Theorem C20_str_rejects : forall text static_len pad, ~ Forall (fun c => 0 <= c < 128) text -> str_to_cleartext text static_len pad = None.
Proof.
  intros text sl pad H. unfold str_to_cleartext. destruct (ascii_codec text) eqn:E; [|reflexivity]. apply ascii_codec_inv in E. exfalso. apply H, E.
Qed.
Print Assumptions C20_str_rejects.

(** slices of bits: only the empty one is rejected, and there is one byte for every eight bits *)
Lemma set_nth_len {A} (v : A) l : forall i, length (set_nth i v l) = length l.
Proof. induction l as [|h t IH]; intros [|i]; cbn; [reflexivity..|]. rewrite IH. reflexivity. Qed.
Lemma bytes_loop_len : forall bits i c r, length c = 8%nat ->
  exists out, bytes_loop i bits c r = Some out /\ (length out + i / 8 = length r + (i + length bits) / 8)%nat.
Proof.
  induction bits as [|b bits IH]; intros i c r Hc; cbn [bytes_loop length].
  - exists r. split; [reflexivity|]. rewrite Nat.add_0_r. reflexivity.
  - rewrite (bit_slice_to_u8_value c Hc).
    pose proof (Nat.div_mod i 8 ltac:(lia)) as D1. pose proof (Nat.mod_upper_bound i 8 ltac:(lia)) as D2.
    pose proof (Nat.div_mod (i + 1) 8 ltac:(lia)) as D3. pose proof (Nat.mod_upper_bound (i + 1) 8 ltac:(lia)) as D4.
    replace (i + S (length bits))%nat with (S i + length bits)%nat by lia.
    replace (S i) with (i + 1)%nat by lia.
    destruct (Nat.eqb_spec ((i + 1) mod 8) 0) as [E|E]; cbv zeta;
      match goal with |- context [bytes_loop _ bits ?c' ?r'] => destruct (IH (i + 1)%nat c' r' ltac:(rewrite set_nth_len; exact Hc)) as (out & H1 & H2) end;
      exists out; (split; [exact H1|]); [rewrite app_length in H2; cbn [length] in H2|]; lia.
Qed.
Theorem C20_bytes_length : forall bs,
  match bit_slice_to_bytes bs with
  | Some out => bs <> [] /\ length out = (length bs / 8)%nat
  | None => bs = []
  end.
Proof.
  intros [|b bs]; [reflexivity|]. unfold bit_slice_to_bytes. destruct (bytes_loop_len (b :: bs) 0 (repeat false 8) [] eq_refl) as (out & -> & H).
  split; [discriminate|]. cbn [length Nat.add] in *. change (0 / 8)%nat with 0%nat in H. lia.
Qed.
Example C20_bytes_length_ex : bit_slice_to_bytes [] = None /\ bit_slice_to_bytes (uint_to_bit_slice 65 8 ++ [true]) = Some [65] /\ cleartext_to_str [] = None.
Proof. repeat split. Qed.
Print Assumptions C20_bytes_length.
