(** Model of jaxite/jaxite_cggi/encoding.py. *)
From Coq Require Import ZArith List Bool.
From Verif Require Import Base.Word.
Local Open Scope Z_scope.

(** encoding.py:11-42, class EncodingParameters.  The fields [message_min], [message_range] are 0 and
    [message_max]; they are inlined. *)
Record enc_params := { total_bits : Z; message_bits : Z; padding_bits : Z }.

(** encoding.py:44-58, __post_init__: [None] is the ValueError. *)
Definition mk_enc_params (total message padding : Z) : option enc_params :=
  if total <? 1 then None
  else if message <? 1 then None
  else if padding <? 0 then None
  else if total - (message + padding) <? 0 then None
  else Some {| total_bits := total; message_bits := message; padding_bits := padding |}.

(** encoding.py:54-60 *)
Definition error_bits (p : enc_params) : Z := total_bits p - (message_bits p + padding_bits p).

(** encoding.py:62 *)
Definition message_max (p : enc_params) : Z := 2 ^ message_bits p - 1.

(** encoding.py:66-108, encode, on one message (on an array the check is [.any()] over all entries, see
    [encode_list]).  [msg_arr] is the message converted to uint32.  With [test_polynomial_encoding] the bound is the
    Python integer 2^(padding+message), inclusive; comparing a uint32 array with 2^32 is an OverflowError, also [None].
    The final shift is on the original message with a uint32 amount: a 32-bit result. *)
Definition encode (message : Z) (p : enc_params) (test_polynomial_encoding : bool) : option Z :=
  let msg_arr := u32 message in
  let mmax := if test_polynomial_encoding then 2 ^ (padding_bits p + message_bits p) else u32 (message_max p) in
  if W32 <=? mmax then None
  else if (mmax <? msg_arr) || (msg_arr <? 0) then None
  else Some (shl32 message (error_bits p)).

(** encoding.py:95-108 on an array argument: one bad entry rejects the whole array. *)
Fixpoint encode_list (messages : list Z) (p : enc_params) (tp : bool) : option (list Z) :=
  match messages with
  | nil => Some nil
  | m :: ms =>
      match encode m p tp, encode_list ms p tp with
      | Some c, Some cs => Some (c :: cs)
      | _, _ => None
      end
  end.

(** encoding.py:163-175, round_to_power_of_2.  For [log_pow_of_2 = 0] the first shift amount is -1, which XLA treats
    as out of range (result 0). *)
Definition round_to_power_of_2 (arr log_pow_of_2 : Z) : Z :=
  let round_up := Z.land (shr32 arr (log_pow_of_2 - 1)) 1 in
  shl32 (add32 (shr32 arr log_pow_of_2) round_up) log_pow_of_2.

(** encoding.py:156-160 *)
Definition remove_noise (inp : Z) (p : enc_params) : Z := round_to_power_of_2 inp (error_bits p).

(** encoding.py:111-127 *)
Definition decode_without_removing_padding (plaintext : Z) (p : enc_params) : Z :=
  let shifted := shr32 (remove_noise plaintext p) (error_bits p) in
  Z.land shifted (2 ^ (message_bits p + padding_bits p) - 1).

(** encoding.py:130-153 *)
Definition decode (plaintext : Z) (p : enc_params) : Z :=
  let shifted := shr32 (remove_noise plaintext p) (error_bits p) in
  Z.land shifted (2 ^ message_bits p - 1).

(** encoding.py:178-183 *)
Definition extract_noise (plaintext : Z) (p : enc_params) : Z :=
  s32 plaintext - s32 (remove_noise plaintext p).
