(** Model of jaxite/jaxite_bool/type_converters.py.  A bit slice is a list of bools, bytes a list of integers in 0..255,
    text a list of code points.  [None] is a ValueError (UnicodeEncodeError and UnicodeDecodeError are subclasses). *)
From Coq Require Import ZArith List Bool.
Import ListNotations.
Local Open Scope Z_scope.

(** type_converters.py:6-13, bit_slice_to_uint: a loop of [|=] *)
Definition bit_slice_to_uint (bit_slice : list bool) (num_bits : nat) : option Z :=
  if negb (length bit_slice =? num_bits)%nat then None
  else Some (fold_left (fun result i => Z.lor result (Z.shiftl (Z.b2z (nth i bit_slice false)) (Z.of_nat i))) (seq 0 num_bits) 0).

(** type_converters.py:15-20, uint_to_bit_slice (no range check) *)
Definition uint_to_bit_slice (input_int : Z) (num_bits : nat) : list bool :=
  map (fun i => negb (Z.land (Z.shiftr input_int (Z.of_nat i)) 1 =? 0)) (seq 0 num_bits).

(** type_converters.py:23-27, bit_slice_to_u8 *)
Definition bit_slice_to_u8 (bit_slice : list bool) : option Z :=
  if negb (length bit_slice =? 8)%nat then None else bit_slice_to_uint bit_slice 8.

(** type_converters.py:30-34, u8_to_bit_slice *)
Definition u8_to_bit_slice (input_int : Z) : option (list bool) :=
  if (input_int <? 0) || (255 <? input_int) then None else Some (uint_to_bit_slice input_int 8).

(** type_converters.py:37-44, u8_list_to_bit_slice *)
Fixpoint extend_bits (input_list : list Z) : option (list bool) :=
  match input_list with
  | [] => Some []
  | i :: rest => match u8_to_bit_slice i, extend_bits rest with Some a, Some b => Some (a ++ b) | _, _ => None end
  end.
Definition u8_list_to_bit_slice (input_list : list Z) : option (list bool) :=
  match input_list with [] => None | _ => extend_bits input_list end.

(** Python's l[i] = v, as used by the loops of type_converters.py *)
Fixpoint set_nth {A} (i : nat) (v : A) (l : list A) : list A :=
  match l, i with
  | [], _ => []
  | _ :: t, O => v :: t
  | h :: t, S j => h :: set_nth j v t
  end.

(** type_converters.py:47-59, bit_slice_to_bytes: the byte is appended when its last bit is reached, before that bit is
    stored *)
Fixpoint bytes_loop (i : nat) (bits : list bool) (char_bit_slice : list bool) (result : list Z) : option (list Z) :=
  match bits with
  | [] => Some result
  | entry :: rest =>
      let after := if ((i + 1) mod 8 =? 0)%nat
                   then match bit_slice_to_u8 char_bit_slice with Some v => Some (result ++ [v]) | None => None end
                   else Some result in
      match after with
      | None => None
      | Some result' => bytes_loop (S i) rest (set_nth (i mod 8) entry char_bit_slice) result'
      end
  end.
Definition bit_slice_to_bytes (bit_slice : list bool) : option (list Z) :=
  match bit_slice with [] => None | _ => bytes_loop 0 bit_slice (repeat false 8) [] end.

(** bytes(text, 'ascii') and bytes.decode('ascii'): every code point must be below 128 *)
Definition ascii_codec (text : list Z) : option (list Z) :=
  if forallb (fun c => (0 <=? c) && (c <? 128)) text then Some text else None.

(** [list * k] in Python: repetition, empty for k <= 0 *)
Definition list_repeat {A} (l : list A) (k : Z) : list A := concat (repeat l (Z.to_nat k)).

(** type_converters.py:62-70, str_to_cleartext; [static_len] None and 0 both skip the padding *)
Definition str_to_cleartext (text : list Z) (static_len : option Z) (padding_byte : list Z) : option (list bool) :=
  match ascii_codec text with
  | None => None
  | Some cleartext_bytes =>
      let padded := match static_len with
                    | None => cleartext_bytes
                    | Some n => if n =? 0 then cleartext_bytes
                                else cleartext_bytes ++ list_repeat padding_byte (n - Z.of_nat (length text))
                    end in
      u8_list_to_bit_slice padded
  end.

(** type_converters.py:73-74, cleartext_to_str *)
Definition cleartext_to_str (cleartext : list bool) : option (list Z) :=
  match bit_slice_to_bytes cleartext with None => None | Some b => ascii_codec b end.
