(** Model of the index computations of jaxite/jaxite_ckks/mul.py, key_gen.py, key_switching.py and blind_rotate.py: how the
    moduli are split into parts for key switching.  None is an exception (a division by zero). *)
From Coq Require Import ZArith List Bool.
From Verif Require Import Base.Lists.
Import ListNotations.

(** mul.py:165, key_gen.py:134: (n + dnum - 1) // dnum.  key_switching.py:43, 97 and blind_rotate.py:86 write
    math.ceil(n / dnum), the same number as long as n is below 2^53. *)
Definition ceil_div (n d : nat) : nat := (n + d - 1) / d.

(** mul.py:168-173, the loop that collects original_moduli_extract_index *)
Definition extract_step (alpha : nat) (groups : list (list nat)) (i : nat) : list (list nat) :=
  if (i mod alpha =? 0)%nat then groups ++ [[i]] else removelast groups ++ [last groups [] ++ [i]].
Definition original_moduli_extract_index (alpha size : nat) : list (list nat) := fold_left (extract_step alpha) (seq 0 size) [].

(** [i for i in range(n) if i not in selected]: mul.py:187-191, key_switching.py:61-63, 112, blind_rotate.py:92 *)
Definition not_in (n : nat) (selected : list nat) : list nat := filter (fun i => negb (existsb (Nat.eqb i) selected)) (seq 0 n).

(** mul.py:149-196, Mul.compute_control_indices, for len(drop_last_moduli) and len(extend_moduli); part < ks_num_parts_ql
    is always a valid index into the groups (proved) *)
Definition compute_control_indices (size_q size_p dnum : nat) : option (list (list nat * list nat)) :=
  if (dnum =? 0)%nat then None
  else
    let alpha := ceil_div size_q dnum in
    if (alpha =? 0)%nat then None
    else
      let ks_num_parts := ceil_div size_q alpha in
      let groups := original_moduli_extract_index alpha size_q in
      Some ((seq size_q size_p, seq 0 size_q) ::
            map (fun part => let select := nth part groups [] in (select, not_in (size_q + size_p) select)) (seq 0 ks_num_parts)).

(** mul.py:245-248, restore_index: the position of every value in the concatenation *)
Definition restore_index (concat_order : list nat) : list nat :=
  fold_left (fun r p => upd (snd p) (fst p) r) (combine (seq 0 (length concat_order)) concat_order) (repeat 0%nat (length concat_order)).

(** key_gen.py:145-146, key_switching.py:50-51, 106-107, 111, blind_rotate.py:89-91: range(start_idx, end_idx) of a part *)
Definition part_indices (size_q dnum part : nat) : list nat :=
  let alpha := ceil_div size_q dnum in
  let start_idx := (part * alpha)%nat in
  let end_idx := Nat.min ((part + 1) * alpha) size_q in
  seq start_idx (end_idx - start_idx).

(** blind_rotate.py:86-93, the conversion plans of a blind rotation (also the plans a key switcher needs) *)
Definition switch_plans (size_q size_p dnum : nat) : list (list nat * list nat) :=
  map (fun part => let ins := part_indices size_q dnum part in (ins, not_in (size_q + size_p) ins)) (seq 0 dnum).
