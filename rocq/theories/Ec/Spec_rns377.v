(** What it means for a residue vector to stand for an integer. *)
From Coq Require Import ZArith List.
Import ListNotations.
Local Open Scope Z_scope.

(** one word per modulus, each congruent to x; the words need not be reduced *)
Definition represents (ms : list Z) (x : Z) (c : list Z) : Prop :=
  length c = length ms /\ forall j, (j < length ms)%nat -> nth j c 0 mod nth j ms 1 = x mod nth j ms 1.
Definition words16 (c : list Z) : Prop := Forall (fun w => 0 <= w < 2 ^ 16) c.
(** a batch of residue vectors standing for the integers xs *)
Definition rns_batch (ms xs : list Z) (a : list (list Z)) : Prop := Forall2 (fun x c => represents ms x c /\ words16 c) xs a.
(** an operand of a sum: the rows of v stand for the integers xs, with words below w * 2^16 *)
Definition operand (ms : list Z) (w : Z) (xs : list Z) (v : list (list Z)) : Prop :=
  Forall2 (fun x c => represents ms x c /\ Forall (fun d => 0 <= d < w * 2 ^ 16) c) xs v.
(** row-wise sum of the integers of several operands *)
Fixpoint row_sums (xss : list (list Z)) : list Z :=
  match xss with
  | [] => []
  | [xs] => xs
  | xs :: rest => map (fun p => fst p + snd p) (combine xs (row_sums rest))
  end.
(** no word is zero, except where the modulus is 2^16 (offset zero) *)
Definition no_zero_word (ts c : list Z) : Prop := Forall2 (fun t w => t = 0 \/ w <> 0) ts c.
