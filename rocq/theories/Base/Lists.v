(** List lemmas missing from the standard library: functional update, fixed-size rows. *)
From Coq Require Import ZArith List Lia Bool.
Import ListNotations.

(** [l] with entry [i] replaced; unchanged when [i] is out of range *)
Fixpoint upd {A} (i : nat) (v : A) (l : list A) : list A :=
  match l, i with
  | [], _ => []
  | _ :: t, O => v :: t
  | h :: t, S j => h :: upd j v t
  end.

Lemma upd_length {A} i (v : A) l : length (upd i v l) = length l.
Proof. revert i. induction l as [|h t IH]; intros [|i]; cbn; auto. Qed.
Lemma nth_upd_eq {A} i (v : A) l d : i < length l -> nth i (upd i v l) d = v.
Proof. revert i. induction l as [|h t IH]; intros [|i]; cbn; intros; try lia; auto. apply IH. lia. Qed.
Lemma nth_upd_neq {A} i j (v : A) l d : i <> j -> nth j (upd i v l) d = nth j l d.
Proof. revert i j. induction l as [|h t IH]; intros [|i] [|j] H; cbn; auto; try lia. Qed.
Lemma nth_upd {A} i j (v : A) l d : i < length l -> nth j (upd i v l) d = if Nat.eqb i j then v else nth j l d.
Proof.
  intros H. destruct (Nat.eqb_spec i j) as [-> | N]; [apply nth_upd_eq; exact H | apply nth_upd_neq; exact N].
Qed.

Lemma nth_repeat_lt' {A} (x : A) n i d : i < n -> nth i (repeat x n) d = x.
Proof. revert i. induction n as [|n IH]; intros [|i] H; cbn; try lia; auto. apply IH. lia. Qed.

Lemma list_ext {A} (d : A) (l1 l2 : list A) :
  length l1 = length l2 -> (forall i, i < length l1 -> nth i l1 d = nth i l2 d) -> l1 = l2.
Proof.
  revert l2. induction l1 as [|x l1 IH]; intros [|y l2] H E; cbn in *; try discriminate; auto.
  f_equal; [apply (E 0); lia |]. apply IH; [lia |]. intros i Hi. apply (E (S i)). lia.
Qed.

(** the first [count] rows of [size] entries *)
Fixpoint rows {A} (count size : nat) (l : list A) : list (list A) :=
  match count with O => [] | S c => firstn size l :: rows c size (skipn size l) end.

Lemma rows_length {A} c s : forall l : list A, length (rows c s l) = c.
Proof. induction c; intros; cbn; auto. Qed.

Lemma nth_firstn_lt {A} (l : list A) n i d : i < n -> nth i (firstn n l) d = nth i l d.
Proof. revert n i. induction l as [|x l IH]; intros [|n] [|i] H; cbn; try lia; auto. apply IH. lia. Qed.
Lemma nth_skipn {A} (l : list A) n i d : nth i (skipn n l) d = nth (n + i) l d.
Proof.
  revert n i. induction l as [|x l IH]; intros [|n] i; cbn; auto.
  destruct i; reflexivity.
Qed.

Lemma rows_nth {A} s d : forall c (l : list A) k j, k < c -> j < s -> nth j (nth k (rows c s l) []) d = nth (k * s + j) l d.
Proof.
  induction c as [|c IH]; intros l k j Hk Hj; [lia |]. cbn [rows]. destruct k as [|k]; cbn [nth].
  - apply nth_firstn_lt. exact Hj.
  - rewrite IH by lia. rewrite nth_skipn. f_equal. lia.
Qed.
Lemma rows_nth_length {A} s : forall c (l : list A) k, length l = c * s -> k < c -> length (nth k (rows c s l) []) = s.
Proof.
  induction c as [|c IH]; intros l k Hl Hk; [lia |]. cbn [rows]. destruct k as [|k]; cbn [nth].
  - rewrite firstn_length. lia.
  - apply IH; [rewrite skipn_length; lia | lia].
Qed.
Lemma rows_Forall {A} s : forall c (l : list A), length l = c * s -> Forall (fun r => length r = s) (rows c s l).
Proof.
  induction c as [|c IH]; intros l H; cbn [rows]; [constructor |]. constructor.
  - rewrite firstn_length. lia.
  - apply IH. rewrite skipn_length. lia.
Qed.

Lemma concat_length_const {A} (l : list (list A)) m : Forall (fun r => length r = m) l -> length (concat l) = length l * m.
Proof. induction 1 as [|r l H F IH]; cbn; [reflexivity |]. rewrite app_length, IH, H. reflexivity. Qed.
Lemma concat_nth_const {A} (l : list (list A)) m k j d : Forall (fun r => length r = m) l -> j < m -> k < length l ->
  nth (k * m + j) (concat l) d = nth j (nth k l []) d.
Proof.
  intros F. revert k. induction F as [|r l H F IH]; intros k Hj Hk; cbn in Hk; [lia |].
  cbn [concat]. destruct k as [|k].
  - cbn [nth]. rewrite app_nth1 by lia. reflexivity.
  - rewrite app_nth2 by lia. cbn [nth]. rewrite <- IH by lia. f_equal. lia.
Qed.
