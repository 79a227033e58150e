(** Finite sums over [Z] indexed by natural numbers.  Pure mathematics, no code is modelled here. *)
From Coq Require Import ZArith List Lia Bool.
Import ListNotations.
Local Open Scope Z_scope.

(** [zsum n f] = f 0 + f 1 + ... + f (n-1) *)
Fixpoint zsum (n : nat) (f : nat -> Z) : Z :=
  match n with
  | O => 0
  | S m => zsum m f + f m
  end.

(** sum of a list *)
Fixpoint lsum (l : list Z) : Z :=
  match l with
  | [] => 0
  | x :: xs => x + lsum xs
  end.

Lemma zsum_ext n f g : (forall i, (i < n)%nat -> f i = g i) -> zsum n f = zsum n g.
Proof.
  induction n as [|n IH]; intros H; cbn [zsum]; [reflexivity|].
  rewrite IH by (intros; apply H; lia). rewrite (H n) by lia. reflexivity.
Qed.

Lemma zsum_0 n : zsum n (fun _ => 0) = 0.
Proof. induction n as [|n IH]; cbn [zsum]; lia. Qed.

Lemma zsum_zero n f : (forall i, (i < n)%nat -> f i = 0) -> zsum n f = 0.
Proof. intros H. rewrite (zsum_ext n f (fun _ => 0)) by exact H. apply zsum_0. Qed.

Lemma zsum_const n c : zsum n (fun _ => c) = Z.of_nat n * c.
Proof. induction n as [|n IH]; cbn [zsum]; lia. Qed.

Lemma zsum_add n f g : zsum n (fun i => f i + g i) = zsum n f + zsum n g.
Proof. induction n as [|n IH]; cbn [zsum]; lia. Qed.

Lemma zsum_sub n f g : zsum n (fun i => f i - g i) = zsum n f - zsum n g.
Proof. induction n as [|n IH]; cbn [zsum]; lia. Qed.

Lemma zsum_opp n f : zsum n (fun i => - f i) = - zsum n f.
Proof. induction n as [|n IH]; cbn [zsum]; lia. Qed.

Lemma zsum_mul_l n c f : zsum n (fun i => c * f i) = c * zsum n f.
Proof. induction n as [|n IH]; cbn [zsum]; lia. Qed.

Lemma zsum_mul_r n c f : zsum n (fun i => f i * c) = zsum n f * c.
Proof. induction n as [|n IH]; cbn [zsum]; lia. Qed.

Lemma zsum_swap n m (f : nat -> nat -> Z) :
  zsum n (fun i => zsum m (fun j => f i j)) = zsum m (fun j => zsum n (fun i => f i j)).
Proof.
  induction n as [|n IH]; cbn [zsum].
  - rewrite zsum_0. reflexivity.
  - rewrite IH. rewrite <- zsum_add. apply zsum_ext. intros. reflexivity.
Qed.

Lemma zsum_split n m f : zsum (n + m) f = zsum n f + zsum m (fun i => f (n + i)%nat).
Proof.
  induction m as [|m IH]; cbn [zsum].
  - rewrite Nat.add_0_r. lia.
  - rewrite Nat.add_succ_r. cbn [zsum]. rewrite IH. lia.
Qed.

Lemma zsum_S_l n f : zsum (S n) f = f O + zsum n (fun i => f (S i)).
Proof. change (S n) with (1 + n)%nat. rewrite zsum_split. cbn [zsum Nat.add]. ring. Qed.

Lemma zsum_rev n f : zsum n f = zsum n (fun i => f (n - 1 - i)%nat).
Proof.
  induction n as [|n IH]; [reflexivity|].
  rewrite (zsum_S_l n (fun i => f (S n - 1 - i)%nat)). cbn [zsum].
  replace (S n - 1 - 0)%nat with n by lia.
  rewrite IH. rewrite Z.add_comm. f_equal.
  apply zsum_ext. intros i Hi. f_equal. lia.
Qed.

Lemma zsum_single n k f :
  (k < n)%nat -> (forall i, (i < n)%nat -> i <> k -> f i = 0) -> zsum n f = f k.
Proof.
  induction n as [|n IH]; intros Hk H; [lia|]. cbn [zsum].
  destruct (Nat.eq_dec k n) as [->|Hne].
  - rewrite zsum_zero by (intros; apply H; lia). lia.
  - rewrite IH by (try lia; intros; apply H; lia). rewrite (H n) by lia. lia.
Qed.

Lemma zsum_block n m f :
  zsum (n * m) f = zsum n (fun i => zsum m (fun j => f (i * m + j)%nat)).
Proof.
  induction n as [|n IH]; [reflexivity|].
  cbn [zsum]. rewrite <- IH. replace (S n * m)%nat with (n * m + m)%nat by lia.
  apply zsum_split.
Qed.

Lemma zsum_le n f g : (forall i, (i < n)%nat -> f i <= g i) -> zsum n f <= zsum n g.
Proof.
  induction n as [|n IH]; intros H; cbn [zsum]; [lia|].
  specialize (IH (fun i Hi => H i (Nat.lt_lt_succ_r _ _ Hi))).
  specialize (H n (Nat.lt_succ_diag_r n)). lia.
Qed.

Lemma zsum_nonneg n f : (forall i, (i < n)%nat -> 0 <= f i) -> 0 <= zsum n f.
Proof. intros H. rewrite <- (zsum_0 n). apply zsum_le. exact H. Qed.

Lemma zsum_abs n f : Z.abs (zsum n f) <= zsum n (fun i => Z.abs (f i)).
Proof. induction n as [|n IH]; cbn [zsum]; lia. Qed.

Lemma zsum_abs_bound n f B :
  (forall i, (i < n)%nat -> Z.abs (f i) <= B) -> Z.abs (zsum n f) <= Z.of_nat n * B.
Proof.
  intros H. eapply Z.le_trans; [apply zsum_abs|].
  rewrite <- zsum_const. apply zsum_le. exact H.
Qed.

Lemma zsum_bound n f B :
  (forall i, (i < n)%nat -> 0 <= f i <= B) -> 0 <= zsum n f <= Z.of_nat n * B.
Proof.
  intros H. split.
  - apply zsum_nonneg. intros i Hi. apply H; exact Hi.
  - rewrite <- zsum_const. apply zsum_le. intros i Hi. apply H; exact Hi.
Qed.

Lemma lsum_app l1 l2 : lsum (l1 ++ l2) = lsum l1 + lsum l2.
Proof. induction l1 as [|x xs IH]; cbn [lsum app]; lia. Qed.

Lemma lsum_map_seq n f : lsum (map f (seq 0 n)) = zsum n f.
Proof.
  induction n as [|n IH]; [reflexivity|].
  rewrite seq_S, map_app, lsum_app, IH. cbn. lia.
Qed.

Lemma lsum_nth l : lsum l = zsum (length l) (fun i => nth i l 0).
Proof.
  induction l as [|x xs IH]; [reflexivity|].
  cbn [lsum length]. rewrite zsum_S_l. cbn [nth]. rewrite IH. reflexivity.
Qed.

Lemma nth_map_seq {A} (f : nat -> A) n i d : (i < n)%nat -> nth i (map f (seq 0 n)) d = f i.
Proof.
  intros H. rewrite nth_indep with (d' := f O) by (rewrite map_length, seq_length; exact H).
  rewrite map_nth, seq_nth by exact H. reflexivity.
Qed.

Lemma nth_map_lt {A B} (f : A -> B) l i d d' :
  (i < length l)%nat -> nth i (map f l) d = f (nth i l d').
Proof.
  intros H. rewrite nth_indep with (d' := f d') by (rewrite map_length; exact H).
  apply map_nth.
Qed.

Lemma list_eq_nth {A} (d : A) (l1 l2 : list A) :
  length l1 = length l2 -> (forall i, (i < length l1)%nat -> nth i l1 d = nth i l2 d) -> l1 = l2.
Proof. intros HL H. apply nth_ext with (d := d) (d' := d); assumption. Qed.
