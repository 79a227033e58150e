(** The Chinese remainder theorem for lists of pairwise coprime moduli.  Pure mathematics. *)
From Coq Require Import ZArith List Lia Znumtheory.
From Verif Require Import Base.ZSum Base.Modeq Base.Lists Base.Fermat.
Import ListNotations.
Local Open Scope Z_scope.

(** Moduli that are positive and pairwise coprime. *)
Definition coprime_moduli (ms : list Z) : Prop := Forall (fun m => 0 < m) ms /\ ForallOrdPairs (fun a b => Z.gcd a b = 1) ms.

Lemma lprod_app l1 l2 : lprod (l1 ++ l2) = lprod l1 * lprod l2.
Proof. unfold lprod. induction l1 as [|x l1 IH]; cbn [app fold_right]; [ring |]. rewrite IH. ring. Qed.
Lemma lprod_pos l : Forall (fun m => 0 < m) l -> 0 < lprod l.
Proof. unfold lprod. induction 1 as [|x l Hx _ IH]; cbn [fold_right]; [lia |]. apply Z.mul_pos_pos; assumption. Qed.
Lemma fold_left_mul l : forall a, fold_left Z.mul l a = a * lprod l.
Proof. unfold lprod. induction l as [|x l IH]; intros a; cbn [fold_left fold_right]; [ring |]. rewrite IH. ring. Qed.
Lemma in_divides_lprod m l : In m l -> (m | lprod l).
Proof. intros H. apply in_split in H. destruct H as (l1 & l2 & ->). rewrite lprod_app. exists (lprod l1 * lprod l2). unfold lprod. cbn [fold_right]. ring. Qed.

Lemma gcd_mul_1 a b m : Z.gcd a m = 1 -> Z.gcd b m = 1 -> Z.gcd (a * b) m = 1.
Proof.
  intros Ha Hb. apply Zgcd_1_rel_prime. apply rel_prime_sym. apply rel_prime_mult; apply rel_prime_sym; apply Zgcd_1_rel_prime; assumption.
Qed.
Lemma gcd_lprod m l : (forall x, In x l -> Z.gcd x m = 1) -> Z.gcd (lprod l) m = 1.
Proof.
  unfold lprod. induction l as [|x l IH]; intros H; cbn [fold_right]; [apply Z.gcd_1_l |].
  apply gcd_mul_1; [apply H; left; reflexivity |]. apply IH. intros y Hy. apply H. right. exact Hy.
Qed.

Lemma FOP_middle {A} (R : A -> A -> Prop) (S : forall a b, R a b -> R b a) l1 x l2 : ForallOrdPairs R (l1 ++ x :: l2) -> forall y, In y (l1 ++ l2) -> R y x.
Proof.
  induction l1 as [|z l1 IH]; cbn [app]; intros H y Hy.
  - inversion H; subst. rewrite Forall_forall in *. apply S. auto.
  - inversion H; subst. rewrite Forall_forall in *. destruct Hy as [<- | Hy]; [apply H2; apply in_app_iff; right; left; reflexivity |].
    apply IH; assumption.
Qed.

Lemma nth_split_list {A} (l : list A) i d : (i < length l)%nat -> l = firstn i l ++ nth i l d :: skipn (S i) l.
Proof.
  revert i. induction l as [|x l IH]; intros i Hi; cbn [length] in Hi; [lia |].
  destruct i as [|i]; [reflexivity |]. cbn [firstn nth app skipn]. f_equal. apply IH. lia.
Qed.

(** the cofactor of the i-th modulus *)
Definition hat (ms : list Z) (i : nat) : Z := lprod (firstn i ms ++ skipn (S i) ms).
Lemma hat_mul ms i : (i < length ms)%nat -> lprod ms = nth i ms 0 * hat ms i.
Proof.
  intros Hi. rewrite (nth_split_list ms i 0 Hi) at 1. unfold hat. rewrite !lprod_app. unfold lprod at 2. cbn [fold_right]. unfold lprod. ring.
Qed.
Lemma hat_div ms i : (i < length ms)%nat -> nth i ms 0 <> 0 -> lprod ms / nth i ms 0 = hat ms i.
Proof. intros Hi Hz. rewrite (hat_mul ms i Hi), Z.mul_comm. apply Z.div_mul. exact Hz. Qed.
Lemma hat_coprime ms i : coprime_moduli ms -> (i < length ms)%nat -> Z.gcd (hat ms i) (nth i ms 0) = 1.
Proof.
  intros [_ H] Hi. apply gcd_lprod. rewrite (nth_split_list ms i 0 Hi) in H. intros x Hx.
  apply (FOP_middle (fun a b => Z.gcd a b = 1)) with (y := x) in H; [exact H | intros a b E; rewrite Z.gcd_comm; exact E | exact Hx].
Qed.
Lemma hat_pos ms i : Forall (fun m => 0 < m) ms -> 0 < hat ms i.
Proof.
  intros H. apply lprod_pos. apply Forall_app. split.
  - apply Forall_forall. intros x Hx. rewrite Forall_forall in H. apply H. rewrite <- (firstn_skipn i ms). apply in_app_iff. left. exact Hx.
  - apply Forall_forall. intros x Hx. rewrite Forall_forall in H. apply H. rewrite <- (firstn_skipn (S i) ms). apply in_app_iff. right. exact Hx.
Qed.
Lemma hat_other ms i k : (i < length ms)%nat -> (k < length ms)%nat -> k <> i -> (nth k ms 0 | hat ms i).
Proof.
  intros Hi Hk N. apply in_divides_lprod. apply in_app_iff. destruct (Nat.lt_ge_cases k i) as [C | C].
  - left. rewrite <- (Lists.nth_firstn_lt ms i k 0 C). apply nth_In. rewrite firstn_length. lia.
  - right. replace k with (S i + (k - S i))%nat by lia. rewrite <- Lists.nth_skipn. apply nth_In. rewrite skipn_length. lia.
Qed.

Lemma coprime_divide_mul a b n : Z.gcd a b = 1 -> (a | n) -> (b | n) -> (a * b | n).
Proof.
  intros G [k ->] Hb. rewrite Z.mul_comm. apply Z.mul_divide_mono_r. apply (Gauss b a k); [rewrite Z.mul_comm; exact Hb |].
  apply rel_prime_sym. apply Zgcd_1_rel_prime. exact G.
Qed.

(** Congruent modulo every modulus implies congruent modulo the product. *)
Theorem crt_unique ms x y : coprime_moduli ms -> (forall m, In m ms -> x == y [mod m]) -> x == y [mod lprod ms].
Proof.
  intros [P C] H. induction ms as [|m ms IH]; [apply Z.divide_1_l |].
  inversion P; subst. inversion C; subst. change (lprod (m :: ms)) with (m * lprod ms).
  apply coprime_divide_mul.
  - rewrite Z.gcd_comm. apply gcd_lprod. intros z Hz. rewrite Forall_forall in H4. rewrite Z.gcd_comm. apply H4. exact Hz.
  - apply H. left. reflexivity.
  - apply IH; [assumption | assumption |]. intros z Hz. apply H. right. exact Hz.
Qed.

(** The interpolation formula: a sum of r_i * (c_i * hat_i) with c_i the inverse of hat_i is congruent to r_k modulo m_k. *)
Theorem crt_sum ms (r c : nat -> Z) : (forall i, (i < length ms)%nat -> hat ms i * c i == 1 [mod nth i ms 0]) ->
  forall k, (k < length ms)%nat -> zsum (length ms) (fun i => r i * (c i * hat ms i)) == r k [mod nth k ms 0].
Proof.
  intros H k Hk. transitivity (zsum (length ms) (fun i => if Nat.eqb i k then r k else 0)).
  - apply eqm_zsum. intros i Hi. destruct (Nat.eqb_spec i k) as [-> | N].
    + rewrite (Z.mul_comm (c k)), (H k Hk). apply eqm_eq. ring.
    + destruct (hat_other ms i k Hi Hk (not_eq_sym N)) as [z Hz]. rewrite Hz. exists (r i * (c i * z)). ring.
  - apply eqm_eq. rewrite (zsum_single _ k); [rewrite Nat.eqb_refl; reflexivity | exact Hk |].
    intros i _ N. destruct (Nat.eqb_spec i k); [contradiction | reflexivity].
Qed.
