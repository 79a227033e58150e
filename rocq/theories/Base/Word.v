(** Machine words.  A [uint32] value is an integer in [0, 2^32); the operations below are the XLA semantics of the
    jnp operators on uint32 arrays: results are reduced modulo 2^32, and a shift whose amount is not in 0..31 gives 0
    (a negative Python shift amount is converted to a huge unsigned amount). *)
From Coq Require Import ZArith List Lia Bool.
From Verif Require Import Base.ZSum Base.Modeq.
Import ListNotations.
Local Open Scope Z_scope.

Notation W32 := 4294967296 (only parsing).

Definition u32 (x : Z) : Z := x mod W32.
Definition word32 (x : Z) : Prop := 0 <= x < W32.
Definition add32 (a b : Z) : Z := u32 (a + b).
Definition sub32 (a b : Z) : Z := u32 (a - b).
Definition mul32 (a b : Z) : Z := u32 (a * b).
Definition shl32 (x k : Z) : Z := if (0 <=? k) && (k <? 32) then u32 (x * 2 ^ k) else 0.
Definition shr32 (x k : Z) : Z := if (0 <=? k) && (k <? 32) then x / 2 ^ k else 0.
(** int32 view of a word *)
Definition s32 (x : Z) : Z := if u32 x <? 2147483648 then u32 x else u32 x - W32.

(** vectors of words *)
Fixpoint map2 {A B C} (f : A -> B -> C) (a : list A) (b : list B) : list C :=
  match a, b with
  | x :: a', y :: b' => f x y :: map2 f a' b'
  | _, _ => []
  end.
Definition vadd32 := map2 add32.
Definition vsub32 := map2 sub32.
Definition vscale32 (c : Z) := map (mul32 c).
(** exact inner product *)
Definition dotZ (a b : list Z) : Z := lsum (map2 Z.mul a b).
(** jnp.dot on uint32 vectors: the accumulation is in uint32; since reduction modulo 2^32 is a ring homomorphism the
    order of accumulation does not matter and one final reduction is the same value. *)
Definition dot32 (a b : list Z) : Z := u32 (dotZ a b).

Lemma u32_word x : word32 (u32 x).
Proof. unfold word32, u32. apply Z.mod_pos_bound. lia. Qed.
Lemma u32_id x : word32 x -> u32 x = x.
Proof. unfold word32, u32. intros. apply Z.mod_small. lia. Qed.
Lemma u32_eqm x : u32 x == x [mod W32].
Proof. apply eqm_mod. Qed.
Lemma u32_u32 x : u32 (u32 x) = u32 x.
Proof. apply u32_id, u32_word. Qed.

Lemma map2_length {A B C} (f : A -> B -> C) a b : length (map2 f a b) = Nat.min (length a) (length b).
Proof. revert b. induction a as [|x a IH]; destruct b; cbn; auto. Qed.

Lemma nth_map2 {A B C} (f : A -> B -> C) a b i da db dc :
  (i < length a)%nat -> (i < length b)%nat -> nth i (map2 f a b) dc = f (nth i a da) (nth i b db).
Proof.
  revert b i. induction a as [|x a IH]; intros b i Ha Hb; cbn in Ha; [lia|].
  destruct b as [|y b]; cbn in Hb; [lia|]. destruct i as [|i]; cbn; [reflexivity|]. apply IH; lia.
Qed.

Lemma map2_app {A B C} (f : A -> B -> C) a a' b b' : length a = length b ->
  map2 f (a ++ a') (b ++ b') = map2 f a b ++ map2 f a' b'.
Proof.
  revert b. induction a as [|x a IH]; intros [|y b]; cbn; intros H; try lia; auto. f_equal. apply IH. lia.
Qed.

Lemma map2_nil_r {A B C} (f : A -> B -> C) a : map2 f a [] = [].
Proof. destruct a; reflexivity. Qed.

Lemma dotZ_nil_r a : dotZ a [] = 0.
Proof. unfold dotZ. rewrite map2_nil_r. reflexivity. Qed.

Lemma dotZ_cons x a y b : dotZ (x :: a) (y :: b) = x * y + dotZ a b.
Proof. reflexivity. Qed.

Lemma dotZ_app a a' b b' : length a = length b -> dotZ (a ++ a') (b ++ b') = dotZ a b + dotZ a' b'.
Proof. intros. unfold dotZ. rewrite map2_app by assumption. apply lsum_app. Qed.

Lemma dotZ_zsum a b : length a = length b -> dotZ a b = zsum (length a) (fun i => nth i a 0 * nth i b 0).
Proof.
  intros H. unfold dotZ. rewrite lsum_nth, map2_length, <- H, Nat.min_id. apply zsum_ext. intros i Hi.
  rewrite (nth_map2 _ _ _ _ 0 0) by lia. reflexivity.
Qed.

Lemma dotZ_map2_add f a b s : length a = length b ->
  (forall x y, f x y == x + y [mod W32]) -> dotZ (map2 f a b) s == dotZ a s + dotZ b s [mod W32].
Proof.
  intros Hl Hf. revert b s Hl. induction a as [|x a IH]; intros [|y b] [|z s]; cbn [length]; intros Hl; try lia;
    try (rewrite ?dotZ_nil_r; reflexivity).
  cbn [map2]. rewrite !dotZ_cons. rewrite IH by lia. rewrite Hf. apply eqm_eq. ring.
Qed.

Lemma dotZ_map2_sub f a b s : length a = length b ->
  (forall x y, f x y == x - y [mod W32]) -> dotZ (map2 f a b) s == dotZ a s - dotZ b s [mod W32].
Proof.
  intros Hl Hf. revert b s Hl. induction a as [|x a IH]; intros [|y b] [|z s]; cbn [length]; intros Hl; try lia;
    try (rewrite ?dotZ_nil_r; reflexivity).
  cbn [map2]. rewrite !dotZ_cons. rewrite IH by lia. rewrite Hf. apply eqm_eq. ring.
Qed.

Lemma dotZ_map_scale c f a s :
  (forall x, f x == c * x [mod W32]) -> dotZ (map f a) s == c * dotZ a s [mod W32].
Proof.
  intros Hf. revert s. induction a as [|x a IH]; intros [|z s]; cbn [map];
    rewrite ?dotZ_nil_r; try (apply eqm_eq; cbn; ring).
  rewrite !dotZ_cons. rewrite IH. rewrite Hf. apply eqm_eq. ring.
Qed.

Lemma add32_eqm a b : add32 a b == a + b [mod W32]. Proof. apply eqm_mod. Qed.
Lemma sub32_eqm a b : sub32 a b == a - b [mod W32]. Proof. apply eqm_mod. Qed.
Lemma mul32_eqm a b : mul32 a b == a * b [mod W32]. Proof. apply eqm_mod. Qed.

Lemma shl32_eqm x k : 0 <= k < 32 -> shl32 x k == x * 2 ^ k [mod W32].
Proof.
  intros. unfold shl32. replace (0 <=? k) with true by (symmetry; apply Z.leb_le; lia).
  replace (k <? 32) with true by (symmetry; apply Z.ltb_lt; lia). cbn [andb]. apply u32_eqm.
Qed.
Lemma shl32_val x k : 0 <= k < 32 -> shl32 x k = u32 (x * 2 ^ k).
Proof.
  intros. unfold shl32. replace (0 <=? k) with true by (symmetry; apply Z.leb_le; lia).
  replace (k <? 32) with true by (symmetry; apply Z.ltb_lt; lia). reflexivity.
Qed.
Lemma shr32_val x k : 0 <= k < 32 -> shr32 x k = x / 2 ^ k.
Proof.
  intros. unfold shr32. replace (0 <=? k) with true by (symmetry; apply Z.leb_le; lia).
  replace (k <? 32) with true by (symmetry; apply Z.ltb_lt; lia). reflexivity.
Qed.
Lemma shr32_word x k : word32 x -> word32 (shr32 x k).
Proof.
  unfold word32. intros H. unfold shr32. destruct ((0 <=? k) && (k <? 32)) eqn:E; [|lia].
  apply andb_prop in E. destruct E as [E1 E2]. apply Z.leb_le in E1. apply Z.ltb_lt in E2.
  assert (0 < 2 ^ k) by (apply Z.pow_pos_nonneg; lia).
  split; [apply Z.div_pos; lia|]. apply Z.div_lt_upper_bound; [lia|]. nia.
Qed.

Lemma pow2_W32 k : 0 <= k <= 32 -> 2 ^ k * 2 ^ (32 - k) = W32.
Proof. intros. rewrite <- Z.pow_add_r by lia. replace (k + (32 - k)) with 32 by lia. reflexivity. Qed.

Lemma pow2_div_W32 k : 0 <= k <= 32 -> (2 ^ k | W32).
Proof. intros. exists (2 ^ (32 - k)). rewrite Z.mul_comm. symmetry. apply pow2_W32. assumption. Qed.
