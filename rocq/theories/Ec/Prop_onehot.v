(** C54 for the other bucket accumulation of the XYZZ bucket method, which takes a one-hot selection over all the buckets instead
    of one index per window. *)
From Coq Require Import ZArith List Bool Lia.
From Verif Require Import Base.Word Base.Lists Ec.Model_pippenger Ec.Spec_pippenger Ec.Proof_pippenger.
Import ListNotations.
Local Open Scope Z_scope.

Section OneHot.
Variable pnt : Type.
Variable padd : pnt -> pnt -> pnt.
Variable blank : pnt.

Lemma map3_length {A B C D} (f : A -> B -> C -> D) n : forall a b c, length a = n -> length b = n -> length c = n -> length (map3 f a b c) = n.
Proof. induction n as [| n IH]; intros [| x a] [| y b] [| z c]; cbn; intros; try lia. f_equal. apply IH; lia. Qed.
Lemma map3_app {A B C D} (f : A -> B -> C -> D) : forall a b c a' b' c', length b = length a -> length c = length a -> map3 f (a ++ a') (b ++ b') (c ++ c') = map3 f a b c ++ map3 f a' b' c'.
Proof. induction a as [| x a IH]; intros [| y b] [| z c]; cbn; intros; try lia; [reflexivity |]. f_equal. apply IH; lia. Qed.
Lemma map3_zero b : forall bs zs q, length bs = b -> length zs = b -> map3 (fun p s z => selective_padd_with_zero pnt padd p q s z) bs (repeat 0 b) zs = bs.
Proof. induction b as [| b IH]; intros [| x bs] [| z zs] q; cbn; intros; try lia; [reflexivity |]. f_equal. apply IH; lia. Qed.
Lemma onehot_lane n : forall i bs zs q, length bs = n -> length zs = n -> (i < n)%nat ->
  map3 (fun p s z => selective_padd_with_zero pnt padd p q s z) bs (upd i 1 (repeat 0 n)) zs = upd i (padd_with_zero_alter pnt padd (nth i bs blank) q (nth i zs 0)) bs.
Proof.
  induction n as [| n IH]; intros i [| x bs] [| z zs] q; cbn [length]; intros L1 L2 Hi; try lia. destruct i as [| i].
  - cbn [repeat upd map3 nth]. rewrite map3_zero by lia. f_equal.
  - cbn [repeat upd map3 nth]. rewrite IH by lia. f_equal.
Qed.
Definition shaped {A} (n : nat) (l : list (list A)) := Forall (fun r => length r = n) l.
Lemma onehot_step c s q : 0 < c -> forall k m (bss : list (list pnt)) zss, length bss = m -> length zss = m -> shaped (Z.to_nat (2 ^ c)) bss -> shaped (Z.to_nat (2 ^ c)) zss ->
  map3 (fun p s z => selective_padd_with_zero pnt padd p q s z) (concat bss) (concat (map (fun w => upd (Z.to_nat (slice_digit c s w)) 1 (repeat 0 (Z.to_nat (2 ^ c)))) (seq k m))) (concat zss) =
  concat (map3 (fun bs i z => scatter bs i (padd_with_zero_alter pnt padd (gather blank bs i) q (gather 0 z i))) bss (map (fun w => slice_digit c s w) (seq k m)) zss).
Proof.
  intros Hc k m. revert k. induction m as [| m IH]; intros k [| bs bss] [| zs zss]; cbn [length]; intros L1 L2 S1 S2; try lia; [reflexivity |].
  inversion S1; subst. inversion S2; subst. cbn [seq map concat map3]. rewrite map3_app by (rewrite ?upd_length, ?repeat_length; congruence). f_equal; [| apply IH; (lia || assumption)].
  pose proof (slice_digit_range c s k Hc) as R. unfold scatter, gather. destruct (Z.ltb_spec (slice_digit c s k) (Z.of_nat (length bs))); [| lia].
  rewrite !Z.min_l by lia. apply onehot_lane; lia.
Qed.
Lemma index_shape c s q (bss : list (list pnt)) zss n m k : length bss = m -> length zss = m -> shaped n bss ->
  length (ba_index_body pnt padd blank bss (q, map (fun w => slice_digit c s w) (seq k m), zss)) = m /\ shaped n (ba_index_body pnt padd blank bss (q, map (fun w => slice_digit c s w) (seq k m), zss)).
Proof.
  unfold ba_index_body. revert k bss zss. induction m as [| m IH]; intros k [| bs bss] [| zs zss]; cbn [length]; intros L1 L2 S; try lia; [split; [reflexivity | constructor] |].
  inversion S; subst. cbn [seq map map3 length]. destruct (IH (Datatypes.S k) bss zss ltac:(lia) ltac:(lia) ltac:(assumption)) as [I1 I2]. split; [f_equal; exact I1 |]. constructor; [| exact I2].
  unfold scatter. destruct (_ <? _); [apply upd_length | reflexivity].
Qed.

(** Both accumulations fill the same buckets, whatever the points, the scalars, the contents of the buckets and of the zero states. *)
Theorem C54_xyzz_onehot : forall c ss ps (bss : list (list pnt)) zss, 0 < c -> length bss = window_num c -> shaped (Z.to_nat (2 ^ c)) bss ->
  Forall (fun z => length z = window_num c /\ shaped (Z.to_nat (2 ^ c)) z) zss ->
  bucket_accumulation_onehot pnt padd (concat bss) ps (map (fun s => concat (selection_of c s)) ss) (map (@concat Z) zss) =
  concat (bucket_accumulation_index pnt padd blank bss ps (map (selection_index_of c) ss) zss).
Proof.
  intros c ss ps bss zss Hc. unfold bucket_accumulation_onehot, bucket_accumulation_index. revert ps bss zss. induction ss as [| s ss IH]; intros [| q ps] bss [| z zss] LB SB FZ; try reflexivity.
  cbn [map combine fold_left]. inversion FZ as [| ? ? [LZ SZ] FZ']; subst. unfold selection_index_of at 2. destruct (index_shape c s q bss z _ (window_num c) 0 LB LZ SB) as [I1 I2].
  rewrite <- (IH ps _ zss I1 I2 FZ'). f_equal. apply (onehot_step c s q Hc 0 (window_num c) bss z LB LZ SB SZ).
Qed.

(** In the run of msm, from the class's own buckets and zero states *)
Theorem C54_xyzz_onehot_run : forall c ss ps, 0 < c ->
  bucket_accumulation_onehot pnt padd (concat (new_buckets_xyzz pnt blank c)) ps (map (fun s => concat (selection_of c s)) ss) (map (@concat Z) (firstn (length ss) (zero_states_list c (zero_states_init c) ss))) =
  concat (bucket_accumulation_index pnt padd blank (new_buckets_xyzz pnt blank c) ps (map (selection_index_of c) ss) (firstn (length ss) (zero_states_list c (zero_states_init c) ss))).
Proof.
  intros c ss ps Hc. apply C54_xyzz_onehot; [exact Hc | apply repeat_length | apply Forall_forall; intros r Hr; apply repeat_spec in Hr; subst r; apply repeat_length |].
  assert (G : forall ss z, length z = window_num c /\ shaped (Z.to_nat (2 ^ c)) z -> Forall (fun z => length z = window_num c /\ shaped (Z.to_nat (2 ^ c)) z) (zero_states_list c z ss)).
  { clear. induction ss as [| s ss IH]; intros z H; cbn [zero_states_list]; constructor; try exact H; [constructor |]. apply IH. destruct H as [L S]. unfold zero_states_step. split.
    - rewrite map2_length, L, seq_length. apply Nat.min_id.
    - generalize (seq 0 (window_num c)). clear L. induction S as [| r z Hr S I]; intros [| w ws]; cbn [map2]; constructor; [rewrite upd_length; exact Hr | apply I]. }
  assert (I : Forall (fun z => length z = window_num c /\ shaped (Z.to_nat (2 ^ c)) z) (zero_states_list c (zero_states_init c) ss)).
  { apply G. split; [apply repeat_length |]. apply Forall_forall. intros r Hr. apply repeat_spec in Hr. subst r. apply repeat_length. }
  clear - I. revert I. generalize (zero_states_list c (zero_states_init c) ss). generalize (length ss). intros n l. revert n. induction l as [| x l IH]; intros [| n] F; cbn [firstn]; try constructor; inversion F; subst; [assumption | apply IH; assumption].
Qed.
End OneHot.
Example C54_onehot_ex : 
  let bs := bucket_accumulation_onehot Z Z.add (concat (new_buckets_xyzz Z 0 4)) [10; 20; 30] (map (fun s => concat (selection_of 4 s)) [1; 17; 2]) (map (@concat Z) (firstn 3 (zero_states_list 4 (zero_states_init 4) [1; 17; 2]))) in
  length bs = 1024%nat /\ firstn 18 bs = [0; 30; 30; 0; 0; 0; 0; 0; 0; 0; 0; 0; 0; 0; 0; 0; 40; 20].
Proof. vm_compute. split; reflexivity. Qed.
Print Assumptions C54_xyzz_onehot.
Print Assumptions C54_xyzz_onehot_run.
