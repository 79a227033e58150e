(** C41: the plans of ciphertext multiplication and key switching partition the moduli. *)
From Coq Require Import ZArith List Bool Lia Permutation Arith Sorted.
From Verif Require Import Base.ZSum Base.Lists Ckks.Model_plan.
Import ListNotations.

Lemma ceil_div_spec n d : (0 < d)%nat -> (n <= ceil_div n d * d /\ (0 < n -> (ceil_div n d - 1) * d < n))%nat.
Proof.
  intros Hd. unfold ceil_div. pose proof (Nat.div_mod (n + d - 1) d ltac:(lia)). pose proof (Nat.mod_upper_bound (n + d - 1) d ltac:(lia)). split; [nia |].
  intros Hn. set (k := (n + d - 1) / d) in *. assert (1 <= k)%nat by (destruct k; [nia | lia]). nia.
Qed.

(** groups of alpha consecutive indices *)
Definition block (alpha size k : nat) : list nat := seq (k * alpha) (Nat.min ((k + 1) * alpha) size - k * alpha).
Lemma extract_blocks alpha size : (0 < alpha)%nat ->
  original_moduli_extract_index alpha size = map (block alpha size) (seq 0 (ceil_div size alpha)).
Proof.
  intros Ha. unfold original_moduli_extract_index. induction size as [|n IH].
  - unfold ceil_div. rewrite Nat.div_small by lia. reflexivity.
  - rewrite seq_S, fold_left_app. cbn [Nat.add fold_left]. rewrite IH. clear IH. unfold extract_step.
    pose proof (Nat.div_mod n alpha ltac:(lia)) as D. pose proof (Nat.mod_upper_bound n alpha ltac:(lia)) as B. set (k := n / alpha) in *.
    destruct (Nat.eqb_spec (n mod alpha) 0) as [E | E].
    + assert (C1 : ceil_div n alpha = k). { unfold ceil_div. symmetry. apply (Nat.div_unique _ _ k (alpha - 1)); nia. }
      assert (C2 : ceil_div (S n) alpha = S k). { unfold ceil_div. symmetry. apply (Nat.div_unique _ _ (S k) 0); nia. }
      rewrite C1, C2, seq_S, map_app. cbn [Nat.add map]. f_equal.
      * apply map_ext_in. intros i Hi. apply in_seq in Hi. unfold block. rewrite !Nat.min_l by nia. reflexivity.
      * unfold block. rewrite Nat.min_r by nia. replace (S n - k * alpha)%nat with 1%nat by nia. replace (k * alpha)%nat with n by nia. reflexivity.
    + assert (C1 : ceil_div n alpha = S k). { unfold ceil_div. symmetry. apply (Nat.div_unique _ _ (S k) (n mod alpha - 1)); nia. }
      assert (C2 : ceil_div (S n) alpha = S k). { unfold ceil_div. symmetry. apply (Nat.div_unique _ _ (S k) (n mod alpha)); nia. }
      rewrite C1, C2, seq_S, !map_app. cbn [Nat.add map]. rewrite removelast_last, last_last. f_equal.
      * apply map_ext_in. intros i Hi. apply in_seq in Hi. unfold block. rewrite !Nat.min_l by nia. reflexivity.
      * unfold block. rewrite !Nat.min_r by nia. replace (S n - k * alpha)%nat with (S (n - k * alpha)) by nia. rewrite seq_S. repeat f_equal. nia.
Qed.
Lemma concat_blocks alpha size k : (0 < alpha)%nat -> (size <= k * alpha)%nat -> concat (map (block alpha size) (seq 0 k)) = seq 0 size.
Proof.
  intros Ha Hk. assert (G : forall j, concat (map (block alpha size) (seq 0 j)) = seq 0 (Nat.min (j * alpha) size)).
  { induction j as [|j IH]; [reflexivity |]. rewrite seq_S, map_app, concat_app, IH. cbn [Nat.add map concat]. rewrite app_nil_r. unfold block.
    destruct (Nat.le_gt_cases size (j * alpha)) as [L | L].
    - rewrite !Nat.min_r by nia. replace (size - j * alpha)%nat with 0%nat by lia. cbn. apply app_nil_r.
    - rewrite (Nat.min_l (j * alpha)) by lia. replace (Nat.min (S j * alpha) size) with (j * alpha + (Nat.min ((j + 1) * alpha) size - j * alpha))%nat by (replace (S j) with (j + 1)%nat by lia; lia).
      rewrite seq_app. reflexivity. }
  rewrite G, Nat.min_r by lia. reflexivity.
Qed.

Lemma filter_partition {A} (f : A -> bool) l : Permutation (filter f l ++ filter (fun x => negb (f x)) l) l.
Proof.
  induction l as [|x l IH]; [constructor |]. cbn. destruct (f x); cbn; [constructor; exact IH |].
  transitivity (x :: filter f l ++ filter (fun x => negb (f x)) l); [symmetry; apply Permutation_middle | constructor; exact IH].
Qed.
Lemma not_in_spec n sel : NoDup sel -> Forall (fun i => (i < n)%nat) sel -> Permutation (sel ++ not_in n sel) (seq 0 n).
Proof.
  intros ND F. transitivity (filter (fun i => existsb (Nat.eqb i) sel) (seq 0 n) ++ not_in n sel); [| apply filter_partition].
  apply Permutation_app_tail. apply NoDup_Permutation; [exact ND | apply NoDup_filter, seq_NoDup |]. intros i. rewrite filter_In, in_seq, existsb_exists. split.
  - intros Hi. rewrite Forall_forall in F. specialize (F i Hi). split; [lia |]. exists i. split; [exact Hi | apply Nat.eqb_refl].
  - intros (_ & x & Hx & E). apply Nat.eqb_eq in E. subst. exact Hx.
Qed.
Lemma not_in_sorted n sel : StronglySorted lt (not_in n sel).
Proof.
  unfold not_in. assert (G : forall n s, StronglySorted lt (filter (fun i => negb (existsb (Nat.eqb i) sel)) (seq s n))).
  { clear. induction n as [|n IH]; intros s; [constructor |]. cbn [seq filter]. destruct (negb _); [| apply IH]. constructor; [apply IH |].
    apply Forall_forall. intros x Hx. apply filter_In in Hx. destruct Hx as [Hx _]. apply in_seq in Hx. lia. }
  apply G.
Qed.

(** a plan for n moduli: the selected and the remaining indices are together all indices, each once, both in order *)
Definition splits (n : nat) (plan : list nat * list nat) : Prop :=
  Permutation (fst plan ++ snd plan) (seq 0 n) /\ StronglySorted lt (fst plan) /\ StronglySorted lt (snd plan).

Lemma sorted_seq a n : StronglySorted lt (seq a n).
Proof. revert a. induction n as [|n IH]; intros a; [constructor |]. cbn. constructor; [apply IH |]. apply Forall_forall. intros x Hx. apply in_seq in Hx. lia. Qed.
Lemma splits_seq n a k : (a + k <= n)%nat -> splits n (seq a k, not_in n (seq a k)).
Proof.
  intros H. split; [apply not_in_spec; [apply seq_NoDup | apply Forall_forall; intros x Hx; apply in_seq in Hx; lia] |].
  split; [apply sorted_seq | apply not_in_sorted].
Qed.

(** C41: for every number of primes and of digits (at least one of each), the plan of ciphertext multiplication consists of
    the plan that separates the special primes from the others, and of at most dnum plans whose selected indices are, one
    after the other, exactly 0, 1, ..., size_q - 1; every part is non-empty, has at most ceil(size_q/dnum) indices, and the
    rest of its plan is the complement among all primes *)
Theorem C41_control_indices : forall size_q size_p dnum, (0 < size_q)%nat -> (0 < dnum)%nat ->
  exists parts, compute_control_indices size_q size_p dnum = Some ((seq size_q size_p, seq 0 size_q) :: parts) /\
    (length parts <= dnum)%nat /\ concat (map fst parts) = seq 0 size_q /\
    Forall (fun plan => fst plan <> [] /\ (length (fst plan) * dnum < size_q + dnum)%nat /\ splits (size_q + size_p) plan) parts /\
    Permutation (seq size_q size_p ++ seq 0 size_q) (seq 0 (size_q + size_p)).
Proof.
  intros nq np dnum Hq Hd. unfold compute_control_indices. destruct (Nat.eqb_spec dnum 0); [lia |].
  destruct (ceil_div_spec nq dnum Hd) as [A1 A2]. specialize (A2 Hq). set (alpha := ceil_div nq dnum) in *.
  destruct (Nat.eqb_spec alpha 0) as [E | E]; [rewrite E in *; lia |].
  assert (Ha : (0 < alpha)%nat) by lia. destruct (ceil_div_spec nq alpha Ha) as [B1 B2]. specialize (B2 Hq). set (k := ceil_div nq alpha) in *.
  eexists. split; [reflexivity |]. rewrite map_length, seq_length.
  assert (EX : map (fun part => nth part (original_moduli_extract_index alpha nq) []) (seq 0 k) = map (block alpha nq) (seq 0 k)).
  { rewrite extract_blocks by exact Ha. fold k. apply map_ext_in. intros i Hi. apply in_seq in Hi. apply nth_map_seq. lia. }
  split; [nia |]. split; [rewrite map_map; cbn [fst]; rewrite EX; apply concat_blocks; [exact Ha | lia] |]. split.
  - apply Forall_forall. intros plan Hp. apply in_map_iff in Hp. destruct Hp as (part & <- & Hpart). apply in_seq in Hpart. cbn [fst].
    rewrite extract_blocks by exact Ha. fold k. rewrite (nth_map_seq (block alpha nq)) by lia. unfold block.
    assert (part * alpha < nq)%nat by nia. split; [| split].
    + replace (Nat.min ((part + 1) * alpha) nq - part * alpha)%nat with (S (Nat.min ((part + 1) * alpha) nq - part * alpha - 1)) by nia. discriminate.
    + rewrite seq_length. assert (Nat.min ((part + 1) * alpha) nq - part * alpha <= alpha)%nat by lia. nia.
    + apply splits_seq. nia.
  - rewrite Permutation_app_comm. rewrite seq_app. cbn. reflexivity.
Qed.
Print Assumptions C41_control_indices.

(** C41: undoing the concatenation of selected and remaining columns restores every column to its place *)
Lemma upd_fold_other {A} (pairs : list (A * nat)) i (r : list A) d : ~ In i (map snd pairs) -> nth i (fold_left (fun r p => upd (snd p) (fst p) r) pairs r) d = nth i r d.
Proof.
  revert r. induction pairs as [|[x k] l IH]; intros r H; [reflexivity |]. cbn [fold_left fst snd]. rewrite IH by (cbn in H; tauto). apply nth_upd_neq. cbn in H. intros ->. tauto.
Qed.
Lemma upd_fold_length {A} (pairs : list (A * nat)) (r : list A) : length (fold_left (fun r p => upd (snd p) (fst p) r) pairs r) = length r.
Proof. revert r. induction pairs as [|p l IH]; intros r; [reflexivity |]. cbn. rewrite IH, upd_length. reflexivity. Qed.
Lemma restore_nth order n : Permutation order (seq 0 n) -> forall pos, (pos < n)%nat -> nth (nth pos order 0%nat) (restore_index order) 0%nat = pos.
Proof.
  intros P pos Hpos. assert (LO : length order = n) by (apply Permutation_length in P; rewrite seq_length in P; exact P).
  assert (ND : NoDup order) by (apply (Permutation_NoDup (l := seq 0 n)); [symmetry; exact P | apply seq_NoDup]).
  assert (BD : forall v, In v order -> (v < n)%nat) by (intros v Hv; apply (Permutation_in _ P) in Hv; apply in_seq in Hv; lia).
  unfold restore_index. assert (G : forall o s (r : list nat), NoDup o -> (forall v, In v o -> (v < length r)%nat) -> forall pos, (pos < length o)%nat ->
    nth (nth pos o 0%nat) (fold_left (fun r p => upd (snd p) (fst p) r) (combine (seq s (length o)) o) r) 0%nat = (s + pos)%nat).
  { clear. induction o as [|v o IH]; intros s r ND BD pos Hpos; [cbn in Hpos; lia |]. apply NoDup_cons_iff in ND. destruct ND as [NI ND].
    cbn [length seq combine fold_left fst snd]. destruct pos as [|pos].
    - cbn [nth]. rewrite upd_fold_other; [rewrite nth_upd_eq by (apply BD; left; reflexivity); lia |].
      intros H. apply NI. clear - H. revert H. generalize (S s). induction o as [|w o IH]; intros t H; [exact H |]. cbn in H. destruct H as [H | H]; [left; exact H | right; apply (IH (S t)); exact H].
    - cbn [nth]. rewrite IH; [lia | exact ND | | cbn in Hpos; lia]. intros w Hw. rewrite upd_length. apply BD. right. exact Hw. }
  rewrite G; [lia | exact ND | | lia]. intros v Hv. rewrite repeat_length, LO. apply BD. exact Hv.
Qed.
Theorem C41_restore : forall n selected remaining (columns : nat -> list Z), Permutation (selected ++ remaining) (seq 0 n) ->
  let gathered := map columns (selected ++ remaining) in
  map (fun i => nth i gathered []) (restore_index (selected ++ remaining)) = map columns (seq 0 n).
Proof.
  intros n sel rem columns P gathered. assert (LO : length (sel ++ rem) = n) by (apply Permutation_length in P; rewrite seq_length in P; exact P).
  assert (LR : length (restore_index (sel ++ rem)) = n) by (unfold restore_index; rewrite upd_fold_length, repeat_length; exact LO).
  apply (list_ext []); [rewrite !map_length, seq_length; exact LR |]. intros i Hi. rewrite map_length, LR in Hi.
  rewrite (nth_map_lt _ _ _ _ 0%nat) by lia. rewrite (nth_map_seq columns) by exact Hi.
  assert (HI : In i (sel ++ rem)) by (apply (Permutation_in (l := seq 0 n)); [symmetry; exact P | apply in_seq; lia]).
  apply (In_nth _ _ 0%nat) in HI. destruct HI as (pos & Hp & E). pose proof (restore_nth _ n P pos ltac:(lia)) as R. rewrite E in R. rewrite R.
  unfold gathered. rewrite (nth_map_lt _ _ _ _ 0%nat) by exact Hp. rewrite E. reflexivity.
Qed.
Print Assumptions C41_restore.

(** C41: the key generator splits the moduli in the same way: its parts are the parts of the plan, in order, and the
    remaining ones (up to dnum) are empty *)
Theorem C41_keys_match : forall size_q size_p dnum first parts, (0 < size_q)%nat -> (0 < dnum)%nat ->
  compute_control_indices size_q size_p dnum = Some (first :: parts) ->
  forall part, (part < dnum)%nat -> part_indices size_q dnum part = nth part (map fst parts) [].
Proof.
  intros nq np dnum first parts Hq Hd E part Hp. unfold compute_control_indices in E. destruct (Nat.eqb_spec dnum 0); [lia |].
  destruct (ceil_div_spec nq dnum Hd) as [A1 A2]. specialize (A2 Hq). unfold part_indices. set (alpha := ceil_div nq dnum) in *.
  destruct (Nat.eqb_spec alpha 0) as [Z | Z]; [discriminate |]. injection E as _ <-. rewrite map_map. cbn [fst].
  assert (Ha : (0 < alpha)%nat) by lia. destruct (ceil_div_spec nq alpha Ha) as [B1 B2]. specialize (B2 Hq). rewrite extract_blocks by exact Ha. set (k := ceil_div nq alpha) in *.
  destruct (Nat.lt_ge_cases part k) as [L | L].
  - rewrite (nth_map_seq (fun part => nth part (map (block alpha nq) (seq 0 k)) [])) by exact L. rewrite (nth_map_seq (block alpha nq)) by exact L. reflexivity.
  - rewrite nth_overflow by (rewrite map_length, seq_length; exact L). replace (Nat.min _ _ - _)%nat with 0%nat by nia. reflexivity.
Qed.
Print Assumptions C41_keys_match.

(** C41: the plans of the key switcher: dnum plans whose selected indices are, in order, all of 0, ..., size_q - 1 *)
Theorem C41_switch_plans : forall size_q size_p dnum, (0 < dnum)%nat ->
  length (switch_plans size_q size_p dnum) = dnum /\ concat (map fst (switch_plans size_q size_p dnum)) = seq 0 size_q /\
  Forall (splits (size_q + size_p)) (switch_plans size_q size_p dnum).
Proof.
  intros nq np dnum Hd. unfold switch_plans. rewrite map_length, seq_length. split; [reflexivity |].
  destruct (Nat.eq_dec nq 0) as [-> | Hq].
  - assert (Z : forall part, part_indices 0 dnum part = []) by (intros part; unfold part_indices; rewrite Nat.min_0_r; reflexivity).
    rewrite map_map. cbn [fst]. split.
    + induction (seq 0 dnum) as [|x l IH]; [reflexivity |]. cbn. rewrite Z. exact IH.
    + apply Forall_forall. intros plan H. apply in_map_iff in H. destruct H as (x & <- & _). rewrite Z. apply (splits_seq _ 0 0). lia.
  - destruct (ceil_div_spec nq dnum Hd) as [A1 A2]. specialize (A2 ltac:(lia)). split.
    + rewrite map_map. cbn [fst]. apply (concat_blocks (ceil_div nq dnum) nq dnum); nia.
    + apply Forall_forall. intros plan H. apply in_map_iff in H. destruct H as (x & <- & Hx). apply in_seq in Hx. unfold part_indices.
      set (alpha := ceil_div nq dnum) in *. destruct (Nat.le_gt_cases (x * alpha) nq) as [L | L]; [apply splits_seq; nia |].
      replace (Nat.min ((x + 1) * alpha) nq - x * alpha)%nat with 0%nat by nia. apply (splits_seq _ 0 0). lia.
Qed.
Print Assumptions C41_switch_plans.

(** a number of digits of zero and an empty chain are errors *)
Theorem C41_rejections : forall size_q size_p dnum, dnum = 0%nat \/ size_q = 0%nat -> compute_control_indices size_q size_p dnum = None.
Proof.
  intros nq np dnum H. unfold compute_control_indices. destruct (Nat.eqb_spec dnum 0); [reflexivity |]. destruct H as [H | ->]; [lia |].
  unfold ceil_div. rewrite (Nat.div_small (0 + dnum - 1)) by lia. reflexivity.
Qed.
Print Assumptions C41_rejections.

Example C41_example : compute_control_indices 5 2 4 =
  Some [([5; 6], [0; 1; 2; 3; 4]); ([0; 1], [2; 3; 4; 5; 6]); ([2; 3], [0; 1; 4; 5; 6]); ([4], [0; 1; 2; 3; 5; 6])]%nat /\
  restore_index [2; 3; 0; 1; 4; 5; 6]%nat = [2; 3; 0; 1; 4; 5; 6]%nat /\
  map (part_indices 5 4) [0; 1; 2; 3]%nat = [[0; 1]; [2; 3]; [4]; []]%nat.
Proof. vm_compute. repeat split. Qed.
