(** C29: byte-split (BAT) matrix multiplication. *)
From Coq Require Import ZArith List Lia.
From Verif Require Import Base.ZSum Base.Modeq Base.Lists Ckks.Model_barrett Ckks.Proof_barrett Ckks.Model_scheme Ckks.Model_bat Ckks.Proof_bat.
Import ListNotations.
Local Open Scope Z_scope.

(** entry (i, j) of the integer matrix product *)
Definition matrix_product_entry (lhs A : list (list Z)) (i j : nat) : Z :=
  zsum (length A) (fun k => nth k (nth i lhs []) 0 * nth j (nth k A []) 0).

(** C29: for every modulus up to 2^32, 32-bit left operand, matrix of 32-bit entries and inner dimension K with
    K*4*255^2 < 2^32 (K <= 16512), every entry is congruent to the entry of the matrix product, and is at most
    1020*K*(m-1) *)
Theorem C29_matmul : forall lhs A m cols i j, 0 < m <= 2 ^ 32 ->
  Forall (fun row => length row = cols /\ Forall (fun x => 0 <= x < 2 ^ 32) row) A ->
  Forall (fun row => length row = length A /\ Forall (fun x => 0 <= x < 2 ^ 32) row) lhs ->
  Z.of_nat (length A) * 4 * 255 * 255 < 2 ^ 32 -> A <> [] -> (i < length lhs)%nat -> (j < cols)%nat ->
  let entry := nth j (nth i (matmul_bat lhs A m) []) 0 in
  entry == matrix_product_entry lhs A i j [mod m] /\ 0 <= entry <= Z.of_nat (length A) * (1020 * (m - 1)).
Proof.
  intros lhs A m cols i j Hm FA FL HK NA Hi Hj entry.
  assert (LC : length (nth 0 A []) = cols). { rewrite Forall_forall in FA. apply FA. apply nth_In. destruct A; [contradiction | cbn; lia]. }
  assert (FR : length (nth i lhs []) = length A /\ Forall (fun x => 0 <= x < 2 ^ 32) (nth i lhs [])) by (rewrite Forall_forall in FL; apply FL, nth_In, Hi).
  destruct FR as [LR FR].
  set (col := map (fun arow => nth j arow 0) A).
  assert (Fcol : Forall (fun x => 0 <= x < 2 ^ 40) col).
  { apply Forall_map. eapply Forall_impl; [| exact FA]. cbv beta. intros row [Lr Fr]. rewrite Forall_forall in Fr. assert (X : 0 <= nth j row 0 < 2 ^ 32) by (apply Fr, nth_In; lia). lia. }
  assert (E : entry = bat_value m (fun k => nth k (nth i lhs []) 0) (fun k => nth k col 0) (length A)).
  { unfold entry, matmul_bat. rewrite (nth_map_lt _ _ _ _ []) by exact Hi. rewrite LC. rewrite nth_map_seq by exact Hj.
    replace (map (fun arow => basis_aligned_entry (nth j arow 0) m) A) with (map (fun x => basis_aligned_entry x m) col) by (unfold col; rewrite map_map; reflexivity).
    rewrite matmul_bat_entry_value; [rewrite LR; reflexivity | exact Hm | unfold col; rewrite map_length; exact LR | exact Fcol | rewrite LR; exact HK]. }
  rewrite E. split; [| apply bat_value_bound; exact Hm].
  rewrite bat_value_congr.
  - apply eqm_eq. unfold matrix_product_entry. apply zsum_ext. intros k Hk. unfold col. rewrite (nth_map_lt _ _ _ _ []) by exact Hk. reflexivity.
  - intros k Hk. rewrite Forall_forall in FR. apply FR, nth_In. lia.
Qed.
Print Assumptions C29_matmul.

(** C29: a Barrett reduction of the result is the entry of the product modulo m, for every m below 2^31 with
    1020*K <= m and K <= 4112 *)
Theorem C29_matmul_reduced : forall lhs A m cols i j, 1 < m < 2 ^ 31 -> 1020 * Z.of_nat (length A) <= m -> Z.of_nat (length A) <= 4112 ->
  Forall (fun row => length row = cols /\ Forall (fun x => 0 <= x < 2 ^ 32) row) A ->
  Forall (fun row => length row = length A /\ Forall (fun x => 0 <= x < 2 ^ 32) row) lhs ->
  A <> [] -> (i < length lhs)%nat -> (j < cols)%nat ->
  modular_reduction (nth j (nth i (matmul_bat lhs A m) []) 0) (precompute_barrett_constants m) = matrix_product_entry lhs A i j mod m.
Proof.
  intros lhs A m cols i j Hm HB HK FA FL NA Hi Hj.
  destruct (C29_matmul lhs A m cols i j ltac:(lia) FA FL ltac:(lia) NA Hi Hj) as [C B].
  set (z := nth j (nth i (matmul_bat lhs A m) []) 0) in *. rewrite barrett_large_sum by nia.
  apply eqm_mod_iff; [lia | exact C].
Qed.
Print Assumptions C29_matmul_reduced.

(** above the bound the 32-bit accumulators overflow: an inner dimension of 16530 with m = 2^32 - 1 *)
Lemma repeat_col {A B} (f : A -> B) x n : map f (repeat x n) = repeat (f x) n.
Proof. induction n; cbn; [reflexivity |]. rewrite IHn. reflexivity. Qed.
Theorem C29_larger_inner_dimension_refuted : ~ forall lhs A m i j, 0 < m <= 2 ^ 32 ->
  Forall (fun row => length row = 1%nat /\ Forall (fun x => 0 <= x < m) row) A ->
  Forall (fun row => length row = length A /\ Forall (fun x => 0 <= x < 2 ^ 32) row) lhs ->
  (i < length lhs)%nat -> (j < 1)%nat -> nth j (nth i (matmul_bat lhs A m) []) 0 == matrix_product_entry lhs A i j [mod m].
Proof.
  intros H. set (m := 2 ^ 32 - 1). set (a := 2 ^ 32 - 2). set (x := 2 ^ 32 - 1).
  assert (HK : exists K, Z.of_nat K = 16530) by (exists (Z.to_nat 16530); apply Z2Nat.id; lia). destruct HK as (K & HK).
  specialize (H [repeat x K] (repeat [a] K) m 0%nat 0%nat ltac:(lia)).
  assert (LA : length (repeat [a] K) = K) by apply repeat_length.
  assert (C : nth 0 (nth 0 (matmul_bat [repeat x K] (repeat [a] K) m) []) 0 == matrix_product_entry [repeat x K] (repeat [a] K) 0 0 [mod m]).
  { apply H; [| | cbn; lia | lia].
    - apply Forall_forall. intros r Hr. apply repeat_spec in Hr. subst r. split; [reflexivity |]. constructor; [unfold a, m; lia | constructor].
    - constructor; [| constructor]. rewrite !repeat_length. split; [reflexivity |]. apply Forall_forall. intros y Hy. apply repeat_spec in Hy. subst y. unfold x. lia. }
  assert (P : matrix_product_entry [repeat x K] (repeat [a] K) 0 0 = 16530 * (x * a)).
  { unfold matrix_product_entry. rewrite LA. cbn [nth]. rewrite (zsum_ext K _ (fun _ => x * a)).
    - rewrite zsum_const, HK. reflexivity.
    - intros k Hk. rewrite !nth_repeat_lt' by exact Hk. reflexivity. }
  rewrite P in C. clear H P. unfold matmul_bat in C. cbn [map nth] in C.
  replace (length (nth 0 (repeat [a] K) [])) with 1%nat in C by (destruct K; [discriminate | reflexivity]).
  cbn [seq map nth] in C. rewrite repeat_col in C. cbn [nth] in C.
  rewrite <- (repeat_col (fun y => basis_aligned_entry y m)) in C.
  unfold matmul_bat_entry in C. cbn [seq map] in C.
  assert (ACC : forall p, (p < 4)%nat -> accumulate (concat (map bytes_of (repeat x K))) (map (fun bs => nth p bs 0) (concat (map (fun y => basis_aligned_entry y m) (repeat a K)))) =
    (16530 * zsum 4 (fun q => byte x q * byte ((a * 2 ^ (8 * Z.of_nat q)) mod m) p)) mod 2 ^ 32).
  { intros p Hp. rewrite accumulate_sum; [| unfold m; lia | exact Hp | rewrite !repeat_length; reflexivity |
      apply Forall_forall; intros y Hy; apply repeat_spec in Hy; subst y; unfold a; lia].
    unfold inner_sum. rewrite repeat_length. f_equal. rewrite (zsum_ext K _ (fun _ => zsum 4 (fun q => byte x q * byte ((a * 2 ^ (8 * Z.of_nat q)) mod m) p))).
    - rewrite zsum_const, HK. reflexivity.
    - intros k Hk. rewrite !nth_repeat_lt' by exact Hk. reflexivity. }
  cbn [fold_left nth] in C. rewrite !ACC in C by lia.
  apply eqm_mod_iff in C; [| unfold m; lia]. vm_compute in C. discriminate.
Qed.
Print Assumptions C29_larger_inner_dimension_refuted.

Example C29_example :
  map (map (fun z => modular_reduction z (precompute_barrett_constants 1073740609))) (matmul_bat [[4294967295; 3]; [5; 1073740608]] [[1073740608; 7]; [12; 5]] 1073740609)
  = [[(4294967295 * 1073740608 + 3 * 12) mod 1073740609; (4294967295 * 7 + 3 * 5) mod 1073740609];
     [(5 * 1073740608 + 1073740608 * 12) mod 1073740609; (5 * 7 + 1073740608 * 5) mod 1073740609]].
Proof. vm_compute. reflexivity. Qed.
