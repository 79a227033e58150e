(** C56: the high-precision matrix products of matrix_utils. *)
From Coq Require Import ZArith List Bool Lia.
From Verif Require Import Base.ZSum Base.Lists Base.Word Base.Modeq Ckks.Model_rns_utils Cggi.Model_matrix_utils Cggi.Model_hpmatmul Cggi.Spec_hpmatmul Cggi.Proof_hpmatmul Cggi.Proof_hpmatmul2.
Import ListNotations.
Local Open Scope Z_scope.

(** hpmatmul_conv_adapt_outer_product: the product modulo 2^w, w = 64 with jax_enable_x64 (inner dimension up to 66051), w = 32 without (any
    dimension) *)
Theorem C56_outer_product w m n k A B : (w = 32 \/ w = 64 /\ Z.of_nat n * (255 * 255) < 2 ^ 32) -> (0 < n)%nat -> words32 m n A -> words32 n k B ->
  is_matrix m k (fun i c => product_entry n A B i c mod 2 ^ w) (hpmatmul_conv_adapt_outer_product w A B).
Proof. intros Hw Hn WA WB. apply (is_matrix_map m k n); try assumption. intros i c Hi Hc. apply (outer_entry w m n k); assumption. Qed.
Print Assumptions C56_outer_product.
(** hpmatmul_conv_adapt_conv: the same, inner dimension up to 16512 *)
Theorem C56_conv w m n k A B : (w = 32 \/ w = 64 /\ Z.of_nat n * (4 * (255 * 255)) < 2 ^ 32) -> (0 < n)%nat -> words32 m n A -> words32 n k B ->
  is_matrix m k (fun i c => product_entry n A B i c mod 2 ^ w) (hpmatmul_conv_adapt_conv w A B).
Proof. intros Hw Hn WA WB. apply (is_matrix_map m k n); try assumption. intros i c Hi Hc. apply (conv_entry_ok w m n k); assumption. Qed.
Print Assumptions C56_conv.
(** when the exact product fits in 64 bits the result is exact *)
Theorem C56_outer_product_exact m n k A B : Z.of_nat n * (255 * 255) < 2 ^ 32 -> (0 < n)%nat -> words32 m n A -> words32 n k B -> (forall i c, product_entry n A B i c < 2 ^ 64) ->
  is_matrix m k (product_entry n A B) (hpmatmul_conv_adapt_outer_product 64 A B).
Proof.
  intros HN Hn WA WB FIT. destruct (C56_outer_product 64 m n k A B ltac:(right; tauto) Hn WA WB) as [L R]. split; [exact L |]. intros i Hi. destruct (R i Hi) as [L2 R2]. split; [exact L2 |]. intros c Hc. rewrite (R2 c Hc). apply Z.mod_small. split; [| apply FIT].
  apply zsum_nonneg. intros j _. pose proof (words32_nth m n A i j WA). pose proof (words32_nth n k B j c WB). nia.
Qed.
Print Assumptions C56_outer_product_exact.

(** smul_as_dense_gemv_bat: always ends, and column j of the 4-by-4 byte matrix represents x * 2^(8j) modulo q *)
Theorem C56_bat_matrix x q : 0 <= x < 2 ^ 32 -> 0 < q <= 2 ^ 32 ->
  exists M, smul_as_dense_gemv_bat x q = Some M /\ length M = 4%nat /\ Forall (fun col => length col = 4%nat /\ Forall (fun v => 0 <= v < 256) col) M /\
    forall j, (j < 4)%nat -> (zsum 4 (fun p => nth p (nth j M []) 0 * 2 ^ (8 * Z.of_nat p))) mod q = (x * 2 ^ (8 * Z.of_nat j)) mod q.
Proof.
  intros Hx [Q0 Q1]. destruct (smul_ok x q Hx Q0 Q1) as (M & E & [_ V] & L & F). exists M. split; [exact E |]. split; [exact L |]. split; [exact F |]. intros j Hj. rewrite (Z.pow_mul_r 2 8 (Z.of_nat j)) by lia. apply eqm_mod_iff; [lia |]. rewrite <- (V j Hj).
  apply eqm_eq. apply zsum_ext. intros p _. rewrite (Z.pow_mul_r 2 8) by lia. reflexivity.
Qed.
Print Assumptions C56_bat_matrix.
(** compile then multiply: with 64-bit words, the result reduced modulo q is the product reduced modulo q, for every modulus up to 2^32 and
    every inner dimension up to 8256 *)
Theorem C56_bat_product m n k A B q : words32 m n A -> words32 n k B -> (0 < n)%nat -> Z.of_nat n * (4 * (255 * 255)) < 2 ^ 31 -> 0 < q <= 2 ^ 32 ->
  exists C, hpmatmul_offline_compile_bat A q = Some C /\
    is_matrix m k (fun i c => product_entry n A B i c mod q) (map (map (fun v => v mod q)) (hpmatmul_bat_adapt 64 C B)) /\
    is_matrix m k (fun i c => product_entry n A B i c mod q) (hpmatmul_golden A B q).
Proof.
  intros WA WB Hn HN [Q0 Q1]. destruct (compile_ok q n A Q0 Q1 (proj2 WA)) as (C & E & LC & K). exists C. split; [exact E |]. pose proof (proj1 WA) as LA. pose proof (words32_width n k B WB Hn) as KB. split.
  - unfold hpmatmul_bat_adapt. rewrite KB. split; [rewrite !map_length; lia |]. intros i Hi. rewrite (nth_map_lt _ _ i [] []) by (rewrite map_length; lia). rewrite (nth_map_lt _ C i [] []) by lia. split; [rewrite !map_length, seq_length; reflexivity |].
    intros c Hc. rewrite (nth_map_lt _ _ c 0 0) by (rewrite map_length, seq_length; exact Hc). rewrite nth_map_seq by exact Hc. destruct (K i ltac:(lia)) as [LM OK]. destruct (words32_row m n A i WA Hi) as [LR _].
    apply eqm_mod_iff; [lia |]. apply (bat_entry n q (nth i A []) (nth i C []) B c k LR WB LM OK HN Q0).
  - apply (is_matrix_map m k n A B (fun row c => lsum (map2 (fun x brow => x * nth c brow 0) row B) mod q)); try assumption. intros i c Hi Hc. destruct (words32_row m n A i WA Hi) as [LR _]. rewrite (Proof_matrix_utils.lsum_map2 _ _ _ 0 []) by (rewrite LR; symmetry; apply WB). rewrite LR. reflexivity.
Qed.
Print Assumptions C56_bat_product.

(** ** Refuted *)
(** with jax_enable_x64 off, which is the default and what the rest of jaxite_cggi runs with, the BAT product is not the product modulo q *)
Theorem C56_bat_without_x64_refuted : ~ (forall A B q C, words32 1 2 A -> words32 2 1 B -> 0 < q <= 2 ^ 32 -> hpmatmul_offline_compile_bat A q = Some C ->
  is_matrix 1 1 (fun i c => product_entry 2 A B i c mod q) (map (map (fun v => v mod q)) (hpmatmul_bat_adapt 32 C B))).
Proof.
  intros H. destruct (hpmatmul_offline_compile_bat [[4294967290; 7]] 4294967291) as [C|] eqn:E; [| vm_compute in E; discriminate E].
  specialize (H [[4294967290; 7]] [[4294967289]; [10]] 4294967291 C). destruct H as [_ H]; [split; [reflexivity |]; repeat constructor; vm_compute; congruence | split; [reflexivity |]; repeat constructor; vm_compute; congruence | lia | exact E |].
  destruct (H 0%nat ltac:(lia)) as [_ H0]. specialize (H0 0%nat ltac:(lia)). vm_compute in E. injection E as <-. vm_compute in H0. discriminate H0.
Qed.
Print Assumptions C56_bat_without_x64_refuted.
(** two full-precision products overflow 64 bits: reducing the outer-product result modulo q, as its test does for 28-bit entries, does not
    give the product modulo q *)
Theorem C56_outer_product_mod_refuted : ~ (forall A B, words32 1 2 A -> words32 2 1 B ->
  is_matrix 1 1 (fun i c => product_entry 2 A B i c mod 4294967291) (map (map (fun v => v mod 4294967291)) (hpmatmul_conv_adapt_outer_product 64 A B))).
Proof.
  intros H. specialize (H [[4294967295; 4294967295]] [[4294967295]; [4294967295]]). destruct H as [_ H]; [split; [reflexivity |]; repeat constructor; vm_compute; congruence | split; [reflexivity |]; repeat constructor; vm_compute; congruence |].
  destruct (H 0%nat ltac:(lia)) as [_ H0]. specialize (H0 0%nat ltac:(lia)). vm_compute in H0. discriminate H0.
Qed.
Print Assumptions C56_outer_product_mod_refuted.
(** smul_as_dense_gemv_bat_jax projects the top half twice: it does not compute the same matrix, and column 1 does not represent x * 2^8 *)
Theorem C56_bat_jax_refuted : ~ (forall x q M, 0 <= x < 2 ^ 32 -> 0 < q <= 2 ^ 32 -> smul_as_dense_gemv_bat_jax x q = Some M ->
  forall j, (j < 4)%nat -> (zsum 4 (fun p => nth p (nth j M []) 0 * 2 ^ (8 * Z.of_nat p))) mod q = (x * 2 ^ (8 * Z.of_nat j)) mod q).
Proof.
  intros H. destruct (smul_as_dense_gemv_bat_jax (2 ^ 24) 4294967291) as [M|] eqn:E; [| vm_compute in E; discriminate E]. specialize (H (2 ^ 24) 4294967291 M ltac:(lia) ltac:(lia) E 1%nat ltac:(lia)). vm_compute in E. injection E as <-. vm_compute in H. discriminate H.
Qed.
Print Assumptions C56_bat_jax_refuted.

(** ** Examples *)
Example C56_example_words : words32 1 2 [[4294967290; 7]] /\ words32 2 1 [[4294967289]; [10]].
Proof. split; (split; [reflexivity |]; repeat constructor; vm_compute; congruence). Qed.
Example C56_example_outer : hpmatmul_conv_adapt_outer_product 64 [[4294967290; 7]] [[4294967289]; [10]] = [[4294967290 * 4294967289 + 70]] /\ hpmatmul_conv_adapt_conv 64 [[4294967290; 7]] [[4294967289]; [10]] = [[4294967290 * 4294967289 + 70]].
Proof. split; vm_compute; reflexivity. Qed.
Example C56_example_bat : exists C, hpmatmul_offline_compile_bat [[4294967290; 7]] 4294967291 = Some C /\ map (map (fun v => v mod 4294967291)) (hpmatmul_bat_adapt 64 C [[4294967289]; [10]]) = [[(4294967290 * 4294967289 + 70) mod 4294967291]].
Proof.
  destruct (hpmatmul_offline_compile_bat [[4294967290; 7]] 4294967291) as [C|] eqn:E; [| vm_compute in E; discriminate E]. exists C. split; [reflexivity |]. vm_compute in E. injection E as <-. vm_compute. reflexivity.
Qed.
(** every digit of the top half set: the re-chunking loop runs *)
Example C56_example_matrix : smul_as_dense_gemv_bat 4294967295 4294967295 <> None.
Proof. vm_compute. discriminate. Qed.
