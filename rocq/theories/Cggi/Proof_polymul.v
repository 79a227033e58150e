(** Every path of the vector-matrix polynomial product computes the same ring element. *)
From Coq Require Import ZArith List Lia Bool Setoid Morphisms.
From Verif Require Import Base.ZSum Base.Modeq Base.Nega Base.Word Base.Bits.
From Verif Require Import Cggi.Model_matrix_utils Cggi.Model_polymul Cggi.Proof_matrix_utils Cggi.Proof_poly Cggi.Spec_poly.
From Verif Require Import Cggi.Proof_decomposition.
Import ListNotations.
Local Open Scope Z_scope.

Lemma rect_nth {A} n m (x : list (list A)) i : rect n m x -> (i < n)%nat -> length (nth i x []) = m.
Proof. intros [H1 H2] Hi. rewrite Forall_forall in H2. apply H2, nth_In. lia. Qed.
Lemma cube_nth n m k x i : cube n m k x -> (i < n)%nat -> rect m k (nth i x []).
Proof. intros [H1 H2] Hi. rewrite Forall_forall in H2. apply H2, nth_In. lia. Qed.

Lemma nega_coeff_comm N a b k : (k < N)%nat -> nega_coeff N (coeff a) (coeff b) k = nega_coeff N (coeff b) (coeff a) k.
Proof.
  intros Hk. assert (HN : (0 < N)%nat) by lia. unfold coeff.
  rewrite <- !conv_nega_coeff by assumption. apply conv_comm; apply ext_antiper; assumption.
Qed.

Lemma poly_mul_spec tpu a b n : length a = n -> length b = n -> poly_mul tpu a b = nega_product n a b.
Proof.
  intros Ha Hb. apply (list_eq_nth 0).
  - rewrite poly_mul_length by lia. unfold nega_product. rewrite map_length, seq_length. assumption.
  - intros i Hi. rewrite poly_mul_length in Hi by lia. rewrite poly_mul_nth by lia. unfold nega_product.
    rewrite nth_map_seq by lia. rewrite nega_coeff_comm by lia. rewrite Ha. reflexivity.
Qed.

Lemma poly_dot_spec tpu n v1 v2 : length v1 = length v2 -> Forall (fun a => length a = n) v1 -> Forall (fun a => length a = n) v2 ->
  poly_dot_product tpu n v1 v2 =
  map (fun k => zsum (length v1) (fun i => nega_coeff n (coeff (nth i v1 [])) (coeff (nth i v2 [])) k) mod 2 ^ 32) (seq 0 n).
Proof.
  intros HL H1 H2. pose proof (map2_poly_mul_lengths n tpu v1 v2 H1 H2) as HF. apply (list_eq_nth 0).
  - unfold poly_dot_product. rewrite vsum_length by assumption. rewrite map_length, seq_length. reflexivity.
  - intros k Hk. unfold poly_dot_product in Hk. rewrite vsum_length in Hk by assumption.
    rewrite nth_map_seq by assumption. change (2 ^ 32) with W32.
    apply (eqm_small W32).
    + pose proof (vsum_words n (map2 (poly_mul tpu) v1 v2)) as W. rewrite Forall_forall in W. apply W, nth_In.
      rewrite vsum_length by assumption. assumption.
    + apply Z.mod_pos_bound. lia.
    + rewrite eqm_mod. unfold poly_dot_product. rewrite vsum_nth by assumption.
      rewrite lsum_nth, map_length, map2_length, <- HL, Nat.min_id. apply eqm_zsum. intros i Hi.
      rewrite (nth_map_lt _ _ _ _ []) by (rewrite map2_length; lia).
      rewrite (nth_map2 _ _ _ _ [] []) by lia. rewrite Forall_forall in H1, H2.
      rewrite (poly_mul_spec tpu _ _ n) by ((apply H1; apply nth_In; lia) || (apply H2; apply nth_In; lia)).
      unfold nega_product. rewrite nth_map_seq by assumption. apply eqm_mod.
Qed.

Lemma fallback_spec tpu b m n vec mat : (0 < b)%nat -> rect b n vec -> cube b m n mat ->
  fallback_vector_matrix_polymul tpu n vec mat = nega_vecmat n m vec mat.
Proof.
  intros Hb Hv Hm. unfold fallback_vector_matrix_polymul, nega_vecmat.
  pose proof (cube_nth b m n mat 0 Hm Hb) as [E0 _]. rewrite E0.
  apply map_ext_in. intros j Hj. apply in_seq in Hj. destruct Hv as [Lv Fv]. destruct Hm as [Lm Fm].
  rewrite poly_dot_spec.
  - apply map_ext. intros k. f_equal. apply zsum_ext. intros i Hi.
    rewrite (nth_map_lt _ _ _ _ []) by lia. reflexivity.
  - rewrite map_length. lia.
  - assumption.
  - apply Forall_map. eapply Forall_impl; [|exact Fm]. intros rows Hr. apply (rect_nth m n rows j Hr). lia.
Qed.

(** *** exactness of the float path *)
Lemma fround_id p x : 0 < p -> Z.abs x < 2 ^ p -> fround p x = x.
Proof.
  intros Hp Hx. unfold fround. destruct (Z.leb_spec (Z.log2 (Z.abs x) + 1) p); [reflexivity|].
  exfalso. destruct (Z.eq_dec (Z.abs x) 0) as [E|E]; [rewrite E in *; cbn in *; lia|].
  assert (Z.log2 (Z.abs x) < p) by (apply Z.log2_lt_pow2; lia). lia.
Qed.

Lemma bf16_dot_exact_gen A B : 0 <= A < 256 -> 0 <= B < 256 -> forall a b acc,
  Forall (fun x => Z.abs x <= A) a -> Forall (fun x => Z.abs x <= B) b -> length a = length b ->
  Z.abs acc + Z.of_nat (length a) * (A * B) < 2 ^ 24 ->
  fold_left (fun acc xy => fround 24 (acc + fround 8 (fst xy) * fround 8 (snd xy))) (combine a b) acc = acc + dotZ a b.
Proof.
  intros HA HB. induction a as [|x a IH]; intros [|y b] acc Fa Fb HL Hacc; cbn [length] in HL; try lia; cbn [combine fold_left].
  - unfold dotZ. cbn. lia.
  - inversion_clear Fa. inversion_clear Fb. cbn [fst snd].
    rewrite !(fround_id 8) by (change (2 ^ 8) with 256; lia). rewrite dotZ_cons.
    assert (Hxy : Z.abs (x * y) <= A * B) by (rewrite Z.abs_mul; nia).
    cbn [length] in Hacc. rewrite Nat2Z.inj_succ in Hacc.
    rewrite (fround_id 24) by nia. rewrite IH by (assumption || nia). ring.
Qed.

Lemma bf16_dot_exact A B a b : 0 <= A < 256 -> 0 <= B < 256 ->
  Forall (fun x => Z.abs x <= A) a -> Forall (fun x => Z.abs x <= B) b -> length a = length b ->
  Z.of_nat (length a) * (A * B) < 2 ^ 24 -> bf16_dot a b = dotZ a b.
Proof. intros. unfold bf16_dot. rewrite (bf16_dot_exact_gen A B) by (assumption || (rewrite Z.abs_0; lia)). lia. Qed.

Lemma dot_bytes x s : length x = length s ->
  zsum 4 (fun g => dotZ (map (fun v => byte_of v g) x) s * 256 ^ Z.of_nat g) == dotZ x s [mod W32].
Proof.
  intros HL. rewrite (dotZ_zsum x s HL).
  transitivity (zsum (length x) (fun i => zsum 4 (fun g => byte_of (nth i x 0) g * 256 ^ Z.of_nat g) * nth i s 0)).
  - apply eqm_eq. rewrite (zsum_ext 4 _ (fun g => zsum (length x) (fun i => byte_of (nth i x 0) g * 256 ^ Z.of_nat g * nth i s 0))).
    + rewrite zsum_swap. apply zsum_ext. intros i _. rewrite zsum_mul_r. reflexivity.
    + intros g _. rewrite dotZ_zsum by (rewrite map_length; assumption). rewrite map_length, <- zsum_mul_r.
      apply zsum_ext. intros i Hi. rewrite (nth_map_lt _ _ _ _ 0) by assumption. ring.
  - apply eqm_zsum. intros i _. rewrite bytes_eqm. reflexivity.
Qed.

Lemma nth_half {A} (R : list A) i d h : length R = h -> (i < h)%nat ->
  nth i (firstn h (R ++ R)) d = nth i R d /\ nth i (skipn h (R ++ R)) d = nth i R d.
Proof.
  intros HR Hi. split.
  - rewrite firstn_app, HR, Nat.sub_diag, firstn_O, app_nil_r. rewrite <- HR, firstn_all. reflexivity.
  - rewrite skipn_app, HR, Nat.sub_diag, skipn_O. rewrite <- HR, skipn_all. reflexivity.
Qed.

(** the four byte products of row r of R (as laid out by the kernel) *)
Lemma cggi_rows (R : list (list Z)) h g r : length R = h -> (g < 4)%nat -> (r < h)%nat ->
  let l := R ++ R in
  nth (g * h + r) (map (map (fun x => byte_of x 0)) (firstn h l) ++ map (map (fun x => byte_of x 1)) (skipn h l) ++
    map (map (fun x => byte_of x 2)) (firstn h l) ++ map (map (fun x => byte_of x 3)) (skipn h l)) []
  = map (fun x => byte_of x g) (nth r R []).
Proof.
  intros HR Hg Hr l. destruct (nth_half R r ([] : list Z) h HR Hr) as [N1 N2]. fold l in N1, N2.
  assert (L1 : length (firstn h l) = h) by (unfold l; rewrite firstn_length, app_length; lia).
  assert (L2 : length (skipn h l) = h) by (unfold l; rewrite skipn_length, app_length; lia).
  destruct g as [|[|[|[|g]]]]; try lia.
  - rewrite app_nth1 by (rewrite map_length; lia). rewrite (nth_map_lt _ _ _ _ []) by lia. cbn [Nat.mul Nat.add]. rewrite N1. reflexivity.
  - rewrite app_nth2 by (rewrite map_length; lia). rewrite map_length, L1.
    rewrite app_nth1 by (rewrite map_length; lia). rewrite (nth_map_lt _ _ _ _ []) by lia.
    replace (1 * h + r - h)%nat with r by lia. rewrite N2. reflexivity.
  - rewrite app_nth2 by (rewrite map_length; lia). rewrite map_length, L1.
    rewrite app_nth2 by (rewrite map_length; lia). rewrite map_length, L2.
    rewrite app_nth1 by (rewrite map_length; lia). rewrite (nth_map_lt _ _ _ _ []) by lia.
    replace (2 * h + r - h - h)%nat with r by lia. rewrite N1. reflexivity.
  - rewrite app_nth2 by (rewrite map_length; lia). rewrite map_length, L1.
    rewrite app_nth2 by (rewrite map_length; lia). rewrite map_length, L2.
    rewrite app_nth2 by (rewrite map_length; lia). rewrite map_length, L1.
    rewrite (nth_map_lt _ _ _ _ []) by lia.
    replace (3 * h + r - h - h - h)%nat with r by lia. rewrite N2. reflexivity.
Qed.

Lemma cggi_matmul_nth (R : list (list Z)) (T : list (list Z)) h n D r c :
  rect h n R -> rect n n T -> (0 < n)%nat -> (r < h)%nat -> (c < n)%nat -> 0 <= D < 256 ->
  Forall (Forall (fun v => Z.abs (s32 v) <= D)) T -> Z.of_nat n * (255 * D) < 2 ^ 24 ->
  nth c (nth r (i32_matmul_unreduced_cggi (R ++ R) T) []) 0 ==
    zsum n (fun i => nth i (nth r R []) 0 * nth c (nth i T []) 0) [mod W32].
Proof.
  intros [LR FR] HT Hn Hr Hc HD FD HB. unfold i32_matmul_unreduced_cggi.
  assert (Eh : (length (R ++ R) / 2 = h)%nat).
  { rewrite app_length, LR. replace (h + h)%nat with (h * 2)%nat by lia. apply Nat.div_mul. lia. }
  rewrite Eh. pose proof (rect_nth n n T 0 HT Hn) as W0. rewrite W0.
  rewrite nth_map_seq by assumption. rewrite nth_map_seq by assumption. rewrite u32_eqm, lsum_map_seq.
  set (col := map (fun row => s32 (nth c row 0)) T).
  assert (Lcol : length col = n) by (unfold col; rewrite map_length; apply HT).
  assert (Lr : length (nth r R []) = n) by (apply (rect_nth h n R r (conj LR FR) Hr)).
  transitivity (zsum 4 (fun g => dotZ (map (fun v => byte_of v g) (nth r R [])) col * 256 ^ Z.of_nat g)).
  - apply eqm_zsum. intros g Hg. rewrite shl32_bytes by lia. apply eqm_eq. f_equal.
    set (ROWS := map (map (fun x : Z => byte_of x 0)) (firstn h (R ++ R)) ++ _).
    assert (LL : length ROWS = (4 * h)%nat).
    { unfold ROWS. rewrite !app_length, !map_length, !firstn_length, !skipn_length, app_length. lia. }
    rewrite (nth_map_lt _ _ _ _ []) by (rewrite LL; nia).
    rewrite nth_map_seq by assumption. unfold ROWS. rewrite cggi_rows by assumption. fold col.
    apply (bf16_dot_exact 255 D).
    + lia.
    + assumption.
    + apply Forall_map, Forall_forall. intros x _. pose proof (byte_range x g). lia.
    + unfold col. apply Forall_map, Forall_forall. intros row Hrow. rewrite Forall_forall in FD.
      specialize (FD row Hrow). rewrite Forall_forall in FD. apply FD, nth_In.
      destruct HT as [_ HT]. rewrite Forall_forall in HT. rewrite (HT row Hrow). assumption.
    + rewrite map_length, Lcol. assumption.
    + rewrite map_length, Lr. assumption.
  - rewrite dot_bytes by lia. rewrite dotZ_zsum by lia. rewrite Lr. apply eqm_zsum. intros i Hi.
    unfold col. rewrite (nth_map_lt _ _ _ _ []) by (destruct HT; lia). rewrite s32_eqm. reflexivity.
Qed.

Lemma s32_neg v : s32 v <> - 2147483648 -> s32 (u32 (- v)) = - s32 v.
Proof.
  intros H. assert (E : u32 (- v) = u32 (- s32 v)) by (apply u32_congr; rewrite s32_eqm; reflexivity).
  rewrite E. apply s32_u32.
  assert (- 2147483648 <= s32 v < 2147483648).
  { unfold s32. pose proof (u32_word v) as W. unfold word32 in W. destruct (Z.ltb_spec (u32 v) 2147483648); lia. }
  lia.
Qed.

Lemma toeplitz_signed_small x D : (length x mod 128 = 0)%nat -> 0 <= D < 2147483648 ->
  Forall (fun v => Z.abs (s32 v) <= D) x -> Forall (Forall (fun v => Z.abs (s32 v) <= D)) (toeplitz_signed x).
Proof.
  intros Hm HD Hx. apply Forall_forall. intros row Hrow. apply Forall_forall. intros v Hv.
  apply (In_nth _ _ []) in Hrow. destruct Hrow as (r & Hr & <-). apply (In_nth _ _ 0) in Hv. destruct Hv as (c & Hc & <-).
  rewrite toeplitz_signed_length in Hr by assumption.
  pose proof (toeplitz_signed_width x) as W. rewrite Forall_forall in W.
  assert (Lr : length (nth r (toeplitz_signed x) []) = length x) by (apply W, nth_In; rewrite toeplitz_signed_length; assumption).
  rewrite Lr in Hc. unfold toeplitz_signed. pose proof (Nat.div_mod (length x) 128 ltac:(lia)).
  rewrite (toeplitz_chunks_nth x _ 0 r c) by lia. cbn [Nat.add].
  assert (B : Z.abs (s32 (nth c (roll (Z.of_nat r) x) 0)) <= D).
  { rewrite roll_nth by assumption. rewrite Forall_forall in Hx. apply Hx, nth_In.
    pose proof (Z.mod_pos_bound (Z.of_nat c - Z.of_nat r) (Z.of_nat (length x)) ltac:(lia)). lia. }
  destruct (c <? r)%nat; [|assumption]. rewrite s32_neg by lia. lia.
Qed.

Lemma cggi_matmul_shape (l : list (list Z)) T h n : length l = (2 * h)%nat -> length (nth 0 T []) = n ->
  rect h n (i32_matmul_unreduced_cggi l T).
Proof.
  intros Hl HT. unfold i32_matmul_unreduced_cggi. rewrite HT. rewrite Hl.
  replace (2 * h / 2)%nat with h by (rewrite Nat.mul_comm, Nat.div_mul; lia). split.
  - rewrite map_length, seq_length. reflexivity.
  - apply Forall_map, Forall_forall. intros r _. rewrite map_length, seq_length. reflexivity.
Qed.

Lemma decomposed_spec b m n D vec mat : (0 < b)%nat -> (0 < n)%nat -> rect b n vec -> cube b m n mat ->
  (n mod 128 = 0)%nat -> (0 < m <= 4)%nat -> 0 <= D < 256 -> Forall (Forall (fun v => Z.abs (s32 v) <= D)) vec ->
  Z.of_nat n * (255 * D) < 2 ^ 24 ->
  decomposed_vector_matrix_polymul vec mat = Some (nega_vecmat n m vec mat).
Proof.
  intros Hb Hn Hv Hm Hmod Hm4 HD FD HB. unfold decomposed_vector_matrix_polymul.
  pose proof (rect_nth b n vec 0 Hv Hb) as W0. rewrite W0.
  pose proof (cube_nth b m n mat 0 Hm Hb) as R0. destruct R0 as [R0 R0'].
  rewrite R0. assert (E00 : length (nth 0 (nth 0 mat []) []) = n).
  { apply (rect_nth m n _ 0); [split; assumption|lia]. }
  rewrite E00. destruct Hv as [Lv Fv]. destruct Hm as [Lm Fm].
  replace (length vec =? length mat)%nat with true by (symmetry; apply Nat.eqb_eq; lia).
  rewrite Nat.eqb_refl. replace (4 <? m)%nat with false by (symmetry; apply Nat.ltb_ge; lia).
  replace (n mod 128 =? 0)%nat with true by (symmetry; apply Nat.eqb_eq; assumption). cbn [negb]. f_equal.
  rewrite firstn_map'. rewrite firstn_seq by lia. unfold nega_vecmat. apply map_ext_in. intros j Hj. apply in_seq in Hj.
  set (padf := fun rows : list (list Z) => rows ++ repeat (repeat 0 n) (4 - m)).
  set (outs := map2 _ vec _).
  assert (Lo : length outs = b) by (unfold outs; rewrite map2_length, map_length; lia).
  assert (Hpad : forall i, (i < b)%nat -> rect 4 n (padf (nth i mat []))).
  { intros i Hi. pose proof (cube_nth b m n mat i (conj Lm Fm) Hi) as [Ra Rb]. unfold padf. split.
    - rewrite app_length, repeat_length. lia.
    - apply Forall_app. split; [assumption|]. apply Forall_forall. intros x Hx. apply repeat_spec in Hx. subst x. apply repeat_length. }
  assert (Hts : forall i, (i < b)%nat -> rect n n (toeplitz_signed (nth i vec []))).
  { intros i Hi. pose proof (rect_nth b n vec i (conj Lv Fv) Hi) as Li. split.
    - rewrite toeplitz_signed_length by (rewrite Li; assumption). assumption.
    - rewrite <- Li. apply toeplitz_signed_width. }
  assert (Ho : forall i, (i < b)%nat -> nth i outs [] = i32_matmul_unreduced_cggi (padf (nth i mat []) ++ padf (nth i mat [])) (toeplitz_signed (nth i vec []))).
  { intros i Hi. unfold outs. rewrite (nth_map2 _ _ _ _ [] []) by (rewrite ?map_length; lia).
    rewrite (nth_map_lt _ _ _ _ []) by lia. reflexivity. }
  assert (Hrow : forall i, (i < b)%nat -> length (nth j (nth i outs []) []) = n).
  { intros i Hi. rewrite Ho by assumption. apply (rect_nth 4 n); [|lia]. apply cggi_matmul_shape.
    - rewrite app_length. destruct (Hpad i Hi) as [-> _]. lia.
    - apply (rect_nth n n _ 0 (Hts i Hi)). lia. }
  assert (FL : Forall (fun a => length a = n) (map (fun o => nth j o []) outs)).
  { apply Forall_map, Forall_forall. intros o Hin. apply (In_nth _ _ []) in Hin. destruct Hin as (i & Hi & <-). apply Hrow. lia. }
  apply (list_eq_nth 0).
  - rewrite vsum_length by assumption. rewrite map_length, seq_length. reflexivity.
  - intros k Hk. rewrite vsum_length in Hk by assumption. rewrite nth_map_seq by assumption. change (2 ^ 32) with W32.
    apply (eqm_small W32).
    + pose proof (vsum_words n (map (fun o => nth j o []) outs)) as W. rewrite Forall_forall in W. apply W, nth_In.
      rewrite vsum_length by assumption. assumption.
    + apply Z.mod_pos_bound. lia.
    + rewrite eqm_mod. rewrite vsum_nth by assumption. rewrite lsum_nth, !map_length, Lo, Lv.
      apply eqm_zsum. intros i Hi. rewrite (nth_map_lt _ _ _ _ []) by (rewrite map_length; lia).
      rewrite (nth_map_lt _ _ _ _ []) by lia. rewrite Ho by assumption.
      pose proof (rect_nth b n vec i (conj Lv Fv) Hi) as Li.
      rewrite (cggi_matmul_nth _ _ 4 n D) ; try assumption; try lia.
      2:{ apply Hpad; assumption. }
      2:{ apply Hts; assumption. }
      2:{ apply toeplitz_signed_small; [rewrite Li; assumption|lia|]. rewrite Forall_forall in FD. apply FD, nth_In. lia. }
      rewrite nega_coeff_comm by assumption. unfold coeff. rewrite <- Li. rewrite nega_tz by (rewrite Li; assumption).
      apply eqm_zsum. intros t Ht. rewrite toeplitz_signed_nth by (rewrite Li in *; assumption).
      unfold padf. rewrite app_nth1; [reflexivity|].
      pose proof (cube_nth b m n mat i (conj Lm Fm) Hi) as [Ra _]. lia.
Qed.

Lemma vecmat_spec tpu lb b m n D vec mat : (0 < b)%nat -> (0 < n)%nat -> rect b n vec -> cube b m n mat ->
  (0 < m <= 4)%nat -> 0 <= D < 256 -> Forall (Forall (fun v => Z.abs (s32 v) <= D)) vec ->
  Z.of_nat n * (255 * D) < 2 ^ 24 ->
  negacyclic_vector_matrix_polymul tpu vec mat lb = Some (nega_vecmat n m vec mat).
Proof.
  intros Hb Hn Hv Hm Hm4 HD FD HB. unfold negacyclic_vector_matrix_polymul.
  rewrite (rect_nth b n vec 0 Hv Hb).
  rewrite (rect_nth m n _ 0 (cube_nth b m n mat 0 Hm Hb)) by lia. rewrite Nat.eqb_refl. cbn [negb].
  destruct ((n mod 128 =? 0)%nat && (5 <=? tpu) && (lb <? 8)) eqn:E.
  - apply andb_prop in E. destruct E as [E _]. apply andb_prop in E. destruct E as [E _]. apply Nat.eqb_eq in E.
    apply (decomposed_spec b m n D); assumption.
  - f_equal. apply (fallback_spec tpu b m n); assumption.
Qed.

(** without the float kernel no bound on the digits is needed *)
Lemma vecmat_spec_fallback tpu lb b m n vec mat : (0 < b)%nat -> (0 < m)%nat -> rect b n vec -> cube b m n mat ->
  ((n mod 128 <> 0)%nat \/ tpu < 5 \/ 8 <= lb) ->
  negacyclic_vector_matrix_polymul tpu vec mat lb = Some (nega_vecmat n m vec mat).
Proof.
  intros Hb Hm0 Hv Hm Hc. unfold negacyclic_vector_matrix_polymul.
  rewrite (rect_nth b n vec 0 Hv Hb).
  rewrite (rect_nth m n _ 0 (cube_nth b m n mat 0 Hm Hb)) by lia. rewrite Nat.eqb_refl. cbn [negb].
  replace ((n mod 128 =? 0)%nat && (5 <=? tpu) && (lb <? 8)) with false.
  - f_equal. apply (fallback_spec tpu b m n); assumption.
  - symmetry. destruct (Nat.eqb_spec (n mod 128) 0); [|reflexivity]. cbn [andb].
    destruct (Z.leb_spec 5 tpu); [|reflexivity]. cbn [andb]. apply Z.ltb_ge. lia.
Qed.

(** *** the byte-Toeplitz path *)
Lemma bat_word_entry x p q : (p < 4)%nat -> (q < 4)%nat ->
  nth q (nth p (bat_compile_word x) []) 0 = if (q <=? p)%nat then byte_of x (p - q) else 0.
Proof.
  intros Hp Hq. unfold bat_compile_word. rewrite nth_map_seq by assumption. rewrite nth_map_seq by assumption.
  destruct (Nat.leb_spec q p); [|reflexivity]. f_equal.
  replace (p + 4 - q)%nat with (p - q + 1 * 4)%nat by lia. rewrite Nat.mod_add by lia. apply Nat.mod_small. lia.
Qed.

Lemma bat_mul x y :
  zsum 4 (fun p => zsum 4 (fun q => nth q (nth p (bat_compile_word x) []) 0 * byte_of y q) * 256 ^ Z.of_nat p) == x * y [mod W32].
Proof.
  rewrite <- (bytes_eqm x), <- (bytes_eqm y).
  rewrite (zsum_ext 4 _ (fun p => zsum 4 (fun q => (if (q <=? p)%nat then byte_of x (p - q) else 0) * byte_of y q) * 256 ^ Z.of_nat p)).
  2:{ intros p Hp. f_equal. apply zsum_ext. intros q Hq. rewrite bat_word_entry by assumption. reflexivity. }
  generalize (byte_of x) (byte_of y). intros u v. apply eqm_ex.
  exists (- (u 1%nat * v 3%nat + u 2%nat * v 2%nat + u 3%nat * v 1%nat + 256 * (u 2%nat * v 3%nat + u 3%nat * v 2%nat) + 65536 * (u 3%nat * v 3%nat))).
  cbn [zsum Nat.leb Nat.sub].
  change (256 ^ Z.of_nat 0) with 1. change (256 ^ Z.of_nat 1) with 256. change (256 ^ Z.of_nat 2) with 65536. change (256 ^ Z.of_nat 3) with 16777216.
  ring.
Qed.

Lemma bat_matmul_nth mat Ts c m n k mi ki : rect c m mat ->
  length mat = length Ts -> (mi < m)%nat -> (ki < k)%nat ->
  (forall i, (i < c)%nat -> length (nth mi (nth i mat []) []) = n) -> (forall i, (i < c)%nat -> length (nth i Ts []) = n) ->
  nth ki (nth mi (bat_matmul (bat_offline_compile_cggi mat) Ts m k) []) 0 ==
  zsum c (fun i => zsum n (fun t => nth t (nth mi (nth i mat []) []) 0 * nth ki (nth t (nth i Ts []) []) 0)) [mod W32].
Proof.
  intros [Lm Fm] HL Hmi Hki Hn HT. unfold bat_matmul. rewrite nth_map_seq by assumption. rewrite nth_map_seq by assumption.
  rewrite u32_eqm. unfold bat_offline_compile_cggi.
  rewrite (lsum_map2 _ _ _ [] []) by (rewrite map_length; assumption). rewrite map_length, Lm.
  apply eqm_zsum. intros i Hi. rewrite lsum_map_seq. rewrite (nth_map_lt _ _ _ _ []) by lia.
  assert (Fi : length (nth i mat []) = m) by (apply (rect_nth c m mat i (conj Lm Fm)); lia).
  rewrite (nth_map_lt _ _ _ _ []) by lia.
  set (w := nth mi (nth i mat []) []). set (T := nth i Ts []).
  transitivity (zsum 4 (fun p => zsum n (fun t => zsum 4 (fun q => nth q (nth p (bat_compile_word (nth t w 0)) []) 0 * byte_of (nth ki (nth t T []) 0) q) * 256 ^ Z.of_nat p))).
  - apply eqm_zsum. intros p Hp. rewrite shl32_bytes by lia. rewrite u32_eqm.
    rewrite (lsum_map2 _ _ _ (bat_compile_word 0) []) by (rewrite map_length; unfold w, T; rewrite Hn, HT by assumption; reflexivity).
    rewrite map_length. unfold w at 1. rewrite Hn by assumption. rewrite <- zsum_mul_r. apply eqm_eq. apply zsum_ext. intros t Ht.
    f_equal. rewrite lsum_map_seq. apply zsum_ext. intros q Hq. rewrite map_nth. reflexivity.
  - rewrite (zsum_swap 4 n). apply eqm_zsum. intros t Ht. apply bat_mul.
Qed.

Lemma word_of_column0 x : word_of_bytes (map (fun r => nth 0 r 0) (bat_compile_word x)) = u32 x.
Proof.
  rewrite <- bytes_sum. unfold bat_compile_word. cbn. ring.
Qed.

Lemma bat_original mat : map (map (map (fun e => word_of_bytes (map (fun r => nth 0 r 0) e)))) (bat_offline_compile_cggi mat)
  = map (map (map u32)) mat.
Proof.
  unfold bat_offline_compile_cggi. rewrite map_map. apply map_ext. intros a. rewrite map_map. apply map_ext. intros b.
  rewrite map_map. apply map_ext. intros x. apply word_of_column0.
Qed.

Lemma map_id_Forall {A} (f : A -> A) l (Q : A -> Prop) : (forall x, Q x -> f x = x) -> Forall Q l -> map f l = l.
Proof. intros H. induction 1 as [|x l Hx Hl IH]; cbn; [reflexivity|]. rewrite H, IH by assumption. reflexivity. Qed.

Lemma bat_spec tpu b m n vec mat : (0 < b)%nat -> (0 < n)%nat -> (0 < m)%nat -> rect b n vec -> cube b m n mat ->
  Forall (Forall (Forall word32)) mat ->
  ((n mod 128 = 0)%nat -> 5 <= tpu -> b = 18%nat) ->
  negacyclic_vector_matrix_polymul_bat tpu vec (bat_offline_compile_cggi mat) = Some (nega_vecmat n m vec mat).
Proof.
  intros Hb Hn Hm0 Hv Hm Hw H18. unfold negacyclic_vector_matrix_polymul_bat.
  rewrite (rect_nth b n vec 0 Hv Hb).
  pose proof (cube_nth b m n mat 0 Hm Hb) as R0. assert (E0 : length (nth 0 mat []) = m) by apply R0.
  assert (E1 : nth 0 (bat_offline_compile_cggi mat) [] = map (map bat_compile_word) (nth 0 mat [])).
  { unfold bat_offline_compile_cggi. rewrite (nth_map_lt _ _ _ _ []) by (destruct Hm; lia). reflexivity. }
  assert (E2 : length (nth 0 (nth 0 (bat_offline_compile_cggi mat) []) []) = n).
  { rewrite E1. rewrite (nth_map_lt _ _ _ _ []) by lia. rewrite map_length. apply (rect_nth m n _ 0 R0). lia. }
  rewrite E2, Nat.eqb_refl. cbn [negb].
  destruct ((n mod 128 =? 0)%nat && (5 <=? tpu)) eqn:E.
  - apply andb_prop in E. destruct E as [Ea Eb]. apply Nat.eqb_eq in Ea. apply Z.leb_le in Eb.
    specialize (H18 Ea Eb). destruct Hv as [Lv Fv]. destruct Hm as [Lm Fm].
    unfold bat_offline_compile_cggi at 1. rewrite map_length. rewrite Lv, Lm, Nat.eqb_refl. cbn [negb].
    rewrite H18, Nat.eqb_refl. cbn [negb]. f_equal. rewrite E1, map_length, E0.
    assert (Hvi : forall i, (i < b)%nat -> length (nth i vec []) = n) by (intros; apply (rect_nth b n vec); [split; assumption|assumption]).
    apply (list_eq_nth []).
    + unfold bat_matmul, nega_vecmat. rewrite !map_length, !seq_length. reflexivity.
    + intros j Hj. unfold bat_matmul in Hj. rewrite map_length, seq_length in Hj.
      apply (list_eq_nth 0).
      * unfold bat_matmul, nega_vecmat. rewrite !nth_map_seq by assumption. rewrite !map_length, !seq_length. reflexivity.
      * intros k Hk. assert (Hk' : (k < n)%nat).
        { revert Hk. unfold bat_matmul. rewrite nth_map_seq by assumption. rewrite map_length, seq_length. auto. }
        apply (eqm_small W32).
        -- unfold bat_matmul. rewrite nth_map_seq by assumption. rewrite nth_map_seq by assumption. apply u32_word.
        -- unfold nega_vecmat. rewrite nth_map_seq by assumption. rewrite nth_map_seq by assumption.
           change (2 ^ 32) with W32. apply Z.mod_pos_bound. lia.
        -- rewrite (bat_matmul_nth mat _ b m n n); try assumption.
           ++ unfold nega_vecmat. rewrite nth_map_seq by assumption. rewrite nth_map_seq by assumption.
              change (2 ^ 32) with W32. rewrite eqm_mod, Lv. apply eqm_zsum. intros i Hi.
              rewrite nega_coeff_comm by assumption. unfold coeff. pose proof (Hvi i Hi) as Li.
              rewrite <- Li. rewrite nega_tz by (rewrite Li; assumption). apply eqm_zsum. intros t Ht.
              rewrite (nth_map_lt _ _ _ _ []) by lia.
              rewrite toeplitz_signed_nth by (rewrite Li in *; assumption). reflexivity.
           ++ split; [assumption|]. eapply Forall_impl; [|exact Fm]. intros a [Ha _]. assumption.
           ++ rewrite map_length. lia.
           ++ intros i Hi. apply (rect_nth m n); [|assumption]. apply (cube_nth b m n mat i); [split; assumption|assumption].
           ++ intros i Hi. rewrite (nth_map_lt _ _ _ _ []) by lia. rewrite toeplitz_signed_length by (rewrite Hvi; assumption).
              apply Hvi. assumption.
  - f_equal. rewrite bat_original.
    assert (Eid : map (map (map u32)) mat = mat).
    { apply (map_id_Forall _ _ (Forall (Forall word32))); [|assumption]. intros a Ha.
      apply (map_id_Forall _ _ (Forall word32)); [|assumption]. intros x Hx.
      apply (map_id_Forall _ _ word32); [|assumption]. apply u32_id. }
    rewrite Eid. apply (fallback_spec tpu b m n); assumption.
Qed.

(** *** i32_matmul *)
Lemma i32_rows (lhs : list (list Z)) m p r : length lhs = m -> (p < 4)%nat -> (r < m)%nat ->
  nth (p * m + r) (flat_map (fun p => map (map (fun x => byte_of x p)) lhs) (seq 0 4)) [] = map (fun x => byte_of x p) (nth r lhs []).
Proof.
  intros Hl Hp Hr.
  assert (G : forall k a, (p < k)%nat -> nth (p * m + r) (flat_map (fun p => map (map (fun x => byte_of x p)) lhs) (seq a k)) [] = map (fun x => byte_of x (a + p)) (nth r lhs [])).
  { clear Hp. induction p as [|p IH]; intros k a Hk; (destruct k as [|k]; [lia|]); cbn [seq flat_map].
    - rewrite app_nth1 by (rewrite map_length; lia). cbn [Nat.mul Nat.add]. rewrite (nth_map_lt _ _ _ _ []) by lia.
      rewrite Nat.add_0_r. reflexivity.
    - rewrite app_nth2 by (rewrite map_length; lia). rewrite map_length, Hl.
      replace (S p * m + r - m)%nat with (p * m + r)%nat by lia. rewrite IH by lia. apply map_ext. intros x. f_equal. lia. }
  rewrite G by assumption. reflexivity.
Qed.

Lemma i32_matmul_spec lhs rhs m k n : rect m k lhs -> rect k n rhs -> (0 < k)%nat -> Z.of_nat k * (255 * 255) < 2 ^ 24 ->
  i32_matmul lhs rhs =
  map (fun r => map (fun c => zsum k (fun i => nth i (nth r lhs []) 0 * nth c (nth i rhs []) 0) mod 2 ^ 32) (seq 0 n)) (seq 0 m).
Proof.
  intros Hl Hr Hk HB. unfold i32_matmul. rewrite (rect_nth k n rhs 0 Hr Hk). assert (Ll : length lhs = m) by apply Hl. rewrite Ll.
  apply map_ext_in. intros r Hin. apply in_seq in Hin. apply map_ext_in. intros c Hc. apply in_seq in Hc.
  change (2 ^ 32) with W32. apply eqm_mod_iff; [lia|]. rewrite lsum_map_seq.
  set (ROWS := flat_map _ (seq 0 4)).
  assert (LR : length ROWS = (4 * m)%nat).
  { unfold ROWS. cbn [seq flat_map]. rewrite !app_length, !map_length. cbn [length]. lia. }
  assert (Lr : length (nth r lhs []) = k) by (apply (rect_nth m k lhs r Hl); lia).
  transitivity (zsum 4 (fun p => zsum 4 (fun q => zsum k (fun i => byte_of (nth i (nth r lhs []) 0) p * 256 ^ Z.of_nat p * (byte_of (nth c (nth i rhs []) 0) q * 256 ^ Z.of_nat q))))).
  - apply eqm_zsum. intros p Hp.
    rewrite (nth_map2 _ _ _ _ O []) by (rewrite ?seq_length, LR; nia).
    rewrite nth_map_seq by lia. rewrite lsum_map_seq. rewrite seq_nth by (rewrite LR; nia).
    apply eqm_zsum. intros q Hq. cbn [Nat.add].
    replace ((p * m + r) / m)%nat with p by (apply Nat.div_unique with r; lia).
    replace (8 * Z.of_nat p + 8 * Z.of_nat q) with (8 * Z.of_nat (p + q)) by lia. rewrite shl32_bytes by lia.
    unfold ROWS. rewrite i32_rows by (assumption || lia).
    rewrite (bf16_dot_exact 255 255); try lia.
    + rewrite dotZ_zsum by (rewrite !map_length; destruct Hr; lia). rewrite map_length, Lr, <- zsum_mul_r.
      apply eqm_eq, zsum_ext. intros i Hi. rewrite (nth_map_lt _ _ _ _ 0) by lia.
      rewrite (nth_map_lt _ _ _ _ []) by (destruct Hr; lia). rewrite Nat2Z.inj_add, Z.pow_add_r by lia. ring.
    + apply Forall_map, Forall_forall. intros x _. pose proof (byte_range x p). lia.
    + apply Forall_map, Forall_forall. intros x _. pose proof (byte_range (nth c x 0) q). lia.
    + rewrite !map_length. destruct Hr; lia.
    + rewrite map_length, Lr. assumption.
  - transitivity (zsum k (fun i => zsum 4 (fun p => byte_of (nth i (nth r lhs []) 0) p * 256 ^ Z.of_nat p) * zsum 4 (fun q => byte_of (nth c (nth i rhs []) 0) q * 256 ^ Z.of_nat q))).
    + apply eqm_eq.
      rewrite (zsum_ext 4 _ (fun p => zsum k (fun i => zsum 4 (fun q => byte_of (nth i (nth r lhs []) 0) p * 256 ^ Z.of_nat p * (byte_of (nth c (nth i rhs []) 0) q * 256 ^ Z.of_nat q)))))
        by (intros; apply zsum_swap).
      rewrite zsum_swap. apply zsum_ext. intros i _. rewrite <- zsum_mul_r. apply zsum_ext. intros p _.
      rewrite zsum_mul_l. reflexivity.
    + apply eqm_zsum. intros i _. rewrite !bytes_eqm. reflexivity.
Qed.
