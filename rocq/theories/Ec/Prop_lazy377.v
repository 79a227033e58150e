(** C46: lazy modular multiplication is closed and congruent.
    [row a i] is the i-th integer of the batch a; [chunked n a] says that a is a non-empty batch of n-chunk numbers. *)
From Coq Require Import ZArith List Bool Lia.
From Verif Require Import Base.ZSum Base.Word Base.Bits Base.Lists Base.Modeq.
From Verif Require Import Ckks.Model_rns_utils Ckks.Prop_crt Ec.Model_util Ec.Model_field Ec.Spec_chunks Ec.Proof_chunks Ec.Proof_carry Ec.Proof_arith Ec.Proof_mulchunks.
Import ListNotations.
Local Open Scope Z_scope.

(** what the reduction matrix must be: row i holds the n bytes of 256^(n+i) mod p *)
Definition lazy_matrix (p : Z) (n : nat) (mat : list (list Z)) : Prop :=
  length mat = (n + 4)%nat /\ forall i, (i < n + 4)%nat -> digits 8 n (nth i mat []) /\ chunk_value 8 (nth i mat []) = 256 ^ Z.of_nat (n + i) mod p.

Theorem C46_construct_lazy_matrix : forall p n, 0 < p <= 2 ^ (8 * Z.of_nat n) -> exists mat, construct_lazy_matrix p 8 n = Some mat /\ lazy_matrix p n mat.
Proof.
  intros p n Hp. unfold construct_lazy_matrix. set (f := fun i => int_to_array _ 8 16 (Some n)).
  assert (F : forall i, exists l, f i = Some l /\ digits 8 n l /\ chunk_value 8 l = 256 ^ Z.of_nat (n + i) mod p). { intros i. apply int_to_array_ok; [lia |]. pose proof (Z.mod_pos_bound (256 ^ Z.of_nat (n + i)) p ltac:(lia)). lia. }
  assert (G : forall k s, exists mat, sequence_opt (map f (seq s k)) = Some mat /\ length mat = k /\ forall i, (i < k)%nat -> f (s + i)%nat = Some (nth i mat [])).
  { induction k as [|k IH]; intros s; [exists []; repeat split; intros; lia |]. destruct (IH (S s)) as (mat & E & L & H). destruct (F s) as (l & El & _). exists (l :: mat). cbn [seq map sequence_opt]. rewrite El, E. split; [reflexivity |]. split; [cbn; congruence |].
    intros [|i] Hi; [rewrite Nat.add_0_r; exact El |]. cbn [nth]. rewrite <- (H i) by lia. f_equal. lia. }
  destruct (G (n + 4)%nat 0%nat) as (mat & E & L & H). exists mat. split; [exact E |]. split; [exact L |]. intros i Hi. destruct (F i) as (l & El & D & V). specialize (H i Hi). cbn [Nat.add] in H. rewrite El in H. injection H as <-. split; assumption.
Qed.
Print Assumptions C46_construct_lazy_matrix.

(** the matrix-vector product: exact, congruent, small *)
Lemma vecmat_ok p n mat v : (n <= 64)%nat -> 0 < p <= 2 ^ (8 * Z.of_nat n) -> lazy_matrix p n mat -> digits 8 (n + 4) v ->
  length (vecmat32 v mat n) = n /\ Forall (fun x => 0 <= x < 2 ^ 23 - 2 ^ 8) (vecmat32 v mat n) /\
  (chunk_value 8 (vecmat32 v mat n) == chunk_value 8 v * 2 ^ (8 * Z.of_nat n) [mod p]) /\ 0 <= chunk_value 8 (vecmat32 v mat n) <= 255 * Z.of_nat (n + 4) * p.
Proof.
  intros Hn Hp [Lm Hm] [Lv Fv].
  assert (Dv : forall i, 0 <= nth i v 0 <= 255). { intros i. destruct (Nat.lt_ge_cases i (length v)); [| rewrite nth_overflow by assumption; lia]. rewrite Forall_forall in Fv. specialize (Fv _ (nth_In v 0 H)). change (2 ^ 8) with 256 in Fv. lia. }
  assert (Dm : forall i j, (i < n + 4)%nat -> 0 <= nth j (nth i mat []) 0 <= 255). { intros i j Hi. destruct (Hm i Hi) as [[L F] _]. destruct (Nat.lt_ge_cases j (length (nth i mat []))); [| rewrite nth_overflow by assumption; lia]. rewrite Forall_forall in F. specialize (F _ (nth_In _ 0 H)). change (2 ^ 8) with 256 in F. lia. }
  assert (E : vecmat32 v mat n = map (fun j => zsum (n + 4) (fun i => nth i v 0 * nth j (nth i mat []) 0)) (seq 0 n) /\ forall j, 0 <= zsum (n + 4) (fun i => nth i v 0 * nth j (nth i mat []) 0) <= 68 * 65025).
  { assert (B : forall j, 0 <= zsum (n + 4) (fun i => nth i v 0 * nth j (nth i mat []) 0) <= 68 * 65025).
    { intros j. split; [apply zsum_nonneg; intros i Hi; specialize (Dv i); specialize (Dm i j Hi); nia |]. apply Z.le_trans with (zsum (n + 4) (fun _ => 65025)); [apply zsum_le; intros i Hi; specialize (Dv i); specialize (Dm i j Hi); nia |]. rewrite zsum_const. lia. }
    split; [| exact B]. unfold vecmat32. apply map_ext. intros j. rewrite dotZ_zsum by (rewrite map_length; lia). rewrite Lv.
    rewrite (zsum_ext _ _ (fun i => nth i v 0 * nth j (nth i mat []) 0)). 2: { intros i Hi. f_equal. rewrite (nth_map_lt (fun r => nth j r 0) mat i 0 []) by lia. reflexivity. }
    unfold u32. apply Z.mod_small. specialize (B j). lia. }
  destruct E as [E B]. assert (L : length (vecmat32 v mat n) = n) by (rewrite E, map_length, seq_length; reflexivity). split; [exact L |]. split.
  { rewrite E. apply Forall_map. apply Forall_forall. intros j _. specialize (B j). change (2 ^ 23 - 2 ^ 8) with 8388352. lia. }
  assert (V : chunk_value 8 (vecmat32 v mat n) = zsum (n + 4) (fun i => nth i v 0 * (256 ^ Z.of_nat (n + i) mod p))).
  { rewrite value_zsum by lia. rewrite L, E. rewrite (zsum_ext n _ (fun j => zsum (n + 4) (fun i => nth i v 0 * nth j (nth i mat []) 0 * 2 ^ (8 * Z.of_nat j)))). 2: { intros j Hj. rewrite nth_map_seq by exact Hj. rewrite zsum_mul_r. reflexivity. }
    rewrite zsum_swap. apply zsum_ext. intros i Hi. destruct (Hm i Hi) as [[Lr _] Vr]. rewrite <- Vr, value_zsum, Lr by lia. rewrite <- zsum_mul_l. apply zsum_ext. intros j Hj. ring. }
  rewrite V. split.
  - rewrite (value_zsum 8 v) by lia. rewrite Lv, <- zsum_mul_r. apply eqm_zsum. intros i Hi. replace (nth i v 0 * 2 ^ (8 * Z.of_nat i) * 2 ^ (8 * Z.of_nat n)) with (nth i v 0 * 256 ^ Z.of_nat (n + i)).
    + apply eqm_mul_mor; [apply eqm_refl | apply eqm_mod].
    + rewrite Nat2Z.inj_add, Z.pow_add_r by lia. change 256 with (2 ^ 8). rewrite <- !Z.pow_mul_r by lia. ring.
  - assert (B2 : forall i, (i < n + 4)%nat -> 0 <= nth i v 0 * (256 ^ Z.of_nat (n + i) mod p) <= 255 * p). { intros i Hi. specialize (Dv i). pose proof (Z.mod_pos_bound (256 ^ Z.of_nat (n + i)) p ltac:(lia)). nia. }
    split; [apply zsum_nonneg; intros i Hi; apply B2; exact Hi |]. apply Z.le_trans with (zsum (n + 4) (fun _ => 255 * p)); [apply zsum_le; intros i Hi; apply B2; exact Hi |]. rewrite zsum_const. lia.
Qed.

(** one reduced row before carrying *)
Lemma lazy_row_ok p mat x : 0 < p <= 2 ^ 384 -> lazy_matrix p 48 mat -> digits 8 100 x ->
  exists q, rechunkify (map2 (fun x y => (x + y) mod 2 ^ 32) (firstn 48 x) (vecmat32 (skipn 48 x) mat 48)) 24 12 = Some q /\
    let r := q ++ [0] in length r = 13%nat /\ Forall (fun v => 0 <= v < 2 ^ (32 + 16)) r /\ fits 32 13 r /\ (chunk_value 32 r == chunk_value 8 x [mod p]) /\ 0 <= chunk_value 32 r < 2 ^ 384 + 13260 * p + 1.
Proof.
  intros Hp HM Dx. pose proof (digits_firstn 8 100 48 x Dx ltac:(lia)) as D1. pose proof (digits_skipn 8 100 48 x Dx) as D2.
  destruct (vecmat_ok p 48 mat (skipn 48 x) ltac:(lia) ltac:(exact Hp) HM D2) as (Lw & Fw & Ew & Bw). set (w := vecmat32 (skipn 48 x) mat 48) in *. set (lo := firstn 48 x) in *.
  assert (E : map2 (fun x y => (x + y) mod 2 ^ 32) lo w = map2 Z.add lo w /\ Forall (fun v => 0 <= v < 2 ^ 23) (map2 Z.add lo w)).
  { destruct D1 as [Ll Fl]. clearbody lo w. clear - Ll Fl Lw Fw. rewrite <- Lw in Ll. clear Lw. revert w Ll Fw. induction Fl as [|u lo Hu Fl IH]; intros [|v w] Ll Fw; try discriminate Ll; [split; [reflexivity | constructor] |]. rewrite Forall_cons_iff in Fw. destruct Fw as [Hv Fw]. cbn [map2]. destruct (IH w ltac:(cbn in Ll; lia) Fw) as [E F].
    change (2 ^ 23 - 2 ^ 8) with 8388352 in Hv. change (2 ^ 8) with 256 in Hu. split; [rewrite E; f_equal; apply Z.mod_small; change (2 ^ 32) with 4294967296; lia | constructor; [change (2 ^ 23) with 8388608; lia | exact F]]. }
  destruct E as [E F]. rewrite E. destruct (rechunkify_ok 12 (map2 Z.add lo w)) as (q & Eq & Lq & Fq & Vq). { rewrite map2_length, (proj1 D1), Lw. reflexivity. } { exact F. }
  exists q. split; [exact Eq |]. cbv zeta. assert (V : chunk_value 32 (q ++ [0]) = chunk_value 8 lo + chunk_value 8 w). { rewrite value_app by lia. cbn [chunk_value]. rewrite Vq, value_map2_add by (rewrite (proj1 D1), Lw; reflexivity). ring. }
  assert (FA : Forall (fun v => 0 <= v < 2 ^ (32 + 16)) (q ++ [0])) by (apply Forall_app; split; [exact Fq | constructor; [lia | constructor]]).
  pose proof (value_bound 8 48 lo ltac:(lia) D1) as Bl. change (8 * Z.of_nat 48) with 384 in *. change (255 * Z.of_nat (48 + 4)) with 13260 in Bw.
  split; [rewrite app_length, Lq; reflexivity |]. split; [exact FA |]. rewrite V. split; [split; [exact FA |]; rewrite V; change (32 * Z.of_nat 13) with 416; assert (13261 * 2 ^ 384 < 2 ^ 416) by reflexivity; lia |]. split; [| lia].
  destruct (value_split 8 100 48 x ltac:(lia) Dx ltac:(lia)) as [S1 S2]. fold lo in S1. change (8 * Z.of_nat 48) with 384 in *. pose proof (Z.div_mod (chunk_value 8 x) (2 ^ 384) ltac:(discriminate)) as DM. rewrite <- S1, <- S2 in DM. rewrite DM.
  rewrite Z.add_comm. apply eqm_add_mor; [| apply eqm_refl]. rewrite Z.mul_comm. exact Ew.
Qed.

Lemma lazy_rows p mat a b : 0 < p <= 2 ^ 384 -> lazy_matrix p 48 mat -> chunked 25 a -> chunked 25 b -> length a = length b ->
  exists c, mod_mul_lazy_2u16 a b mat U8_CHUNK_NUM = Some c /\ length c = length a /\ chunked 25 c /\ forall i, (i < length a)%nat -> (row c i == row a i * row b i [mod p]) /\ row c i < 2 ^ 384 + 13260 * p + 1.
Proof.
  intros Hp HM Ca Cb L. unfold mod_mul_lazy_2u16. change U16_EXT_CHUNK_NUM with 25%nat. destruct (mul_u8_rows 25 a b ltac:(lia) Ca Cb L) as (c & Ec & Lc & Dc & Vc). rewrite Ec. cbn [bind]. change U8_CHUNK_NUM with 48%nat. change (48 / 2)%nat with 24%nat. change (48 / 4)%nat with 12%nat. change (4 * 25)%nat with 100%nat in Dc.
  match goal with |- context [sequence_opt (map ?g c)] => set (f := g) end.
  assert (S : exists r, sequence_opt (map f c) = Some r /\ length r = length c /\ Forall (fun x => length x = 13%nat /\ Forall (fun v => 0 <= v < 2 ^ (32 + 16)) x) r /\ Forall (fits 32 13) r /\
    forall i, (i < length c)%nat -> (chunk_value 32 (nth i r []) == chunk_value 8 (nth i c []) [mod p]) /\ 0 <= chunk_value 32 (nth i r []) < 2 ^ 384 + 13260 * p + 1).
  { clear - Dc Hp HM. induction Dc as [|x c Hx Dc IH]; [exists []; split; [reflexivity |]; split; [reflexivity |]; split; [constructor |]; split; [constructor |]; intros i Hi; cbn [length] in Hi; lia |]. destruct IH as (r & Er & Lr & Fr & Gr & Vr). destruct (lazy_row_ok p mat x Hp HM Hx) as (q & Eq & Lq & Fq & Gq & Vq).
    exists ((q ++ [0]) :: r). cbn [map sequence_opt]. rewrite Er. unfold f at 1. cbv zeta. rewrite skipn_length, (proj1 Hx), (proj1 HM). cbn [Nat.sub Nat.eqb Nat.add negb]. rewrite Eq. cbn [bind]. split; [reflexivity |]. split; [cbn; congruence |]. split; [constructor; [split; assumption | exact Fr] |]. split; [constructor; assumption |].
    intros [|i] Hi; [exact Vq | apply Vr; cbn in Hi; lia]. }
  destruct S as (r & Er & Lr & Fr & Gr & Vr). rewrite Er. cbn [bind].
  destruct (carry_loop_rows 64 32 13 r) as (d & Ed & _ & R); try lia. { destruct r; [destruct c; [destruct a; [destruct Ca; contradiction | discriminate Lc] | discriminate Lr] | discriminate]. } { apply batch_48_64. exact Fr. }
  change U32_MASK with (2 ^ 32 - 1). rewrite Ed. cbn [bind]. eexists. split; [reflexivity |]. apply (Forall2_nth_iff _ _ _ [] []) in R. destruct R as [Ld R]. rewrite map_length. split; [lia |].
  assert (B400 : 2 ^ 384 + 13260 * 2 ^ 384 + 1 < 2 ^ 400) by reflexivity.
  assert (D : forall i, (i < length a)%nat -> let y := firstn 25 (u16_of_u32 (map u32 (nth i d []))) in digits 16 25 y /\ chunk_value 16 y = chunk_value 32 (nth i r [])).
  { intros i Hi. cbv zeta. assert (Hir : (i < length r)%nat) by lia. destruct (R i Hir) as [D V]; [rewrite Forall_forall in Gr; apply Gr; apply nth_In; exact Hir |]. rewrite (map_u32_id 13 _ D). destruct (u16_of_u32_ok 13 _ D) as [D16 V16]. split; [apply (digits_firstn 16 26); [exact D16 | lia] |].
    rewrite (proj1 (value_split 16 26 25 _ ltac:(lia) D16 ltac:(lia))), V16, V. apply Z.mod_small. destruct (Vr i ltac:(lia)) as [_ B]. change (16 * Z.of_nat 25) with 400. lia. }
  split.
  - split; [destruct d; [destruct r; [destruct c; [destruct a; [destruct Ca; contradiction | discriminate Lc] | discriminate Lr] | discriminate Ld] | discriminate] |]. apply Forall_map. apply Forall_forall. intros x Hx. apply (In_nth _ _ []) in Hx. destruct Hx as (i & Hi & <-). apply D. lia.
  - intros i Hi. unfold row at 1 4. assert (Hd : (i < length d)%nat) by lia. rewrite (nth_map_lt _ d i [] [] Hd). destruct (D i Hi) as [_ V]. cbv zeta in V. rewrite V. destruct (Vr i ltac:(lia)) as [E B]. rewrite Vc in E by exact Hi. split; [exact E | lia].
Qed.

(** every pair of 400-bit inputs and every modulus up to 2^384: the result is congruent to the product and fits 25 chunks again *)
Theorem C46_mod_mul_lazy : forall p mat a b, 0 < p <= 2 ^ 384 -> construct_lazy_matrix p 8 U8_CHUNK_NUM = Some mat -> chunked 25 a -> chunked 25 b -> length a = length b ->
  exists c, mod_mul_lazy_2u16 a b mat U8_CHUNK_NUM = Some c /\ length c = length a /\ chunked 25 c /\
    forall i, (i < length a)%nat -> row c i mod p = (row a i * row b i) mod p /\ 0 <= row c i < 2 ^ 398.
Proof.
  intros p mat a b Hp EM Ca Cb L. destruct (C46_construct_lazy_matrix p 48 Hp) as (mat' & EM' & HM). change U8_CHUNK_NUM with 48%nat in EM. rewrite EM in EM'. injection EM' as <-.
  destruct (lazy_rows p mat a b Hp HM Ca Cb L) as (c & Ec & Lc & Cc & Vc). exists c. split; [exact Ec |]. split; [exact Lc |]. split; [exact Cc |]. intros i Hi. destruct (Vc i Hi) as [E B]. split; [apply eqm_mod_iff; [lia | exact E] |].
  pose proof (value_bound 16 25 _ ltac:(lia) (chunked_nth 25 c i Cc ltac:(lia))) as B0. fold (row c i) in B0. assert (2 ^ 384 + 13260 * 2 ^ 384 + 1 < 2 ^ 398) by reflexivity. lia.
Qed.
Print Assumptions C46_mod_mul_lazy.

(** the default 377-bit prime: the result stays below 2^391 *)
Theorem C46_mod_mul_lazy_377 : forall a b, chunked 25 a -> chunked 25 b -> length a = length b ->
  exists c, mod_mul_lazy_377 a b = Some c /\ length c = length a /\ chunked 25 c /\
    forall i, (i < length a)%nat -> row c i mod MODULUS_377_INT = (row a i * row b i) mod MODULUS_377_INT /\ 0 <= row c i < 2 ^ 391.
Proof.
  intros a b Ca Cb L. unfold mod_mul_lazy_377, MODULUS_377_LAZY_MAT. assert (P : 0 < MODULUS_377_INT < 2 ^ 377) by (split; reflexivity). assert (Hp : 0 < MODULUS_377_INT <= 2 ^ 384) by (assert (2 ^ 377 < 2 ^ 384) by reflexivity; lia).
  destruct (C46_construct_lazy_matrix MODULUS_377_INT 48 Hp) as (mat & EM & HM). change U8_CHUNK_NUM with 48%nat. rewrite EM. cbn [bind].
  destruct (lazy_rows _ mat a b Hp HM Ca Cb L) as (c & Ec & Lc & Cc & Vc). exists c. split; [exact Ec |]. split; [exact Lc |]. split; [exact Cc |]. intros i Hi. destruct (Vc i Hi) as [E B]. split; [apply eqm_mod_iff; [lia | exact E] |].
  pose proof (value_bound 16 25 _ ltac:(lia) (chunked_nth 25 c i Cc ltac:(lia))) as B0. fold (row c i) in B0. assert (2 ^ 384 + 13260 * 2 ^ 377 + 1 < 2 ^ 391) by reflexivity. lia.
Qed.
Print Assumptions C46_mod_mul_lazy_377.

(** a chain of products of any length stays correct *)
Fixpoint mul_chain (a : batch) (bs : list batch) : option batch :=
  match bs with [] => Some a | b :: r => do c <- mod_mul_lazy_377 a b; mul_chain c r end.
Theorem C46_chain : forall bs a, chunked 25 a -> Forall (fun b => chunked 25 b /\ length b = length a) bs ->
  exists c, mul_chain a bs = Some c /\ length c = length a /\ chunked 25 c /\
    forall i, (i < length a)%nat -> row c i mod MODULUS_377_INT = fold_left Z.mul (map (fun b => row b i) bs) (row a i) mod MODULUS_377_INT.
Proof.
  induction bs as [|b bs IH]; intros a Ca F; [exists a; repeat split; try apply Ca |]. rewrite Forall_cons_iff in F. destruct F as [[Cb Lb] F]. cbn [mul_chain map fold_left]. destruct (C46_mod_mul_lazy_377 a b Ca Cb (eq_sym Lb)) as (c & Ec & Lc & Cc & Vc). rewrite Ec. cbn [bind].
  destruct (IH c Cc) as (d & Ed & Ld & Cd & Vd); [eapply Forall_impl; [| exact F]; cbn beta; intros x [X1 X2]; split; [exact X1 | lia] |]. exists d. split; [exact Ed |]. split; [lia |]. split; [exact Cd |]. intros i Hi. rewrite Vd by lia.
  assert (P : 0 < MODULUS_377_INT) by reflexivity. assert (G : forall l x y, (x == y [mod MODULUS_377_INT]) -> (fold_left Z.mul l x == fold_left Z.mul l y [mod MODULUS_377_INT])). { induction l as [|z l IHl]; intros x y H; [exact H |]. cbn [fold_left]. apply IHl. apply eqm_mul_mor; [exact H | apply eqm_refl]. }
  apply eqm_mod_iff; [exact P |]. apply G. apply eqm_mod_iff; [exact P |]. apply Vc. exact Hi.
Qed.
Print Assumptions C46_chain.

Definition ext_elem (x : Z) : list Z := chunks_or_nil x 25.
Example C46_example : match mod_mul_lazy_377 [ext_elem (2 ^ 400 - 1); ext_elem 12345] [ext_elem (2 ^ 399 + 77); ext_elem 0] with
  | Some c => (map (fun i => (row c i mod MODULUS_377_INT =? nth i [(2 ^ 400 - 1) * (2 ^ 399 + 77); 0] 0 mod MODULUS_377_INT) && (row c i <? 2 ^ 391)) [0; 1]%nat) | None => [] end = [true; true].
Proof. vm_compute. reflexivity. Qed.
