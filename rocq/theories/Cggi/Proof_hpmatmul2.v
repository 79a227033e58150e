(** The high-precision matrix products compute the integer product. *)
From Coq Require Import ZArith List Bool Lia Setoid.
From Verif Require Import Base.ZSum Base.Lists Base.Word Base.Modeq Ckks.Model_rns_utils Cggi.Model_matrix_utils Cggi.Proof_matrix_utils Cggi.Model_hpmatmul Cggi.Spec_hpmatmul Cggi.Proof_hpmatmul.
Import ListNotations.
Local Open Scope Z_scope.

Lemma words32_row m n A i : words32 m n A -> (i < m)%nat -> length (nth i A []) = n /\ Forall (fun x => 0 <= x < 2 ^ 32) (nth i A []).
Proof. intros [L F] H. rewrite Forall_forall in F. apply F. apply nth_In. lia. Qed.
Lemma words32_nth m n A i c : words32 m n A -> 0 <= nth c (nth i A []) 0 < 2 ^ 32.
Proof.
  intros [L F]. destruct (Nat.lt_ge_cases i m) as [Hi|Hi]; [| rewrite (nth_overflow A) by lia; destruct c; cbn; lia].
  destruct (words32_row m n A i (conj L F) Hi) as [LR FR]. destruct (Nat.lt_ge_cases c n) as [Hc|Hc]; [| rewrite nth_overflow by lia; lia]. rewrite Forall_forall in FR. apply FR. apply nth_In. lia.
Qed.
Lemma words32_width m n B : words32 m n B -> (0 < m)%nat -> length (nth 0 B []) = n.
Proof. intros W H. apply (words32_row m n B 0 W H). Qed.

Lemma shl_w_bytes w x s : w = 32 \/ w = 64 -> (s <= 6)%nat -> shl_w w x (8 * Z.of_nat s) == x * 256 ^ Z.of_nat s [mod 2 ^ w].
Proof.
  intros Hw Hs. assert (E : 256 ^ Z.of_nat s = 2 ^ (8 * Z.of_nat s)) by (rewrite Z.pow_mul_r by lia; reflexivity). rewrite E. unfold shl_w. destruct (8 * Z.of_nat s <? w) eqn:L; [apply eqm_mod |].
  apply Z.ltb_ge in L. symmetry. apply eqm_ex. exists (x * 2 ^ (8 * Z.of_nat s - w)). replace (2 ^ (8 * Z.of_nat s)) with (2 ^ (8 * Z.of_nat s - w) * 2 ^ w) by (rewrite <- Z.pow_add_r by lia; f_equal; lia). ring.
Qed.
Lemma byte_prod x p y q : 0 <= byte_of x p * byte_of y q <= 255 * 255.
Proof. pose proof (byte_range x p). pose proof (byte_range y q). nia. Qed.
Lemma u32_w w x B : w = 32 \/ (w = 64 /\ B < 2 ^ 32) -> 0 <= x <= B -> u32 x == x [mod 2 ^ w].
Proof. intros [-> | [-> H]] Hx; [exact (u32_eqm x) |]. unfold u32. change W32 with (2 ^ 32). rewrite Z.mod_small by lia. reflexivity. Qed.
Lemma bytes_word x : 0 <= x < 2 ^ 32 -> zsum 4 (fun p => byte_of x p * 256 ^ Z.of_nat p) = x.
Proof. intros H. rewrite bytes_sum. unfold u32. apply Z.mod_small. exact H. Qed.

(** sum over both byte positions = product of the two words *)
Lemma bytes_product n (a b : nat -> Z) : (forall k, 0 <= a k < 2 ^ 32) -> (forall k, 0 <= b k < 2 ^ 32) ->
  zsum 4 (fun p => zsum 4 (fun q => zsum n (fun k => byte_of (a k) p * byte_of (b k) q) * 256 ^ Z.of_nat (p + q))) = zsum n (fun k => a k * b k).
Proof.
  intros Ha Hb. transitivity (zsum 4 (fun p => zsum n (fun k => zsum 4 (fun q => byte_of (a k) p * 256 ^ Z.of_nat p * (byte_of (b k) q * 256 ^ Z.of_nat q))))).
  - apply zsum_ext. intros p _. rewrite zsum_swap. apply zsum_ext. intros q _. rewrite <- zsum_mul_r. apply zsum_ext. intros k _. rewrite Nat2Z.inj_add, Z.pow_add_r by lia. ring.
  - rewrite zsum_swap. apply zsum_ext. intros k _. transitivity (zsum 4 (fun p => byte_of (a k) p * 256 ^ Z.of_nat p) * b k); [| rewrite (bytes_word (a k) (Ha k)); reflexivity]. rewrite <- zsum_mul_r. apply zsum_ext. intros p _. rewrite zsum_mul_l, (bytes_word (b k) (Hb k)). reflexivity.
Qed.

Lemma outer_entry w m n k A B i c : w = 32 \/ w = 64 /\ Z.of_nat n * (255 * 255) < 2 ^ 32 -> words32 m n A -> words32 n k B -> (i < m)%nat ->
  outer_product_entry w (nth i A []) B c = product_entry n A B i c mod 2 ^ w.
Proof.
  intros Hw WA WB Hi. unfold outer_product_entry. assert (P : 0 < 2 ^ w) by (destruct Hw as [-> | [-> _]]; reflexivity). apply eqm_mod_iff; [lia |]. destruct (words32_row m n A i WA Hi) as [LA _]. pose proof (proj1 WB) as LB.
  rewrite lsum_map_seq. unfold product_entry. rewrite <- (bytes_product n (fun k => nth k (nth i A []) 0) (fun k => nth c (nth k B []) 0)); [| intros; apply (words32_nth m n); exact WA | intros; apply (words32_nth n k); exact WB].
  apply eqm_zsum. intros p Hp. rewrite lsum_map_seq. apply eqm_zsum. intros q Hq. rewrite shift_entry by assumption. rewrite shl_w_bytes; [| tauto | lia]. rewrite (lsum_map2 _ _ _ 0 []) by lia. rewrite LA.
  rewrite (u32_w w _ (Z.of_nat n * (255 * 255))); [reflexivity | tauto | apply zsum_bound; intros; apply byte_prod].
Qed.

Lemma conv_byte x y t : (t < 7)%nat -> lsum (map (fun r => padded_byte x (t + r) * byte_of y (3 - r)) (seq 0 4)) = zsum 4 (fun p => zsum 4 (fun q => if (p + q =? t)%nat then byte_of x p * byte_of y q else 0)).
Proof. intros Ht. destruct t as [|[|[|[|[|[|[|t]]]]]]]; [| | | | | | | lia]; cbn [seq map lsum zsum padded_byte Nat.add Nat.sub Nat.leb Nat.ltb andb Nat.eqb]; ring. Qed.
Lemma conv_collect (f : nat -> nat -> Z) : zsum 7 (fun t => zsum 4 (fun p => zsum 4 (fun q => if (p + q =? t)%nat then f p q else 0)) * 256 ^ Z.of_nat t) = zsum 4 (fun p => zsum 4 (fun q => f p q * 256 ^ Z.of_nat (p + q))).
Proof. cbn [zsum Nat.add Nat.eqb]. ring. Qed.
Lemma conv_entry_ok w m n k A B i c : w = 32 \/ w = 64 /\ Z.of_nat n * (4 * (255 * 255)) < 2 ^ 32 -> words32 m n A -> words32 n k B -> (i < m)%nat ->
  conv_entry w (nth i A []) B c = product_entry n A B i c mod 2 ^ w.
Proof.
  intros Hw WA WB Hi. unfold conv_entry. assert (P : 0 < 2 ^ w) by (destruct Hw as [-> | [-> _]]; reflexivity). apply eqm_mod_iff; [lia |]. destruct (words32_row m n A i WA Hi) as [LA _]. pose proof (proj1 WB) as LB.
  rewrite lsum_map_seq. unfold product_entry. rewrite <- (bytes_product n (fun k => nth k (nth i A []) 0) (fun k => nth c (nth k B []) 0)); [| intros; apply (words32_nth m n); exact WA | intros; apply (words32_nth n k); exact WB].
  rewrite <- conv_collect. apply eqm_zsum. intros t Ht. replace (nth t conv_shift_factors 0) with (8 * Z.of_nat t) by (destruct t as [|[|[|[|[|[|[|t]]]]]]]; try lia; reflexivity).
  rewrite shl_w_bytes; [| tauto | lia]. rewrite (lsum_map2 _ _ _ 0 []) by lia. rewrite LA.
  assert (E : zsum n (fun j => lsum (map (fun r => padded_byte (nth j (nth i A []) 0) (t + r) * byte_of (nth c (nth j B []) 0) (3 - r)) (seq 0 4))) = zsum 4 (fun p => zsum 4 (fun q => if (p + q =? t)%nat then zsum n (fun j => byte_of (nth j (nth i A []) 0) p * byte_of (nth c (nth j B []) 0) q) else 0))).
  { transitivity (zsum n (fun j => zsum 4 (fun p => zsum 4 (fun q => if (p + q =? t)%nat then byte_of (nth j (nth i A []) 0) p * byte_of (nth c (nth j B []) 0) q else 0)))); [apply zsum_ext; intros j _; apply conv_byte; exact Ht |].
    rewrite zsum_swap. apply zsum_ext. intros p _. rewrite zsum_swap. apply zsum_ext. intros q _. destruct (p + q =? t)%nat; [reflexivity | apply zsum_0]. }
  rewrite (u32_w w _ (Z.of_nat n * (4 * (255 * 255)))); [rewrite E; reflexivity | tauto |]. apply zsum_bound. intros j _. rewrite lsum_map_seq. refine (zsum_bound 4 _ (255 * 255) _). intros r _. unfold padded_byte. destruct (_ && _); [apply byte_prod | lia].
Qed.

Lemma is_matrix_map m k n A B (g : list Z -> nat -> Z) f : words32 m n A -> words32 n k B -> (0 < n)%nat -> (forall i c, (i < m)%nat -> (c < k)%nat -> g (nth i A []) c = f i c) ->
  is_matrix m k f (map (fun row => map (g row) (seq 0 (length (nth 0 B [])))) A).
Proof.
  intros WA WB Hn H. rewrite (words32_width n k B WB Hn). destruct WA as [LA _]. split; [rewrite map_length; exact LA |]. intros i Hi. rewrite (nth_map_lt _ A i [] []) by lia. split; [rewrite map_length, seq_length; reflexivity |].
  intros c Hc. rewrite nth_map_seq by exact Hc. apply H; assumption.
Qed.

(** the BAT product *)
Lemma bval4 a b c d : bval [a; b; c; d] = zsum 4 (fun p => nth p [a; b; c; d] 0 * 256 ^ Z.of_nat p).
Proof. cbn [bval zsum nth]. change (256 ^ Z.of_nat 0) with 1. change (256 ^ Z.of_nat 1) with 256. change (256 ^ Z.of_nat 2) with 65536. change (256 ^ Z.of_nat 3) with 16777216. ring. Qed.
Definition bat_ok (q x : Z) (m : list (list Z)) : Prop :=
  (forall p j, 0 <= nth p (nth j m []) 0 < 256) /\ forall j, (j < 4)%nat -> zsum 4 (fun p => nth p (nth j m []) 0 * 256 ^ Z.of_nat p) == x * 256 ^ Z.of_nat j [mod q].
Lemma smul_ok x q : 0 <= x < 2 ^ 32 -> 0 < q -> q <= 2 ^ 32 -> exists m, smul_as_dense_gemv_bat x q = Some m /\ bat_ok q x m /\ length m = 4%nat /\ Forall (fun c => length c = 4%nat /\ byte_list c) m.
Proof.
  intros Hx Q0 Q1. destruct (smul_columns x q Hx Q0 Q1) as (c0 & c1 & c2 & c3 & E & F & V0 & V1 & V2 & V3). exists [c0; c1; c2; c3]. split; [exact E |]. split; [| split; [reflexivity | exact F]].
  assert (X : forall c, In c [c0; c1; c2; c3] -> (forall p, 0 <= nth p c 0 < 256) /\ zsum 4 (fun p => nth p c 0 * 256 ^ Z.of_nat p) = bval c).
  { intros c Hc. rewrite Forall_forall in F. destruct (F c Hc) as [L Bc]. destruct c as [|a [|b [|c [|d [|? ?]]]]]; try discriminate L. split; [| rewrite bval4; reflexivity].
    intros p. destruct (Nat.lt_ge_cases p 4) as [Hp|Hp]; [| rewrite nth_overflow by (cbn [length]; lia); lia]. unfold byte_list in Bc. rewrite Forall_forall in Bc. apply Bc. apply nth_In. exact Hp. }
  split.
  - intros p j. destruct (Nat.lt_ge_cases j 4) as [Hj|Hj]; [| rewrite (nth_overflow [c0; c1; c2; c3]) by (cbn [length]; lia); destruct p; cbn; lia]. apply X. apply nth_In. exact Hj.
  - intros j Hj. rewrite (proj2 (X (nth j [c0; c1; c2; c3] []) (nth_In [c0; c1; c2; c3] [] Hj))). destruct j as [|[|[|[|j]]]]; [| | | | lia]; cbn [nth];
      [rewrite V0; apply eqm_eq; change (256 ^ Z.of_nat 0) with 1; ring | rewrite V1; reflexivity | rewrite V2; reflexivity | rewrite V3; reflexivity].
Qed.

Lemma s32_small x : 0 <= x < 2 ^ 31 -> s32 x = x.
Proof. intros H. unfold s32, u32. change (2 ^ 31) with 2147483648 in H. rewrite Z.mod_small by (change W32 with 4294967296; lia). replace (x <? 2147483648) with true by (symmetry; apply Z.ltb_lt; lia). reflexivity. Qed.
(** a compiled row *)
Lemma compile_row q row : 0 < q -> q <= 2 ^ 32 -> Forall (fun x => 0 <= x < 2 ^ 32) row ->
  exists ms, sequence_opt (map (fun x => smul_as_dense_gemv_bat x q) row) = Some ms /\ length ms = length row /\ forall k, (k < length row)%nat -> bat_ok q (nth k row 0) (nth k ms []).
Proof.
  intros Q0 Q1. induction 1 as [|x row Hx _ (ms & E & L & K)]; [exists []; split; [reflexivity | split; [reflexivity | intros k Hk; cbn in Hk; lia]] |].
  destruct (smul_ok x q Hx Q0 Q1) as (m & Em & Om & _). exists (m :: ms). cbn [map sequence_opt]. rewrite Em, E. split; [reflexivity |]. split; [cbn [length]; lia |]. intros [|k] Hk; [exact Om |]. apply K. cbn [length] in Hk. lia.
Qed.
Lemma compile_ok q n A : 0 < q -> q <= 2 ^ 32 -> Forall (fun row => length row = n /\ Forall (fun x => 0 <= x < 2 ^ 32) row) A ->
  exists C, hpmatmul_offline_compile_bat A q = Some C /\ length C = length A /\ forall i, (i < length A)%nat -> length (nth i C []) = n /\ forall k, (k < n)%nat -> bat_ok q (nth k (nth i A []) 0) (nth k (nth i C []) []).
Proof.
  intros Q0 Q1. unfold hpmatmul_offline_compile_bat. induction 1 as [|row A [LR FR] _ (C & E & L & K)]; [exists []; split; [reflexivity | split; [reflexivity | intros k Hk; cbn in Hk; lia]] |].
  destruct (compile_row q row Q0 Q1 FR) as (ms & Em & Lm & Om). exists (ms :: C). cbn [map sequence_opt]. rewrite Em, E. split; [reflexivity |]. split; [cbn [length]; lia |]. intros [|i] Hi; [cbn [nth]; split; [lia | intros k Hk; apply Om; lia] |]. apply K. cbn [length] in Hi. lia.
Qed.

Lemma bat_dot n q (a b : nat -> Z) (m : nat -> list (list Z)) : (forall k, (k < n)%nat -> bat_ok q (a k) (m k)) -> (forall k, 0 <= b k < 2 ^ 32) ->
  zsum 4 (fun p => zsum n (fun k => zsum 4 (fun j => nth p (nth j (m k) []) 0 * byte_of (b k) j)) * 256 ^ Z.of_nat p) == zsum n (fun k => a k * b k) [mod q].
Proof.
  intros Ha Hb. transitivity (zsum n (fun k => zsum 4 (fun j => zsum 4 (fun p => nth p (nth j (m k) []) 0 * 256 ^ Z.of_nat p) * byte_of (b k) j))).
  - apply eqm_eq. transitivity (zsum 4 (fun p => zsum n (fun k => zsum 4 (fun j => nth p (nth j (m k) []) 0 * 256 ^ Z.of_nat p * byte_of (b k) j)))).
    + apply zsum_ext. intros p _. rewrite <- zsum_mul_r. apply zsum_ext. intros k _. rewrite <- zsum_mul_r. apply zsum_ext. intros j _. ring.
    + rewrite zsum_swap. apply zsum_ext. intros k _. rewrite zsum_swap. apply zsum_ext. intros j _. rewrite zsum_mul_r. reflexivity.
  - apply eqm_zsum. intros k Hk. destruct (Ha k Hk) as [_ V]. transitivity (zsum 4 (fun j => a k * 256 ^ Z.of_nat j * byte_of (b k) j)); [apply eqm_zsum; intros j Hj; rewrite (V j Hj); reflexivity |].
    apply eqm_eq. transitivity (a k * zsum 4 (fun j => byte_of (b k) j * 256 ^ Z.of_nat j)); [| rewrite (bytes_word (b k) (Hb k)); reflexivity]. rewrite <- zsum_mul_l. apply zsum_ext. intros j _. ring.
Qed.
Lemma bat_entry n q row ms B c k : length row = n -> words32 n k B -> length ms = n -> (forall j, (j < n)%nat -> bat_ok q (nth j row 0) (nth j ms [])) -> Z.of_nat n * (4 * (255 * 255)) < 2 ^ 31 -> 0 < q ->
  0 <= bat_adapt_entry 64 ms B c < 2 ^ 64 /\ bat_adapt_entry 64 ms B c == zsum n (fun j => nth j row 0 * nth c (nth j B []) 0) [mod q].
Proof.
  intros LR WB LM OK HN Q0. unfold bat_adapt_entry. split; [apply Z.mod_pos_bound; reflexivity |]. pose proof (proj1 WB) as LB.
  rewrite lsum_map_seq. set (S := fun p => zsum n (fun k => zsum 4 (fun j => nth p (nth j (nth k ms []) []) 0 * byte_of (nth c (nth k B []) 0) j))).
  assert (SB : forall p, 0 <= S p < 2 ^ 31).
  { intros p. assert (0 <= S p <= Z.of_nat n * (4 * (255 * 255))); [| lia]. apply zsum_bound. intros i Hi. refine (zsum_bound 4 _ (255 * 255) _). intros j Hj. destruct (OK i Hi) as [R _]. specialize (R p j). pose proof (byte_range (nth c (nth i B []) 0) j). nia. }
  rewrite (zsum_ext 4 _ (fun p => S p * 256 ^ Z.of_nat p)).
  - rewrite Z.mod_small.
    + apply (bat_dot n q (fun j => nth j row 0) (fun k => nth c (nth k B []) 0) (fun k => nth k ms [])); [exact OK |]. intros; apply (words32_nth n k); exact WB.
    + pose proof (SB 0%nat). pose proof (SB 1%nat). pose proof (SB 2%nat). pose proof (SB 3%nat). cbn [zsum]. change (256 ^ Z.of_nat 0) with 1. change (256 ^ Z.of_nat 1) with 256. change (256 ^ Z.of_nat 2) with 65536. change (256 ^ Z.of_nat 3) with 16777216. change (2 ^ 64) with 18446744073709551616. change (2 ^ 31) with 2147483648 in *. lia.
  - intros p Hp. rewrite (lsum_map2 _ _ _ [] []) by lia. rewrite LM.
    replace (zsum n (fun i => lsum (map (fun q0 => nth p (nth q0 (nth i ms []) []) 0 * byte_of (nth c (nth i B []) 0) q0) (seq 0 4)))) with (S p) by (apply zsum_ext; intros i _; rewrite lsum_map_seq; reflexivity).
    rewrite s32_small by (specialize (SB p); lia). specialize (SB p). unfold shl_w. replace (Z.of_nat (8 * p) <? 64) with true by (symmetry; apply Z.ltb_lt; lia).
    assert (X : 256 ^ Z.of_nat p <= 16777216 /\ 2 ^ Z.of_nat (8 * p) = 256 ^ Z.of_nat p /\ 0 < 256 ^ Z.of_nat p) by (destruct p as [|[|[|[|p]]]]; [| | | | lia]; repeat split; cbn; lia). destruct X as (X1 & X2 & X3). rewrite X2.
    change (2 ^ 31) with 2147483648 in SB. change (2 ^ 64) with 18446744073709551616. rewrite (Z.mod_small (S p)) by lia. apply Z.mod_small. nia.
Qed.
