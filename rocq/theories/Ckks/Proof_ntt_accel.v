From Coq Require Import Arith ArithRing ZArith Znumtheory List Bool Lia Zpow_facts.
From Verif Require Import Base.ZSum Base.Modeq Base.Lists Base.Bitrev Base.Powm Base.Word Base.Fermat Base.Egcd Base.Order.
From Verif Require Import Ckks.Model_rns_utils Ckks.Model_math Ckks.Model_ntt_cpu Ckks.Model_barrett Ckks.Spec_barrett Ckks.Model_scheme Ckks.Model_bat Ckks.Model_ntt Ckks.Spec_ntt Ckks.Spec_poly.
From Verif Require Import Ckks.Proof_barrett Ckks.Proof_bat Ckks.Proof_bitrev Ckks.Proof_math Ckks.Proof_ntt_cpu Ckks.Proof_transform Ckks.Prop_ntt_cpu Ckks.Proof_slots.
Import ListNotations.
Local Open Scope Z_scope.

(** reversing the bits of z*2^b + n *)
Lemma brev_concat a b : forall z n, (z < 2 ^ a)%nat -> (n < 2 ^ b)%nat -> brev (a + b) (z * 2 ^ b + n) = (brev b n * 2 ^ a + brev a z)%nat.
Proof.
  induction b as [|b IH]; intros z n Hz Hn.
  - cbn in Hn. replace n with 0%nat by lia. rewrite Nat.add_0_r. cbn [Nat.pow]. rewrite Nat.mul_1_r, Nat.add_0_r. reflexivity.
  - rewrite Nat.add_succ_r. pose proof (Nat.div_mod n 2 ltac:(lia)) as D. pose proof (Nat.mod_upper_bound n 2 ltac:(lia)) as M.
    set (n' := (n / 2)%nat) in *. set (bit := (n mod 2)%nat) in *.
    assert (Hn' : (n' < 2 ^ b)%nat) by (rewrite Nat.pow_succ_r' in Hn; lia).
    replace (z * 2 ^ S b + n)%nat with (2 * (z * 2 ^ b + n') + bit)%nat by (rewrite Nat.pow_succ_r'; lia).
    rewrite brev_low by exact M. rewrite IH by assumption. rewrite D, brev_low by exact M. rewrite Nat.pow_add_r. ring.
Qed.

(** orthogonality: the sum of x^(2t+1) over all t < 2^L *)
Definition odd_sum (L : nat) (x : Z) : Z := zsum (2 ^ L) (fun j => pw x (2 * brev L j + 1)).
Lemma odd_sum_S L x : odd_sum (S L) x = odd_sum L x * (1 + pw x (2 ^ S L)).
Proof.
  unfold odd_sum. rewrite (Nat.pow_succ_r' 2 L) at 1. rewrite (Nat.mul_comm 2 (2 ^ L)), zsum_block, <- zsum_mul_r. apply zsum_ext. intros j Hj.
  pose proof (brev_low L j 0 ltac:(lia)) as B0. pose proof (brev_low L j 1 ltac:(lia)) as B1. rewrite Nat.add_0_r in B0.
  cbn [zsum]. rewrite Nat.add_0_r, (Nat.mul_comm j 2), B0, B1, Z.add_0_l, Z.mul_add_distr_l, Z.mul_1_r, <- pw_add. f_equal; f_equal; rewrite ?Nat.pow_succ_r'; lia.
Qed.
Lemma odd_sum_zero q L x t : (t < L)%nat -> pw x (2 ^ S t) == -1 [mod q] -> odd_sum L x == 0 [mod q].
Proof.
  intros Ht Hx. induction L as [|L IH]; [lia |]. rewrite odd_sum_S. destruct (Nat.eq_dec t L) as [-> | N].
  - rewrite Hx. apply eqm_eq. ring.
  - rewrite IH by lia. apply eqm_eq. ring.
Qed.
Lemma odd_sum_one q L x : x == 1 [mod q] -> odd_sum L x == 2 ^ Z.of_nat L [mod q].
Proof.
  intros Hx. unfold odd_sum. transitivity (zsum (2 ^ L) (fun _ => 1)).
  - apply eqm_zsum. intros j _. rewrite Hx, pw_one. reflexivity.
  - rewrite zsum_const. apply eqm_eq. rewrite Z.mul_1_r, Nat2Z.inj_pow. reflexivity.
Qed.
Lemma odd_sum_root q L psi d : pw psi (2 ^ L) == -1 [mod q] -> (0 < d < 2 ^ L)%nat -> odd_sum L (pw psi d) == 0 [mod q].
Proof.
  intros R Hd. destruct (split_prime 2 ltac:(lia) d ltac:(lia)) as (e & m & E & ND).
  assert (He : (e < L)%nat).
  { destruct (Nat.lt_ge_cases e L) as [C | C]; [exact C |]. exfalso. apply (Nat.pow_le_mono_r 2) in C; [| lia].
    assert (m <> 0)%nat by (intros ->; apply ND; exists 0%nat; reflexivity). nia. }
  apply (odd_sum_zero q L _ (L - 1 - e)); [lia |]. rewrite <- pw_mul.
  replace (d * 2 ^ S (L - 1 - e))%nat with (2 ^ L * m)%nat.
  - rewrite pw_mul, R. apply pw_neg1_odd. rewrite <- Nat.negb_even. destruct (Nat.even m) eqn:Ev; [| reflexivity].
    exfalso. apply ND. apply Nat.even_spec in Ev. destruct Ev as [k ->]. exists k. lia.
  - replace (2 ^ L)%nat with (2 ^ e * 2 ^ S (L - 1 - e))%nat by (rewrite <- Nat.pow_add_r; f_equal; lia). subst d. ring.
Qed.

(** the inverse of the transform as a sum *)
Lemma inverse_sum q L psi psi' ninv a k : (k < 2 ^ L)%nat -> pw psi (2 ^ L) == -1 [mod q] -> psi * psi' == 1 [mod q] -> ninv * 2 ^ Z.of_nat L == 1 [mod q] ->
  zsum (2 ^ L) (fun j => zsum (2 ^ L) (fun m => a m * pw psi ((2 * brev L j + 1) * m)) * pw psi' (k * (2 * brev L j + 1))) * ninv == a k [mod q].
Proof.
  intros Hk R I HN.
  assert (R' : pw psi' (2 ^ L) == -1 [mod q]).
  { transitivity (-1 * (-1 * pw psi' (2 ^ L))); [apply eqm_eq; ring |]. rewrite <- R at 2. rewrite <- pw_mul_base, I, pw_one. reflexivity. }
  transitivity (zsum (2 ^ L) (fun m => a m * odd_sum L (pw psi m * pw psi' k)) * ninv).
  { apply eqm_eq. f_equal. rewrite (zsum_ext _ _ (fun j => zsum (2 ^ L) (fun m => a m * pw (pw psi m * pw psi' k) (2 * brev L j + 1)))).
    - rewrite zsum_swap. apply zsum_ext. intros m _. unfold odd_sum. rewrite zsum_mul_l. reflexivity.
    - intros j _. rewrite <- zsum_mul_r. apply zsum_ext. intros m _. rewrite (Nat.mul_comm _ m), pw_mul_base, !pw_mul. ring. }
  transitivity (zsum (2 ^ L) (fun m => if Nat.eqb m k then a k * 2 ^ Z.of_nat L else 0) * ninv).
  - apply eqm_mul_mor; [| reflexivity]. apply eqm_zsum. intros m Hm. destruct (Nat.eqb_spec m k) as [-> | N].
    + rewrite odd_sum_one; [reflexivity |]. rewrite <- pw_mul_base, I, pw_one. reflexivity.
    + transitivity (a m * 0); [| apply eqm_eq; ring]. apply eqm_mul_mor; [reflexivity |].
      assert (X : forall x y, x == y [mod q] -> odd_sum L x == odd_sum L y [mod q]) by (intros x y E; apply eqm_zsum; intros j _; rewrite E; reflexivity).
      destruct (Nat.lt_ge_cases m k) as [C | C].
      * rewrite (X _ (pw psi' (k - m))); [apply odd_sum_root; [exact R' | lia] |].
        replace k with (m + (k - m))%nat at 1 by lia. rewrite pw_add, Z.mul_assoc, <- pw_mul_base, I, pw_one. apply eqm_eq. ring.
      * rewrite (X _ (pw psi (m - k))); [apply odd_sum_root; [exact R | lia] |].
        replace m with (k + (m - k))%nat at 1 by lia. rewrite pw_add. rewrite (Z.mul_comm (pw psi k)), <- Z.mul_assoc, <- pw_mul_base, I, pw_one. apply eqm_eq. ring.
  - rewrite (zsum_single _ k); [| exact Hk | intros i _ N; destruct (Nat.eqb_spec i k); [contradiction | reflexivity]].
    rewrite Nat.eqb_refl, <- Z.mul_assoc, (Z.mul_comm (2 ^ _)), HN. apply eqm_eq. ring.
Qed.

(** matrices *)
Lemma mat_length r c f : length (mat r c f) = r.
Proof. unfold mat. rewrite map_length, seq_length. reflexivity. Qed.
Lemma mat_row r c f i : (i < r)%nat -> nth i (mat r c f) [] = map (fun j => f i j) (seq 0 c).
Proof. intros Hi. unfold mat. rewrite nth_map_seq by exact Hi. reflexivity. Qed.
Lemma ent_mat r c f i j : (i < r)%nat -> (j < c)%nat -> ent (mat r c f) i j = f i j.
Proof. intros Hi Hj. unfold ent. rewrite mat_row by exact Hi. rewrite nth_map_seq by exact Hj. reflexivity. Qed.

(** a matrix of [rows] rows and [cols] columns with entries in [0, q) *)
Definition shaped (q : Z) (rows cols : nat) (M : matrix) : Prop :=
  length M = rows /\ (forall i, (i < rows)%nat -> length (nth i M []) = cols) /\ forall i j, (i < rows)%nat -> (j < cols)%nat -> 0 <= ent M i j < q.
Lemma mat_shaped q r c f : (forall i j, (i < r)%nat -> (j < c)%nat -> 0 <= f i j < q) -> shaped q r c (mat r c f).
Proof.
  intros H. split; [apply mat_length |]. split; [intros i Hi; rewrite mat_row by exact Hi; rewrite map_length, seq_length; reflexivity |].
  intros i j Hi Hj. rewrite ent_mat by assumption. apply H; assumption.
Qed.
Lemma powers_range c : forall q w curr, 1 < q -> 0 <= curr < q -> forall i, (i < c)%nat -> 0 <= nth i (powers_list c curr w q) 0 < q.
Proof.
  induction c as [|c IH]; intros q w curr Q Hc i Hi; [lia |]. cbn [powers_list]. destruct i as [|i]; [exact Hc |]. cbn [nth].
  apply IH; [exact Q | apply Z.mod_pos_bound; lia | lia].
Qed.
Lemma twiddle_shaped q r c w : 1 < q -> shaped q r c (gen_twiddle_matrix r c q w) /\
  forall i j, (i < r)%nat -> (j < c)%nat -> ent (gen_twiddle_matrix r c q w) i j == pw w (i * j) [mod q].
Proof.
  intros Q. unfold gen_twiddle_matrix. set (P := powers_list _ _ _ _).
  assert (B : forall i j, (i < r)%nat -> (j < c)%nat -> (i * j < (r - 1) * (c - 1) + 1)%nat) by (intros; nia).
  split.
  - apply mat_shaped. intros i j Hi Hj. apply powers_range; [exact Q | lia | apply B; assumption].
  - intros i j Hi Hj. change (map _ (seq 0 r)) with (mat r c (fun i j => nth (i * j) P 0)). rewrite ent_mat by assumption.
    unfold P. destruct (powers_list_spec ((r - 1) * (c - 1) + 1) q w 1) as [_ N]. rewrite N by (apply B; assumption). apply eqm_eq. ring.
Qed.
Lemma permute_rows_shaped q L c M : shaped q (2 ^ L) c M -> shaped q (2 ^ L) c (permute_rows (get_bit_reverse_perm (2 ^ L)) M) /\
  forall i j, (i < 2 ^ L)%nat -> ent (permute_rows (get_bit_reverse_perm (2 ^ L)) M) i j = ent M (brev L i) j.
Proof.
  intros (A & B & C). rewrite get_bit_reverse_perm_spec. unfold permute_rows. rewrite map_map.
  assert (E : forall i, (i < 2 ^ L)%nat -> nth i (map (fun x => nth (Z.to_nat (Z.of_nat (brev L x))) M []) (seq 0 (2 ^ L))) [] = nth (brev L i) M []).
  { intros i Hi. rewrite nth_map_seq by exact Hi. rewrite Nat2Z.id. reflexivity. }
  split.
  - split; [rewrite map_length, seq_length; reflexivity |]. split; [intros i Hi; rewrite E by exact Hi; apply B, brev_lt |].
    intros i j Hi Hj. unfold ent. rewrite E by exact Hi. apply C; [apply brev_lt | exact Hj].
  - intros i j Hi. unfold ent. rewrite E by exact Hi. reflexivity.
Qed.
Lemma permute_cols_shaped q L r M : shaped q r (2 ^ L) M -> shaped q r (2 ^ L) (permute_cols (get_bit_reverse_perm (2 ^ L)) M) /\
  forall i j, (i < r)%nat -> (j < 2 ^ L)%nat -> ent (permute_cols (get_bit_reverse_perm (2 ^ L)) M) i j = ent M i (brev L j).
Proof.
  intros (A & B & C). rewrite get_bit_reverse_perm_spec. unfold permute_cols, permute.
  assert (E : forall i j, (i < r)%nat -> (j < 2 ^ L)%nat -> ent (map (fun a => map (fun p => nth (Z.to_nat p) a 0) (map (fun i => Z.of_nat (brev L i)) (seq 0 (2 ^ L)))) M) i j = ent M i (brev L j)).
  { intros i j Hi Hj. unfold ent. rewrite (nth_map_lt _ _ _ _ []) by lia. rewrite map_map, nth_map_seq by exact Hj. rewrite Nat2Z.id. reflexivity. }
  split; [| exact E]. split; [rewrite map_length; exact A |]. split.
  - intros i Hi. rewrite (nth_map_lt _ _ _ _ []) by lia. rewrite !map_length, seq_length. reflexivity.
  - intros i j Hi Hj. rewrite E by assumption. apply C; [exact Hi | apply brev_lt].
Qed.
Lemma mulmod_spec q x f : 1 < q < 2 ^ 31 -> 0 <= x < q -> 0 <= f < q -> 0 <= mulmod x f q < q /\ mulmod x f q == x * f [mod q].
Proof.
  intros Q Hx Hf. unfold mulmod, Model_scheme.u64. rewrite (Z.mod_small _ (2 ^ 64)) by nia. split; [apply Z.mod_pos_bound; lia | apply eqm_mod].
Qed.
Lemma powmod_spec q x e : 1 < q -> 0 <= powmod x e q < q /\ powmod x e q == pw x e [mod q].
Proof. intros Q. unfold powmod. rewrite Zpow_mod_pw by lia. split; [apply Z.mod_pos_bound; lia | apply eqm_mod]. Qed.

Section Steps.
  Variable q : Z.
  Hypothesis Q : 1 < q < 2 ^ 31.
  Hypothesis BE : barrett_exact q.
  Let bc := precompute_barrett_constants q.

  Lemma reduce_bat lhs a K : length lhs = K -> length a = K -> 1020 * Z.of_nat K <= q -> Z.of_nat K <= 16512 ->
    Forall (fun x => 0 <= x < 2 ^ 32) lhs -> Forall (fun x => 0 <= x < q) a ->
    modular_reduction (matmul_bat_entry lhs (map (fun x => basis_aligned_entry x q) a)) bc = zsum K (fun k => nth k lhs 0 * nth k a 0) mod q.
  Proof.
    intros L1 L2 HQ HK F1 F2. rewrite matmul_bat_entry_value; [| lia | lia | | lia].
    - rewrite L1. set (V := bat_value _ _ _ _). assert (B : 0 <= V <= Z.of_nat K * (1020 * (q - 1))) by (apply bat_value_bound; lia).
      unfold bc. rewrite BE by nia. apply eqm_mod_iff; [lia |]. unfold V. apply bat_value_congr.
      intros k Hk. rewrite Forall_forall in F1. apply F1, nth_In. lia.
    - eapply Forall_impl; [| exact F2]. cbv beta. intros x Hx. lia.
  Qed.

  Lemma over_rows_value TF r c t v z j : shaped q t r TF -> 1020 * Z.of_nat r <= q -> Z.of_nat r <= 16512 ->
    (forall i, (i < r)%nat -> 0 <= v i j < 2 ^ 32) -> (z < t)%nat -> (j < c)%nat ->
    over_rows (to_bat TF q) bc r c t v z j = zsum r (fun i => v i j * ent TF z i) mod q.
  Proof.
    intros (A & B & C) H1 H2 Hv Hz Hj. unfold over_rows. rewrite ent_mat by assumption. unfold to_bat. rewrite (nth_map_lt _ _ _ _ []) by lia.
    rewrite (reduce_bat _ _ r); try assumption.
    - f_equal. apply zsum_ext. intros i Hi. rewrite nth_map_seq by exact Hi. reflexivity.
    - rewrite map_length, seq_length. reflexivity.
    - apply B. exact Hz.
    - apply Forall_map. apply Forall_forall. intros i Hi. apply in_seq in Hi. apply Hv. lia.
    - apply Forall_forall. intros x Hx. apply (In_nth _ _ 0) in Hx. destruct Hx as (i & Hi & <-). rewrite B in Hi by exact Hz. apply C; assumption.
  Qed.
  Lemma over_columns_value TF r c t v i n : shaped q c t TF -> 1020 * Z.of_nat c <= q -> Z.of_nat c <= 16512 ->
    (forall j, (j < c)%nat -> 0 <= v i j < 2 ^ 32) -> (i < r)%nat -> (n < t)%nat ->
    over_columns (to_bat TF q) bc r c t v i n = zsum c (fun j => v i j * ent TF j n) mod q.
  Proof.
    intros (A & B & C) H1 H2 Hv Hi Hn. unfold over_columns. rewrite ent_mat by assumption.
    replace (map (fun j => nth n (nth j (to_bat TF q) []) []) (seq 0 c)) with (map (fun x => basis_aligned_entry x q) (map (fun j => ent TF j n) (seq 0 c))).
    2:{ rewrite map_map. apply map_ext_in. intros j Hj. apply in_seq in Hj. unfold to_bat. rewrite (nth_map_lt _ _ _ _ []) by lia.
        rewrite (nth_map_lt _ _ _ _ 0) by (rewrite B; lia). reflexivity. }
    rewrite (reduce_bat _ _ c); try assumption.
    - f_equal. apply zsum_ext. intros j Hj. rewrite !nth_map_seq by exact Hj. reflexivity.
    - rewrite map_length, seq_length. reflexivity.
    - rewrite map_length, seq_length. reflexivity.
    - apply Forall_map. apply Forall_forall. intros j Hj. apply in_seq in Hj. apply Hv. lia.
    - apply Forall_map. apply Forall_forall. intros j Hj. apply in_seq in Hj. apply C; lia.
  Qed.
  Lemma twist_value M r c v i j : shaped q r c M -> 0 <= v i j < q -> (i < r)%nat -> (j < c)%nat ->
    twist M bc r c v i j = (v i j * ent M i j) mod q.
  Proof.
    intros (_ & _ & C) Hv Hi Hj. unfold twist. rewrite ent_mat by assumption. specialize (C i j Hi Hj). unfold Model_scheme.u64.
    rewrite (Z.mod_small _ (2 ^ 64)) by nia. unfold bc. apply BE. nia.
  Qed.
  Lemma flatten_nth r c v i j : (i < r)%nat -> (j < c)%nat -> nth (i * c + j) (flatten r c v) 0 = v i j.
  Proof.
    intros Hi Hj. unfold flatten. rewrite (concat_nth_const _ c).
    - fold (ent (mat r c v) i j). apply ent_mat; assumption.
    - apply Forall_forall. intros x Hx. apply in_map_iff in Hx. destruct Hx as (k & <- & _). rewrite map_length, seq_length. reflexivity.
    - exact Hj.
    - rewrite mat_length. exact Hi.
  Qed.
  Lemma flatten_length r c v : length (flatten r c v) = (r * c)%nat.
  Proof.
    unfold flatten. rewrite (concat_length_const _ c), mat_length; [reflexivity |].
    apply Forall_forall. intros x Hx. apply in_map_iff in Hx. destruct Hx as (k & <- & _). rewrite map_length, seq_length. reflexivity.
  Qed.
End Steps.

Section Accel.
  Variables (lr lc : nat) (q : Z).
  Let L := (lr + lc)%nat.
  Let R := (2 ^ lr)%nat.
  Let C := (2 ^ lc)%nat.
  Let N := (2 ^ L)%nat.
  Hypothesis A : cpu_admissible L q.
  Hypothesis Q : 1 < q < 2 ^ 31.
  Hypothesis BE : barrett_exact q.
  Hypothesis HR : 1020 * Z.of_nat R <= q /\ Z.of_nat R <= 16512.
  Hypothesis HC : 1020 * Z.of_nat C <= q /\ Z.of_nat C <= 16512.

  Lemma NRC : N = (R * C)%nat.
  Proof. unfold N, R, C, L. apply Nat.pow_add_r. Qed.

  Lemma index_split k : (k < N)%nat -> exists i j, (i < R)%nat /\ (j < C)%nat /\ k = (i * C + j)%nat.
  Proof.
    intros Hk. rewrite NRC in Hk. assert (C <> 0)%nat by (unfold C; apply pow2_nz). exists (k / C)%nat, (k mod C)%nat.
    split; [apply Nat.div_lt_upper_bound; lia |]. split; [apply Nat.mod_upper_bound; lia |]. rewrite (Nat.div_mod k C) at 1 by lia. lia.
  Qed.

  (** the constants *)
  Lemma accel_constants : exists k tf1 tf2 tf3 itf1 itf2 itf3 psi psi' ninv,
    ntt_precompute q R C = Some k /\ root_of_unity (2 * Z.of_nat N) q = Some psi /\ pw psi N == -1 [mod q] /\ psi * psi' == 1 [mod q] /\ ninv * 2 ^ Z.of_nat L == 1 [mod q] /\
    k = {| nc_ntt1 := to_bat tf1 q; nc_ntt2 := tf2; nc_ntt3 := to_bat tf3 q; nc_intt1 := to_bat itf1 q; nc_intt2 := itf2; nc_intt3 := to_bat itf3 q;
           nc_barrett := precompute_barrett_constants q; nc_r := R; nc_c := C |} /\
    shaped q R R tf1 /\ shaped q R C tf2 /\ shaped q C C tf3 /\ shaped q C C itf1 /\ shaped q R C itf2 /\ shaped q R R itf3 /\
    (forall i j, (i < R)%nat -> (j < R)%nat -> ent tf1 i j == pw psi (2 * C * (brev lr i * j) + C * j) [mod q]) /\
    (forall i j, (i < R)%nat -> (j < C)%nat -> ent tf2 i j == pw psi (2 * (brev lr i * j) + j) [mod q]) /\
    (forall i j, (i < C)%nat -> (j < C)%nat -> ent tf3 i j == pw psi (2 * R * (i * brev lc j)) [mod q]) /\
    (forall i j, (i < C)%nat -> (j < C)%nat -> ent itf1 i j == pw psi' (2 * R * (brev lc i * j)) [mod q]) /\
    (exists cinv rinv, ninv = cinv * rinv /\ (forall i j, (i < R)%nat -> (j < C)%nat -> ent itf2 i j == pw psi' (2 * (brev lr i * j) + j) * cinv [mod q]) /\
    (forall i j, (i < R)%nat -> (j < R)%nat -> ent itf3 i j == pw psi' (2 * C * (i * brev lr j) + C * i) * rinv [mod q])).
  Proof using A Q.
    clear HR HC BE.
    destruct A as (_ & Pq & D & _). destruct (cpu_root L q Pq D) as (psi & psi' & n' & E & B & RT & I & NI). fold N in E, RT.
    apply inverse_some in I; [| lia]. destruct I as [IR I]. apply inverse_some in NI; [| lia]. destruct NI as [_ NI].
    (* inverses of powers of psi exist *)
    assert (INV : forall x y, x * y == 1 [mod q] -> exists z, inverse x q = Some z /\ z == y [mod q]).
    { intros x y H. destruct (inverse_total x q ltac:(lia)) as [z Hz].
      - apply eqm_ex in H. destruct H as [m H]. apply Z.bezout_1_gcd. exists y, (- m). lia.
      - exists z. split; [exact Hz |]. apply inverse_some in Hz; [| lia]. destruct Hz as [_ Hz].
        transitivity (z * (x * y)); [rewrite H; apply eqm_eq; ring |]. rewrite Z.mul_assoc, (Z.mul_comm z), Hz. apply eqm_eq. ring. }
    destruct (powmod_spec q psi 2 ltac:(lia)) as [OB OE]. set (omega := powmod psi 2 q) in *.
    destruct (powmod_spec q omega C ltac:(lia)) as [OCB OCE]. set (omega_col := powmod omega C q) in *.
    destruct (powmod_spec q omega R ltac:(lia)) as [ORB ORE]. set (omega_row := powmod omega R q) in *.
    rewrite OE, <- pw_mul in OCE, ORE.
    destruct (INV omega_col (pw psi' (2 * C))) as (ioc & Eoc & Coc); [rewrite OCE, <- pw_mul_base, I, pw_one; reflexivity |].
    destruct (INV omega_row (pw psi' (2 * R))) as (ior & Eor & Cor); [rewrite ORE, <- pw_mul_base, I, pw_one; reflexivity |].
    destruct (INV omega (pw psi' 2)) as (io & Eo & Co); [rewrite OE, <- pw_mul_base, I, pw_one; reflexivity |].
    destruct (INV psi psi' I) as (ip & Eip & Cip).
    assert (P2 : 2 ^ Z.of_nat L = Z.of_nat R * Z.of_nat C) by (unfold L, R, C; rewrite !Nat2Z.inj_pow, Nat2Z.inj_add, Z.pow_add_r by lia; reflexivity).
    destruct (INV (Z.of_nat C) (Z.of_nat R * n')) as (ci & Eci & Cci); [rewrite Z.mul_assoc, (Z.mul_comm (Z.of_nat C)), <- P2; exact NI |].
    destruct (INV (Z.of_nat R) (Z.of_nat C * n')) as (ri & Eri & Cri); [rewrite Z.mul_assoc, <- P2; exact NI |].
    assert (CI : 0 <= ci < q /\ 0 <= ri < q) by (apply inverse_some in Eci; [| lia]; apply inverse_some in Eri; [| lia]; tauto).
    destruct (twiddle_shaped q R R omega_col ltac:(lia)) as [S1 V1]. destruct (twiddle_shaped q R C omega ltac:(lia)) as [S2 V2]. destruct (twiddle_shaped q C C omega_row ltac:(lia)) as [S3 V3].
    destruct (twiddle_shaped q C C ior ltac:(lia)) as [T1 W1]. destruct (twiddle_shaped q R C io ltac:(lia)) as [T2 W2]. destruct (twiddle_shaped q R R ioc ltac:(lia)) as [T3 W3].
    (* fused matrices *)
    assert (FUSE : forall r c (M : matrix) (f : nat -> nat -> Z), shaped q r c M -> (forall i j, 0 <= f i j < q) ->
      shaped q r c (mat r c (fun i j => mulmod (ent M i j) (f i j) q)) /\
      forall i j, (i < r)%nat -> (j < c)%nat -> ent (mat r c (fun i j => mulmod (ent M i j) (f i j) q)) i j == ent M i j * f i j [mod q]).
    { intros r c M f (_ & _ & SM) Hf. split.
      - apply mat_shaped. intros i j Hi Hj. apply mulmod_spec; [exact Q | apply SM; assumption | apply Hf].
      - intros i j Hi Hj. rewrite ent_mat by assumption. apply mulmod_spec; [exact Q | apply SM; assumption | apply Hf]. }
    assert (PR : forall x e, 0 <= powmod x e q < q) by (intros x e; apply powmod_spec; lia).
    destruct (FUSE R R _ (fun _ j => powmod psi (C * j) q) S1 ltac:(intros; apply PR)) as [S1' V1'].
    destruct (FUSE R C _ (fun _ j => powmod psi j q) S2 ltac:(intros; apply PR)) as [S2' V2'].
    destruct (FUSE R C _ (fun _ j => powmod ip j q) T2 ltac:(intros; apply PR)) as [T2' W2'].
    destruct (FUSE R R _ (fun i _ => powmod ip (C * i) q) T3 ltac:(intros; apply PR)) as [T3' W3'].
    destruct (permute_rows_shaped q lr R _ S1') as [S1'' V1'']. destruct (permute_rows_shaped q lr C _ S2') as [S2'' V2'']. destruct (permute_cols_shaped q lc C _ S3) as [S3'' V3''].
    destruct (permute_rows_shaped q lc C _ T1) as [T1'' W1'']. destruct (permute_rows_shaped q lr C _ T2') as [T2'' W2'']. destruct (permute_cols_shaped q lr R _ T3') as [T3'' W3''].
    destruct (FUSE R C _ (fun _ _ => ci) T2'' ltac:(intros; apply CI)) as [T2F W2F].
    destruct (FUSE R R _ (fun _ _ => ri) T3'' ltac:(intros; apply CI)) as [T3F W3F].
    cbv beta in *.
    eexists. do 6 eexists. exists psi, psi', (ci * ri). split.
    { unfold ntt_precompute. rewrite <- NRC, E. cbv zeta. fold omega omega_col omega_row. rewrite Eoc, Eor. unfold gen_twiddle_matrix_inv. rewrite Eo, Eip, Eci, Eri. reflexivity. }
    split; [exact E |]. split; [exact RT |]. split; [exact I |]. split.
    { rewrite P2. transitivity ((Z.of_nat R * ri) * (Z.of_nat C * ci)); [apply eqm_eq; ring |]. rewrite Cci, Cri. transitivity ((2 ^ Z.of_nat L * n') * (2 ^ Z.of_nat L * n')); [apply eqm_eq; rewrite P2; ring |]. rewrite NI. reflexivity. }
    split; [reflexivity |]. split; [exact S1'' |]. split; [exact S2'' |]. split; [exact S3'' |]. split; [exact T1'' |]. split; [exact T2F |]. split; [exact T3F |].
    split.
    { intros i j Hi Hj. rewrite V1'' by exact Hi. rewrite V1' by (try apply brev_lt; assumption). rewrite V1 by (try apply brev_lt; assumption).
      rewrite (proj2 (powmod_spec q psi (C * j) ltac:(lia))), OCE, <- pw_mul, <- pw_add. reflexivity. }
    split.
    { intros i j Hi Hj. rewrite V2'' by exact Hi. rewrite V2' by (try apply brev_lt; assumption). rewrite V2 by (try apply brev_lt; assumption).
      rewrite (proj2 (powmod_spec q psi j ltac:(lia))), OE, <- pw_mul, <- pw_add. reflexivity. }
    split.
    { intros i j Hi Hj. rewrite V3'' by assumption. rewrite V3 by (try apply brev_lt; assumption). rewrite ORE, <- pw_mul. reflexivity. }
    split.
    { intros i j Hi Hj. rewrite W1'' by assumption. rewrite W1 by (try apply brev_lt; assumption). rewrite Cor, <- pw_mul. reflexivity. }
    exists ci, ri. split; [reflexivity |]. split.
    - intros i j Hi Hj. etransitivity; [apply W2F; assumption |]. rewrite W2'' by exact Hi. rewrite W2' by (try apply brev_lt; assumption). rewrite W2 by (try apply brev_lt; assumption).
      rewrite (proj2 (powmod_spec q ip j ltac:(lia))), Co, Cip, <- pw_mul, <- pw_add. reflexivity.
    - intros i j Hi Hj. etransitivity; [apply W3F; assumption |]. rewrite W3'' by assumption. rewrite W3' by (try apply brev_lt; assumption). rewrite W3 by (try apply brev_lt; assumption).
      rewrite (proj2 (powmod_spec q ip (C * i) ltac:(lia))), Coc, Cip, <- pw_mul, <- pw_add. reflexivity.
  Qed.

  Lemma unflatten_range v i j : length v = N -> Forall (fun x => 0 <= x < 2 ^ 32) v -> (i < R)%nat -> (j < C)%nat -> 0 <= unflatten C v i j < 2 ^ 32.
  Proof. intros Lv F Hi Hj. unfold unflatten. rewrite Forall_forall in F. apply F, nth_In. rewrite Lv, NRC. nia. Qed.

  (** periodicity in the exponent *)
  Lemma pw_period psi e k : pw psi N == -1 [mod q] -> pw psi (e + 2 * N * k) == pw psi e [mod q].
  Proof.
    intros H. rewrite pw_add, pw_mul, (Nat.mul_comm 2 N), pw_mul, H. change (pw (-1) 2) with 1. rewrite pw_one. apply eqm_eq. ring.
  Qed.

  Lemma accel_forward k v : ntt_precompute q R C = Some k -> length v = N -> Forall (fun x => 0 <= x < 2 ^ 32) v -> ntt_accel k v = T L q v.
  Proof.
    intros EK Lv Fv. destruct accel_constants as (k' & tf1 & tf2 & tf3 & itf1 & itf2 & itf3 & psi & psi' & ninv & E & ER & RT & I & HN & EQ & S1 & S2 & S3 & _ & _ & _ & V1 & V2 & V3 & _).
    assert (k' = k) by congruence. subst k' k. clear EK E. unfold ntt_accel. cbn [nc_r nc_c nc_ntt1 nc_ntt2 nc_ntt3 nc_barrett].
    set (r1 := over_rows _ _ _ _ _ _). set (r2 := twist _ _ _ _ _). set (r3 := over_columns _ _ _ _ _ _).
    assert (H1 : forall z j, (z < R)%nat -> (j < C)%nat -> r1 z j = zsum R (fun i => unflatten C v i j * ent tf1 z i) mod q).
    { intros z j Hz Hj. apply over_rows_value; try assumption; try apply HR. intros i Hi. apply unflatten_range; assumption. }
    assert (B1 : forall z j, (z < R)%nat -> (j < C)%nat -> 0 <= r1 z j < q) by (intros z j Hz Hj; rewrite H1 by assumption; apply Z.mod_pos_bound; lia).
    assert (H2 : forall z j, (z < R)%nat -> (j < C)%nat -> r2 z j = (r1 z j * ent tf2 z j) mod q).
    { intros z j Hz Hj. apply twist_value; try assumption. apply B1; assumption. }
    assert (B2 : forall z j, (z < R)%nat -> (j < C)%nat -> 0 <= r2 z j < q) by (intros z j Hz Hj; rewrite H2 by assumption; apply Z.mod_pos_bound; lia).
    assert (H3 : forall z n, (z < R)%nat -> (n < C)%nat -> r3 z n = zsum C (fun j => r2 z j * ent tf3 j n) mod q).
    { intros z n Hz Hn. apply over_columns_value; try assumption; try apply HC. intros j Hj. specialize (B2 z j Hz Hj). lia. }
    assert (EP : psi_of L q = psi) by (unfold psi_of; fold N; rewrite ER; reflexivity).
    apply transform_intro; [lia | rewrite flatten_length, <- NRC; reflexivity |]. intros p Hp.
    destruct (index_split p Hp) as (z & n & Hz & Hn & ->). rewrite flatten_nth by assumption. rewrite H3 by assumption.
    split; [apply Z.mod_pos_bound; lia |]. rewrite eqm_mod. rewrite slot_eval by exact Hp. rewrite EP. unfold L, C. rewrite brev_concat by assumption. fold C L R.
    unfold eval. rewrite Lv, NRC, zsum_block, zsum_swap. apply eqm_zsum. intros j Hj. rewrite H2, eqm_mod, H1, eqm_mod by assumption.
    rewrite <- !zsum_mul_r. apply eqm_zsum. intros i Hi. rewrite V1, V2, V3 by assumption. unfold unflatten.
    rewrite <- !Z.mul_assoc. apply eqm_mul_mor; [reflexivity |]. rewrite <- !pw_add. change (?x ^ Z.of_nat ?y) with (pw x y).
    rewrite <- pw_mul. set (rho := brev lr z). set (nu := brev lc n).
    transitivity (pw psi ((2 * C * (rho * i) + C * i + (2 * (rho * j) + j + 2 * R * (j * nu))) + 2 * N * (nu * i))).
    - symmetry. rewrite pw_period by exact RT. apply eqm_eq. f_equal.
    - apply eqm_eq. f_equal. rewrite NRC. ring.
  Qed.

  Lemma accel_inverse k v : ntt_precompute q R C = Some k -> length v = N -> Forall (fun x => 0 <= x < 2 ^ 32) v ->
    intt_negacyclic_column v q = Some (intt_accel k v).
  Proof.
    intros EK Lv Fv. destruct (C27_forward_inverse L q v A Lv) as (a & EA & La & Ra & EF). rewrite EA. f_equal.
    rewrite (ntt_T L q a A La) in EF. injection EF as EF.
    destruct accel_constants as (k' & tf1 & tf2 & tf3 & itf1 & itf2 & itf3 & psi & psi' & ninv & E & ER & RT & I & HN & EQ & _ & _ & _ & S1 & S2 & S3 & _ & _ & _ & V1 & (cinv & rinv & EN & V2 & V3)).
    assert (k' = k) by congruence. subst k' k. clear EK E. unfold intt_accel. cbn [nc_r nc_c nc_intt1 nc_intt2 nc_intt3 nc_barrett].
    set (r1 := over_columns _ _ _ _ _ _). set (r2 := twist _ _ _ _ _). set (r3 := over_rows _ _ _ _ _ _).
    assert (H1 : forall z n, (z < R)%nat -> (n < C)%nat -> r1 z n = zsum C (fun j => unflatten C v z j * ent itf1 j n) mod q).
    { intros z n Hz Hn. apply over_columns_value; try assumption; try apply HC. intros j Hj. apply unflatten_range; assumption. }
    assert (B1 : forall z j, (z < R)%nat -> (j < C)%nat -> 0 <= r1 z j < q) by (intros z j Hz Hj; rewrite H1 by assumption; apply Z.mod_pos_bound; lia).
    assert (H2 : forall z j, (z < R)%nat -> (j < C)%nat -> r2 z j = (r1 z j * ent itf2 z j) mod q).
    { intros z j Hz Hj. apply twist_value; try assumption. apply B1; assumption. }
    assert (B2 : forall z j, (z < R)%nat -> (j < C)%nat -> 0 <= r2 z j < q) by (intros z j Hz Hj; rewrite H2 by assumption; apply Z.mod_pos_bound; lia).
    assert (H3 : forall l n, (l < R)%nat -> (n < C)%nat -> r3 l n = zsum R (fun z => r2 z n * ent itf3 l z) mod q).
    { intros l n Hl Hn. apply over_rows_value; try assumption; try apply HR. intros z Hz. specialize (B2 z n Hz Hn). lia. }
    assert (EP : psi_of L q = psi) by (unfold psi_of; fold N; rewrite ER; reflexivity).
    assert (RT' : pw psi' N == -1 [mod q]).
    { transitivity (-1 * (-1 * pw psi' N)); [apply eqm_eq; ring |]. rewrite <- RT at 2. rewrite <- pw_mul_base, I, pw_one. reflexivity. }
    apply (list_ext 0); [rewrite flatten_length, <- NRC; exact La |]. intros p Hp. rewrite La in Hp.
    destruct (index_split p Hp) as (l & n & Hl & Hn & EPi). rewrite EPi at 2. rewrite flatten_nth by assumption. rewrite H3 by assumption.
    assert (RP : 0 <= nth p a 0 < q) by (unfold reduced in Ra; rewrite Forall_forall in Ra; apply Ra, nth_In; rewrite La; exact Hp).
    rewrite <- (Z.mod_small (nth p a 0) q RP). apply eqm_mod_iff; [lia |].
    rewrite <- (inverse_sum q L psi psi' ninv (fun m => nth m a 0) p Hp RT I HN). fold N.
    transitivity (zsum N (fun j => nth j v 0 * pw psi' (p * (2 * brev L j + 1))) * ninv).
    - apply eqm_mul_mor; [| reflexivity]. apply eqm_zsum. intros j Hj. apply eqm_mul_mor; [| reflexivity].
      assert (EJ : nth j (T L q a) 0 == nth j v 0 [mod q]) by (rewrite EF, (nth_map_lt _ _ _ _ 0) by lia; apply eqm_mod).
      rewrite <- EJ. unfold T. rewrite slot_eval by exact Hj. rewrite EP. unfold eval. rewrite La. apply eqm_zsum. intros m _.
      change (?x ^ Z.of_nat ?y) with (pw x y). rewrite pw_mul. reflexivity.
    - rewrite NRC, zsum_block, <- zsum_mul_r. apply eqm_zsum. intros z Hz. rewrite H2, eqm_mod, H1, eqm_mod by assumption.
      rewrite V3 by assumption. rewrite V2 by assumption. rewrite <- !zsum_mul_r. apply eqm_zsum. intros j Hj. rewrite V1 by assumption. unfold unflatten. rewrite EN.
      unfold L, C. rewrite brev_concat by assumption. fold C L R. set (rho := brev lr z). set (nu := brev lc j).
      transitivity (nth (z * C + j) v 0 * (pw psi' (2 * R * (nu * n) + (2 * (rho * n) + n) + (2 * C * (l * rho) + C * l))) * (cinv * rinv)); [| apply eqm_eq; rewrite !pw_add; ring].
      apply eqm_mul_mor; [| reflexivity]. apply eqm_mul_mor; [reflexivity |]. rewrite EPi.
      transitivity (pw psi' ((2 * R * (nu * n) + (2 * (rho * n) + n) + (2 * C * (l * rho) + C * l)) + 2 * N * (l * nu))).
      + apply eqm_eq. f_equal. rewrite NRC. ring.
      + apply pw_period. exact RT'.
  Qed.
End Accel.
Lemma accel_constants_exist lr lc q : cpu_admissible (lr + lc) q -> 1 < q < 2 ^ 31 -> exists k, ntt_precompute q (2 ^ lr) (2 ^ lc) = Some k.
Proof. intros A Q. pose proof (accel_constants lr lc q A Q) as X. destruct X as (k & X). exists k. do 9 (destruct X as (? & X)). apply X. Qed.
