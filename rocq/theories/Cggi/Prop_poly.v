(** C08, C09: polynomial arithmetic modulo X^N+1 and 2^32. *)
From Coq Require Import ZArith List Lia Bool Setoid Morphisms.
From Verif Require Import Base.ZSum Base.Modeq Base.Nega Base.Word Base.Bits.
From Verif Require Import Cggi.Model_matrix_utils Cggi.Model_polymul Cggi.Spec_poly.
From Verif Require Import Cggi.Proof_matrix_utils Cggi.Proof_poly Cggi.Proof_polymul.
Import ListNotations.
Local Open Scope Z_scope.

(** *** C08 *)
(** poly_mul (and toeplitz_poly_mul), on every platform and for every pair of equally long lists *)
Theorem C08_poly_mul : forall (tpu_version : Z) (a b : list Z), length a = length b ->
  poly_mul tpu_version a b = nega_product (length a) a b.
Proof. intros. apply poly_mul_spec; congruence. Qed.

Example C08_poly_mul_ex : poly_mul 0 [1; 2; 3] [4; 5; 4294967295] = [4294967287; 16; 21].
Proof. reflexivity. Qed.

(** poly_dot_product *)
Theorem C08_poly_dot : forall tpu_version n v1 v2, length v1 = length v2 ->
  Forall (fun a => length a = n) v1 -> Forall (fun a => length a = n) v2 ->
  poly_dot_product tpu_version n v1 v2 =
    map (fun k => zsum (length v1) (fun i => nega_coeff n (coeff (nth i v1 [])) (coeff (nth i v2 [])) k) mod 2 ^ 32) (seq 0 n).
Proof. exact poly_dot_spec. Qed.

(** the dispatching vector-matrix product, on the exact integer path: any digits *)
Theorem C08_vecmat_integer_path : forall tpu_version log_base b m n vec mat,
  (0 < b)%nat -> (0 < m)%nat -> rect b n vec -> cube b m n mat ->
  ((n mod 128 <> 0)%nat \/ tpu_version < 5 \/ 8 <= log_base) ->
  negacyclic_vector_matrix_polymul tpu_version vec mat log_base = Some (nega_vecmat n m vec mat).
Proof. exact vecmat_spec_fallback. Qed.

(** ... and on any platform, kernel included, for up to four columns and digits small enough that the bfloat16/float32
    kernel is exact.  Digits of a signed decomposition in base 2^log_base have magnitude at most D = 2^log_base. *)
Theorem C08_vecmat_all_paths : forall tpu_version log_base b m n D vec mat,
  (0 < b)%nat -> (0 < n)%nat -> rect b n vec -> cube b m n mat -> (0 < m <= 4)%nat ->
  0 <= D < 256 -> Forall (Forall (fun v => Z.abs (s32 v) <= D)) vec -> Z.of_nat n * (255 * D) < 2 ^ 24 ->
  negacyclic_vector_matrix_polymul tpu_version vec mat log_base = Some (nega_vecmat n m vec mat).
Proof. exact vecmat_spec. Qed.

(** the 128-bit parameter set (log_base 4, N = 512) is inside the exact range of the kernel *)
Example C08_exact_range_128bit : Z.of_nat 512 * (255 * 2 ^ 4) < 2 ^ 24.
Proof. reflexivity. Qed.
Example C08_vecmat_ex :
  negacyclic_vector_matrix_polymul 0 [[1; 4294967295]; [2; 0]] [[[1; 2]; [3; 4]]; [[5; 6]; [7; 8]]] 4
  = Some [[13; 13]; [21; 17]].
Proof. reflexivity. Qed.
Example C08_vecmat_ex_hyps :
  rect 2 2 [[1; 4294967295]; [2; 0]] /\ cube 2 2 2 [[[1; 2]; [3; 4]]; [[5; 6]; [7; 8]]] /\
  Forall (Forall (fun v => Z.abs (s32 v) <= 16)) [[1; 4294967295]; [2; 0]].
Proof.
  unfold cube, rect. repeat split; repeat constructor; vm_compute; discriminate.
Qed.

(** the byte-Toeplitz (BAT) layout produced by bat_offline_compile_cggi: equal to the plain product, provided the
    accelerator path is given exactly 18 rows *)
Theorem C08_bat : forall tpu_version b m n vec mat,
  (0 < b)%nat -> (0 < n)%nat -> (0 < m)%nat -> rect b n vec -> cube b m n mat -> Forall (Forall (Forall word32)) mat ->
  ((n mod 128 = 0)%nat -> 5 <= tpu_version -> b = 18%nat) ->
  negacyclic_vector_matrix_polymul_bat tpu_version vec (bat_offline_compile_cggi mat) = Some (nega_vecmat n m vec mat).
Proof. exact bat_spec. Qed.
Example C08_bat_ex :
  negacyclic_vector_matrix_polymul_bat 0 [[1; 4294967295]; [2; 0]] (bat_offline_compile_cggi [[[1; 2]; [3; 4]]; [[5; 6]; [7; 8]]])
  = Some [[13; 13]; [21; 17]].
Proof. reflexivity. Qed.

(** finding: on the accelerator the Pallas grid is the literal 18, so no other number of rows (RLWE dimension + 1 times
    levels) is served, e.g. the 16 rows of the test parameters *)
Theorem C08_bat_row_count_refuted : forall tpu_version vec mat,
  5 <= tpu_version -> (length (nth 0 vec []) mod 128 = 0)%nat -> length vec <> 18%nat ->
  negacyclic_vector_matrix_polymul_bat tpu_version vec mat = None.
Proof.
  intros t vec mat Ht Hn Hl. unfold negacyclic_vector_matrix_polymul_bat.
  destruct (negb _); [reflexivity|]. replace (length (nth 0 vec []) mod 128 =? 0)%nat with true by (symmetry; apply Nat.eqb_eq; assumption).
  replace (5 <=? t) with true by (symmetry; apply Z.leb_le; assumption). cbn [andb].
  destruct (negb _); [reflexivity|]. replace (length vec =? 18)%nat with false by (symmetry; apply Nat.eqb_neq; assumption).
  reflexivity.
Qed.

(** finding: a digit outside the bfloat16 significand is rounded, so the kernel needs the digit bound *)
Theorem C08_bfloat16_digit_refuted : bf16_dot [1] [257] <> 1 * 257.
Proof. vm_compute. discriminate. Qed.

(** a 32-bit matrix product by bytes (the isolated kernel helper i32_matmul), exact for inner sizes below 258 *)
Theorem C08_i32_matmul : forall lhs rhs m k n,
  rect m k lhs -> rect k n rhs -> (0 < k)%nat -> Z.of_nat k * (255 * 255) < 2 ^ 24 ->
  i32_matmul lhs rhs =
  map (fun r => map (fun c => zsum k (fun i => nth i (nth r lhs []) 0 * nth c (nth i rhs []) 0) mod 2 ^ 32) (seq 0 n)) (seq 0 m).
Proof. exact i32_matmul_spec. Qed.
Example C08_i32_matmul_ex : i32_matmul [[70000; 4294967295]] [[70000; 1]; [1; 2]] = [[605032703; 69998]].
Proof. reflexivity. Qed.

(** *** C09 *)
Lemma mulX_length p : length (mulX p) = length p.
Proof.
  destruct p as [|x p]; [reflexivity|]. unfold mulX. cbn [length]. f_equal.
  assert (E : S (length (removelast (x :: p))) = length (x :: p)).
  { rewrite (app_removelast_last 0 (l := x :: p)) at 2 by discriminate. rewrite app_length. cbn [length]. lia. }
  cbn [length] in E. lia.
Qed.

Lemma mulX_nth p i : (i < length p)%nat -> nth i (mulX p) 0 = match i with O => - nth (length p - 1) p 0 | S j => nth j p 0 end.
Proof.
  intros Hi. destruct p as [|x p]; [cbn in Hi; lia|].
  pose proof (app_removelast_last 0 (l := x :: p) ltac:(discriminate)) as E.
  set (r := removelast (x :: p)) in *. set (y := last (x :: p) 0) in *.
  assert (L : length (x :: p) = S (length r)) by (rewrite E, app_length; cbn; lia).
  unfold mulX. fold y r. destruct i as [|j].
  - change (nth 0 (- y :: r) 0) with (- y). clearbody r y. rewrite E, app_length, app_nth2 by (cbn; lia). replace (length r + length [y] - 1 - length r)%nat with 0%nat by (cbn; lia). reflexivity.
  - change (nth (S j) (- y :: r) 0) with (nth j r 0). clearbody r y. rewrite E. rewrite app_nth1 by lia. reflexivity.
Qed.

Lemma iter_mulX_length d p : length (Nat.iter d mulX p) = length p.
Proof. induction d as [|d IH]; cbn [Nat.iter nat_rect]; [reflexivity|]. rewrite mulX_length. exact IH. Qed.

Lemma iter_mulX_nth d p : forall i, (i < length p)%nat -> nth i (Nat.iter d mulX p) 0 = ext (length p) p (Z.of_nat i - Z.of_nat d).
Proof.
  induction d as [|d IH]; intros i Hi.
  - rewrite Z.sub_0_r, ext_nat by assumption. reflexivity.
  - change (Nat.iter (S d) mulX p) with (mulX (Nat.iter d mulX p)).
    rewrite mulX_nth by (rewrite iter_mulX_length; assumption). rewrite iter_mulX_length. destruct i as [|j].
    + rewrite IH by lia. rewrite <- (antiper_neg (length p) (ext (length p) p)) by (apply ext_antiper; lia). f_equal. lia.
    + rewrite IH by lia. f_equal. lia.
Qed.

Lemma ext_period p j k : (0 < length p)%nat -> ext (length p) p (j + k * (2 * Z.of_nat (length p))) = ext (length p) p j.
Proof.
  intros Hp. set (n := Z.of_nat (length p)). unfold ext. fold n.
  replace (j + k * (2 * n)) with (j + (2 * k) * n) by ring. rewrite Z.mod_add, Z.div_add by lia.
  rewrite Z.even_add, Z.even_mul. cbn. destruct (Z.even (j / n)); reflexivity.
Qed.

Lemma mulXpow_nth d p i : (i < length p)%nat -> coeff (mulXpow d p) i = ext (length p) p (Z.of_nat i - d).
Proof.
  intros Hi. unfold coeff, mulXpow. rewrite iter_mulX_nth by assumption.
  set (n2 := 2 * Z.of_nat (length p)). pose proof (Z.mod_pos_bound d n2 ltac:(lia)). rewrite Z2Nat.id by lia.
  rewrite <- (ext_period p (Z.of_nat i - d) (d / n2)) by lia. fold n2. f_equal.
  pose proof (Z.div_mod d n2 ltac:(lia)). lia.
Qed.

(** X^(2N) = 1 and X^N = -1: the specification's reduction of the exponent is sound *)
Theorem C09_mulX_order : forall p, Nat.iter (length p + length p) mulX p = p /\
  Nat.iter (length p) mulX p = map Z.opp p.
Proof.
  intros p. split.
  - apply (list_eq_nth 0); [apply iter_mulX_length|]. intros i Hi. rewrite iter_mulX_length in Hi.
    rewrite iter_mulX_nth by assumption.
    replace (Z.of_nat i - Z.of_nat (length p + length p)) with (Z.of_nat i + (-1) * (2 * Z.of_nat (length p))) by lia.
    rewrite ext_period by lia. apply ext_nat. assumption.
  - apply (list_eq_nth 0); [rewrite iter_mulX_length, map_length; reflexivity|]. intros i Hi. rewrite iter_mulX_length in Hi.
    rewrite iter_mulX_nth by assumption. rewrite antiper_neg by (apply ext_antiper; lia). rewrite ext_nat by assumption.
    rewrite (nth_map_lt _ _ _ _ 0) by assumption. reflexivity.
Qed.

Lemma qlog_pow L : 1 <= L <= 32 -> qlog L = 2 ^ L.
Proof.
  intros H. unfold qlog. destruct (Z.ltb_spec 0 L); [|lia]. destruct (Z.ltb_spec L 32); cbn [andb]; [reflexivity|].
  replace L with 32 by lia. reflexivity.
Qed.

Theorem C09_monomial_mul : forall (p : list Z) (d log_modulus : Z), Forall word32 p -> 1 <= log_modulus <= 32 ->
  monomial_mul p d log_modulus = reduce_all (2 ^ log_modulus) (mulXpow d p).
Proof.
  intros p d L Hp HL. apply (list_eq_nth 0).
  - unfold reduce_all, mulXpow. rewrite monomial_mul_length, map_length, iter_mulX_length. reflexivity.
  - intros i Hi. pose proof (monomial_mul_range p d L Hp) as R. rewrite Forall_forall in R. specialize (R _ (nth_In _ 0 Hi)).
    rewrite monomial_mul_length in Hi. unfold reduce_all.
    rewrite (nth_map_lt _ _ _ _ 0) by (unfold mulXpow; rewrite iter_mulX_length; assumption).
    fold (coeff (mulXpow d p) i). rewrite mulXpow_nth by assumption.
    rewrite (qlog_pow L HL) in R. symmetry. apply eqm_small_mod; [apply pow2_pos; lia| |assumption].
    symmetry. pose proof (monomial_mul_nth p d L i Hi) as E. rewrite (qlog_pow L HL) in E. exact E.
Qed.
Example C09_monomial_mul_ex : monomial_mul [1; 2; 3] 2 8 = [254; 253; 1] /\ monomial_mul [1; 2; 3] (-7) 32 = [2; 3; 4294967295].
Proof. split; reflexivity. Qed.

(** rotating by d and then by e is rotating by d + e; in particular -d undoes d *)
Theorem C09_monomial_compose : forall (p : list Z) (d e : Z), Forall word32 p ->
  monomial_mul (monomial_mul p d 32) e 32 = monomial_mul p (d + e) 32.
Proof.
  intros p d e Hp. destruct (Nat.eq_dec (length p) 0) as [H0|H0]; [destruct p; [reflexivity|discriminate]|].
  pose proof (monomial_mul_range p d 32 Hp) as W. assert (HN : (0 < length p)%nat) by lia.
  apply (list_eq_nth 0); [rewrite !monomial_mul_length; reflexivity|].
  intros i Hi. pose proof (monomial_mul_range _ e 32 W) as R1. pose proof (monomial_mul_range p (d + e) 32 Hp) as R2.
  rewrite !monomial_mul_length in Hi. rewrite Forall_forall in R1, R2.
  apply (eqm_small W32); [apply R1, nth_In; rewrite !monomial_mul_length; assumption|apply R2, nth_In; rewrite monomial_mul_length; assumption|].
  pose proof (pl_monomial (length p) HN (monomial_mul p d 32) e 32 (monomial_mul_length _ _ _) ltac:(lia)) as E1.
  pose proof (pl_monomial (length p) HN p d 32 eq_refl ltac:(lia)) as E2.
  pose proof (pl_monomial (length p) HN p (d + e) 32 eq_refl ltac:(lia)) as E3.
  rewrite (peq_nth _ _ HN _ _ i E1 Hi), (peq_nth _ _ HN _ _ i E3 Hi).
  transitivity (fn (pmul (length p) (pmono _ HN e) (pmul _ (pmono _ HN d) (pl _ HN p))) (Z.of_nat i)).
  - apply (pmul_mor _ W32); [reflexivity|exact E2].
  - rewrite !pmono_mul. apply eqm_eq. f_equal. lia.
Qed.

Theorem C09_monomial_inverse : forall (p : list Z) (d : Z), Forall word32 p ->
  monomial_mul (monomial_mul p d 32) (- d) 32 = p.
Proof.
  intros p d Hp. rewrite C09_monomial_compose by assumption. replace (d + - d) with 0 by ring.
  rewrite C09_monomial_mul by (assumption || lia). unfold mulXpow. rewrite Zmod_0_l. cbn. unfold reduce_all.
  apply (map_id_Forall _ _ word32); [|assumption]. intros x Hx. apply Z.mod_small. exact Hx.
Qed.

Theorem C09_scale_by_x_power_n_minus_1 : forall (d log_modulus : Z) (matrix : list (list (list Z))), 1 <= log_modulus <= 32 ->
  scale_by_x_power_n_minus_1 d matrix log_modulus = map (map (fun p => reduce_all (2 ^ log_modulus) (mulXpow_minus_1 d p))) matrix.
Proof.
  intros d L M HL. unfold scale_by_x_power_n_minus_1. apply map_ext. intros r. apply map_ext. intros p.
  apply (list_eq_nth 0).
  - unfold reduce_all, mulXpow_minus_1. rewrite scale_row_length, !map_length, seq_length. reflexivity.
  - intros i Hi. pose proof (scale_row_range p d L) as R. rewrite Forall_forall in R. specialize (R _ (nth_In _ 0 Hi)).
    rewrite scale_row_length in Hi. unfold reduce_all, mulXpow_minus_1.
    rewrite (nth_map_lt _ _ _ _ 0) by (rewrite map_length, seq_length; assumption). rewrite nth_map_seq by assumption.
    rewrite mulXpow_nth by assumption.
    rewrite (qlog_pow L HL) in R. symmetry. apply eqm_small_mod; [apply pow2_pos; lia| |assumption].
    symmetry. pose proof (scale_row_nth p d L i Hi) as E. rewrite (qlog_pow L HL) in E. exact E.
Qed.
Example C09_scale_ex : scale_by_x_power_n_minus_1 4 [[[1; 2; 3]]] 32 = [[[2; 4294967293; 4294967291]]].
Proof. reflexivity. Qed.

(** the explicit polynomial X^e - 1 built by x_power_n_minus_1: multiplying by it is scaling by X^e - 1 *)
Theorem C09_x_power_n_minus_1 : forall (e : Z) (n : nat), (0 < n)%nat ->
  x_power_n_minus_1 e n = mulXpow_minus_1 e (1 :: repeat 0 (n - 1)).
Proof.
  intros e n Hn. set (one := 1 :: repeat 0 (n - 1)).
  assert (Ln : length one = n) by (unfold one; cbn [length]; rewrite repeat_length; lia).
  unfold x_power_n_minus_1, mulXpow_minus_1. rewrite Ln. apply map_ext_in. intros i Hi. apply in_seq in Hi.
  rewrite mulXpow_nth by lia. rewrite rot_ext by lia. rewrite Ln. cbn zeta.
  set (nz := Z.of_nat n). set (D := e mod (2 * nz)). set (s := D mod nz).
  pose proof (Z.mod_pos_bound D nz ltac:(lia)) as Hs. fold s in Hs.
  pose proof (Z.mod_pos_bound e (2 * nz) ltac:(lia)) as HD. fold D in HD.
  assert (Hone : forall j, nth j one 0 = if Nat.eqb j 0 then 1 else 0).
  { intros [|j]; [reflexivity|]. unfold one. cbn [nth Nat.eqb]. apply nth_repeat. }
  unfold coeff. rewrite Hone. f_equal. rewrite roll_nth by lia. rewrite Ln, Hone. fold nz.
  assert (Hf : D / nz = 0 \/ D / nz = 1).
  { pose proof (Z.div_mod D nz ltac:(lia)). fold s in H. nia. }
  destruct (Z.eqb_spec (Z.of_nat i) s) as [E|E].
  - rewrite E, Z.sub_diag, Zmod_0_l. cbn [Z.to_nat Nat.eqb]. rewrite Z.ltb_irrefl.
    destruct Hf as [-> | ->]; reflexivity.
  - assert (Enz : Nat.eqb (Z.to_nat ((Z.of_nat i - s) mod nz)) 0 = false).
    { apply Nat.eqb_neq. destruct (Z_lt_le_dec (Z.of_nat i) s).
      - replace ((Z.of_nat i - s) mod nz) with (Z.of_nat i - s + nz) by (apply Z.mod_unique with (-1); lia). lia.
      - rewrite Z.mod_small by lia. lia. }
    rewrite Enz. ring.
Qed.
Example C09_x_power_ex : x_power_n_minus_1 5 4 = [-1; -1; 0; 0].
Proof. reflexivity. Qed.

Print Assumptions C08_poly_mul.
Print Assumptions C08_poly_dot.
Print Assumptions C08_vecmat_integer_path.
Print Assumptions C08_vecmat_all_paths.
Print Assumptions C08_bat.
Print Assumptions C08_bat_row_count_refuted.
Print Assumptions C08_bfloat16_digit_refuted.
Print Assumptions C08_i32_matmul.
Print Assumptions C09_mulX_order.
Print Assumptions C09_monomial_mul.
Print Assumptions C09_monomial_compose.
Print Assumptions C09_monomial_inverse.
Print Assumptions C09_scale_by_x_power_n_minus_1.
Print Assumptions C09_x_power_n_minus_1.
