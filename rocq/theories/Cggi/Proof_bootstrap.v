(** Bootstrapping keys and the full bootstrapping pipeline. *)
From Coq Require Import ZArith List Lia Bool Setoid Morphisms Ring.
From Verif Require Import Base.ZSum Base.Modeq Base.Nega Base.Word Base.Bits.
From Verif Require Import Cggi.Model_encoding Cggi.Model_lwe Cggi.Model_decomposition Cggi.Model_key_switch Cggi.Model_matrix_utils Cggi.Model_polymul.
From Verif Require Import Cggi.Model_rlwe Cggi.Model_rgsw Cggi.Model_test_polynomial Cggi.Model_bootstrap.
From Verif Require Import Cggi.Spec_lwe Cggi.Spec_poly Cggi.Spec_rlwe Cggi.Spec_bootstrap.
From Verif Require Import Cggi.Proof_lwe Cggi.Proof_decomposition Cggi.Proof_matrix_utils Cggi.Proof_poly Cggi.Proof_polymul Cggi.Proof_key_switch.
From Verif Require Import Cggi.Proof_rlwe Cggi.Proof_rgsw Cggi.Proof_blind_rotate Cggi.Proof_test_polynomial.
Import ListNotations.
Local Open Scope Z_scope.

(** *** key generation *)
Lemma bsk_inputs_length b s : Nat.even (length s) = true ->
  length (bsk_inputs b s) = if b then (length s + length s / 2)%nat else length s.
Proof.
  intros He. destruct b; cbn [bsk_inputs]; [|reflexivity]. rewrite bmmp_inputs_length by exact He.
  apply Nat.even_spec in He. destruct He as [h Hh]. rewrite Hh. rewrite (Nat.mul_comm 2), Nat.div_mul by lia. lia.
Qed.

Lemma bsk_count_ge (b : bool) (n : nat) : ((if b then n + n / 2 else n) <= bsk_count b n)%nat.
Proof.
  unfold bsk_count. set (num := if b then (n + n / 2)%nat else n). pose proof (Nat.div_mod (num + 19) 20 ltac:(lia)). pose proof (Nat.mod_upper_bound (num + 19) 20 ltac:(lia)). lia.
Qed.

Definition bsk_plain (tpu : Z) (ls : list Z) (sk : rlwe_key) (p : decomp_params) ai es (use_bmmp : bool) : list (list (list (list Z))) :=
  map (fun j => rgsw_jit_encrypt tpu (rk_degree sk) (nth j (bsk_inputs use_bmmp ls) 0) (rk_data sk) (nth j ai []) (nth j es []) p
                  (length (rk_data sk)) (rk_log sk)) (seq 0 (length (bsk_inputs use_bmmp ls))).

Lemma map2_nth_map {A B C} (f : A -> B -> C) x y dx dy : length x = length y ->
  map2 f x y = map (fun j => f (nth j x dx) (nth j y dy)) (seq 0 (length x)).
Proof.
  revert y. induction x as [|a x IH]; intros [|b y] H; cbn [length] in H; try lia; [reflexivity|].
  cbn [map2 length seq map nth]. f_equal. rewrite (IH y) by lia. rewrite <- seq_shift, map_map. reflexivity.
Qed.

Lemma firstn_map_seq {B} (f : nat -> B) n m : (n <= m)%nat -> firstn n (map f (seq 0 m)) = map f (seq 0 n).
Proof.
  intros H. rewrite firstn_map. f_equal. replace m with (n + (m - n))%nat by lia. rewrite seq_app, firstn_app, seq_length.
  replace (n - n)%nat with 0%nat by lia. cbn [firstn]. rewrite app_nil_r. rewrite <- (seq_length n 0) at 1. apply firstn_all.
Qed.

Lemma gen_bsk_value tpu ls sk p ai es use_bmmp use_bat :
  Nat.even (length ls) = true -> length ai = bsk_count use_bmmp (length ls) -> length es = bsk_count use_bmmp (length ls) ->
  gen_bootstrapping_key tpu ls sk p ai es use_bmmp use_bat =
  Some (let bits := bsk_plain tpu ls sk p ai es use_bmmp in
        if use_bmmp then {| bsk_bits := map Plain bits; bsk_use_bmmp := true; bsk_use_bat := false |}
        else if use_bat then {| bsk_bits := map (fun m => Bat (bat_offline_compile_cggi m)) bits; bsk_use_bmmp := false; bsk_use_bat := true |}
        else {| bsk_bits := map Plain bits; bsk_use_bmmp := false; bsk_use_bat := false |}).
Proof.
  intros He Hai Hes. unfold gen_bootstrapping_key. rewrite He. cbn [negb]. cbv zeta.
  pose proof (bsk_inputs_length use_bmmp ls He) as HL. pose proof (bsk_count_ge use_bmmp (length ls)) as HG.
  set (num := if use_bmmp then (length ls + length ls / 2)%nat else length ls) in *.
  assert (Hpad : ((num + GEN_BSK_NUM_BATCHES - 1) / GEN_BSK_NUM_BATCHES * GEN_BSK_NUM_BATCHES)%nat = bsk_count use_bmmp (length ls)).
  { unfold bsk_count. fold num. unfold GEN_BSK_NUM_BATCHES. f_equal. f_equal. lia. }
  rewrite Hpad. set (bs := ((num + GEN_BSK_NUM_BATCHES - 1) / GEN_BSK_NUM_BATCHES)%nat) in *.
  set (inputs := bsk_inputs use_bmmp ls ++ repeat 0 (bsk_count use_bmmp (length ls) - num)).
  assert (Hin : length inputs = (bs * GEN_BSK_NUM_BATCHES)%nat) by (unfold inputs; rewrite app_length, repeat_length; lia).
  set (f := fun (m : Z) (ae : list (list (list (list Z))) * list (list Z)) =>
      rgsw_jit_encrypt tpu (rk_degree sk) m (rk_data sk) (fst ae) (snd ae) p (length (rk_data sk)) (rk_log sk)).
  assert (HA : firstn num (concat (map (fun i => map2 f (batch bs i inputs) (combine (batch bs i ai) (batch bs i es))) (seq 0 GEN_BSK_NUM_BATCHES)))
               = bsk_plain tpu ls sk p ai es use_bmmp).
  { rewrite (map_ext _ (fun i => map2 f (batch bs i inputs) (batch bs i (combine ai es)))) by (intros i; rewrite batch_combine; reflexivity).
    rewrite batched_map2 by (rewrite ?combine_length; lia).
    rewrite (map2_nth_map f _ _ 0 ([], [])) by (rewrite combine_length; lia).
    rewrite firstn_map_seq by lia. unfold bsk_plain. rewrite HL. apply map_ext_in. intros j Hj. apply in_seq in Hj. unfold f.
    rewrite combine_nth by lia. cbn [fst snd]. f_equal. unfold inputs. apply app_nth1. lia. }
  rewrite HA. reflexivity.
Qed.

(** *** words of an RGSW encryption *)
Lemma vadd32_words a b : Forall word32 (vadd32 a b).
Proof.
  unfold vadd32. revert b. induction a as [|x a IH]; intros [|y b]; cbn [map2]; constructor; [apply u32_word|apply IH].
Qed.
Lemma Forall_set_nth {A} (Q : A -> Prop) i v l : Q v -> Forall Q l -> Forall Q (set_nth i v l).
Proof. intros Hv H. revert i. induction H as [|x l Hx Hl IH]; intros [|i]; cbn [set_nth]; constructor; auto. Qed.
Lemma Forall_nth_default {A} (Q : A -> Prop) i l d : Q d -> Forall Q l -> Q (nth i l d).
Proof. intros Hd H. destruct (Nat.lt_ge_cases i (length l)); [rewrite Forall_forall in H; apply H, nth_In; assumption|rewrite nth_overflow by assumption; exact Hd]. Qed.
Lemma Forall_concat' {A} (Q : A -> Prop) l : Forall (Forall Q) l -> Forall Q (concat l).
Proof. induction 1; cbn [concat]; [constructor|]. apply Forall_app. split; assumption. Qed.

Lemma rgsw_words tpu N m s ai es p k : Forall (Forall (Forall (Forall word32))) ai ->
  Forall (Forall (Forall word32)) (rgsw_jit_encrypt tpu N m s ai es p k 32).
Proof.
  intros H. unfold rgsw_jit_encrypt. apply Forall_concat'. apply Forall_map, Forall_forall. intros blk _.
  unfold encrypt_block. apply Forall_map, Forall_forall. intros l _. unfold encrypt_and_modify_one_row.
  set (a := nth l (nth blk ai []) []).
  assert (Ha : Forall (Forall word32) a).
  { unfold a. apply Forall_nth_default; [constructor|]. apply Forall_nth_default; [constructor|exact H]. }
  assert (Hz : Forall (Forall word32) (rlwe_jit_encrypt tpu N (repeat 0 N) s a (repeat (nth l (nth blk es []) 0) N) 32)).
  { unfold rlwe_jit_encrypt. apply Forall_app. split; [exact Ha|]. constructor; [|constructor]. cbn [Z.ltb]. change (32 <? 32) with false. cbv iota. apply vadd32_words. }
  apply Forall_set_nth; [|exact Hz]. apply Forall_set_nth; [apply u32_word|]. apply Forall_nth_default; [constructor|exact Hz].
Qed.

(** *** from polynomials to the specification *)
Section Bridge.
  Variable N : nat.
  Hypothesis HN : (0 < N)%nat.
  Variable s : list (list Z).
  Local Notation "a ≡ b" := (peq N W32 a b) (at level 70).

  Lemma near_of_peq ct msg (M err : apoly N) B :
    (forall j, (j < N)%nat -> fn M (Z.of_nat j) == msg j [mod W32]) ->
    pbnd N B err -> rph N HN s ct ≡ padd N M err -> rlwe_near N (2 ^ 32) s ct msg B.
  Proof.
    intros HM HB H. exists (fun j => fn err (Z.of_nat j)). split; [intros j _; apply HB|]. intros j Hj. change (2 ^ 32) with W32.
    rewrite <- (rph_coeff N HN s ct j) by exact Hj. rewrite (H (Z.of_nat j)). cbn [fn padd]. rewrite (HM j Hj). reflexivity.
  Qed.

  Lemma key_bound KS i : Forall (Forall (fun z => Z.abs z <= KS)) s -> 0 <= KS -> pbnd N KS (pl N HN (nth i s [])).
  Proof.
    intros H H0. apply pbnd_window; [exact HN|exact H0|]. intros j Hj. cbn [fn pl]. rewrite ext_nat by assumption.
    apply (Forall_nth_default (fun z => Z.abs z <= KS)); [cbn; lia|]. apply (Forall_nth_default (Forall (fun z => Z.abs z <= KS))); [constructor|exact H].
  Qed.
  Lemma binary_bound : Forall binary s -> Forall (Forall (fun z => Z.abs z <= 1)) s.
  Proof. intros H. eapply Forall_impl; [|exact H]. intros r Hr. eapply Forall_impl; [|exact Hr]. intros z Hz. cbn beta in Hz. lia. Qed.

  Lemma ext_noise_eq p nn KS A E : 0 <= A -> ext_noise N s p nn KS A E = ext_product_noise N (length s) p nn KS A E.
  Proof.
    intros HA. unfold ext_noise, ext_product_noise, trunc_noise, trunc, gadget_trunc. rewrite (Z.abs_eq A) by exact HA.
    replace (length s + 1)%nat with (S (length s)) by lia. reflexivity.
  Qed.
End Bridge.

Lemma amp_abs N HN m : amp N (Z.abs m) (pconst N HN m).
Proof. apply amp_const. Qed.
