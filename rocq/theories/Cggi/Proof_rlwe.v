(** Phase algebra of RLWE ciphertexts in Z[X]/(X^N+1). *)
From Coq Require Import ZArith List Lia Bool Setoid Morphisms Ring.
From Verif Require Import Base.ZSum Base.Modeq Base.Nega Base.Word Base.Bits.
From Verif Require Import Cggi.Model_encoding Cggi.Model_lwe Cggi.Model_matrix_utils Cggi.Model_rlwe Cggi.Spec_poly Cggi.Spec_rlwe.
From Verif Require Import Cggi.Model_bootstrap.
From Verif Require Import Cggi.Proof_matrix_utils Cggi.Proof_poly Cggi.Proof_polymul Cggi.Proof_key_switch.
Import ListNotations.
Local Open Scope Z_scope.

Lemma rect_length {A} n m (x : list (list A)) : rect n m x -> length x = n.
Proof. intros [H _]. exact H. Qed.
Lemma rect_Forall {A} n m (x : list (list A)) : rect n m x -> Forall (fun r => length r = m) x.
Proof. intros [_ H]. exact H. Qed.

Lemma last_nth {A} (l : list A) d n : length l = S n -> last l d = nth n l d.
Proof.
  revert n. induction l as [|x l IH]; intros n H; [discriminate|].
  destruct l as [|y l]; cbn [length] in *; [replace n with 0%nat by lia; reflexivity|].
  destruct n as [|n]; [lia|]. change (last (x :: y :: l) d) with (last (y :: l) d). rewrite (IH n) by lia. reflexivity.
Qed.

Lemma removelast_firstn {A} (l : list A) n : length l = S n -> removelast l = firstn n l.
Proof.
  intros H. rewrite removelast_firstn_len. f_equal. lia.
Qed.

Lemma nth_firstn_lt {A} (l : list A) d n i : (i < n)%nat -> nth i (firstn n l) d = nth i l d.
Proof.
  revert l i. induction n as [|n IH]; intros l i H; [lia|]. destruct l; [destruct i; reflexivity|].
  destruct i; [reflexivity|]. cbn. apply IH. lia.
Qed.

Lemma peq_weaken N q r a b : (r | q) -> peq N q a b -> peq N r a b.
Proof. intros Hd H i. apply (eqm_weaken q r); auto. Qed.

Lemma madd32_rect n m a b : rect n m a -> rect n m b -> rect n m (madd32 a b).
Proof.
  intros Ha Hb. split.
  - unfold madd32. rewrite map2_length, (rect_length _ _ _ Ha), (rect_length _ _ _ Hb). lia.
  - apply Forall_forall. intros r Hr. apply (In_nth _ _ []) in Hr. destruct Hr as (i & Hi & <-).
    unfold madd32 in *. rewrite map2_length, (rect_length _ _ _ Ha), (rect_length _ _ _ Hb) in Hi.
    rewrite (nth_map2 _ _ _ _ [] []) by (rewrite ?(rect_length _ _ _ Ha), ?(rect_length _ _ _ Hb); lia).
    rewrite vadd32_length, (rect_nth n m a) by (assumption || lia). rewrite (rect_nth n m b) by (assumption || lia). lia.
Qed.
Lemma msub32_rect n m a b : rect n m a -> rect n m b -> rect n m (msub32 a b).
Proof.
  intros Ha Hb. split.
  - unfold msub32. rewrite map2_length, (rect_length _ _ _ Ha), (rect_length _ _ _ Hb). lia.
  - apply Forall_forall. intros r Hr. apply (In_nth _ _ []) in Hr. destruct Hr as (i & Hi & <-).
    unfold msub32 in *. rewrite map2_length, (rect_length _ _ _ Ha), (rect_length _ _ _ Hb) in Hi.
    rewrite (nth_map2 _ _ _ _ [] []) by (rewrite ?(rect_length _ _ _ Ha), ?(rect_length _ _ _ Hb); lia).
    rewrite vsub32_length, (rect_nth n m a) by (assumption || lia). rewrite (rect_nth n m b) by (assumption || lia). lia.
Qed.
Lemma monomial_mul_list_rect n m a d L : rect n m a -> rect n m (monomial_mul_list a d L).
Proof.
  intros [H1 H2]. split; unfold monomial_mul_list; [rewrite map_length; exact H1|].
  apply Forall_map. eapply Forall_impl; [|exact H2]. intros r Hr. cbn beta. rewrite monomial_mul_length. exact Hr.
Qed.

Lemma Forall_firstn {A} (Q : A -> Prop) n l : Forall Q l -> Forall Q (firstn n l).
Proof. intros H. revert n. induction H; intros [|n]; cbn; constructor; auto. Qed.

Section Rlwe.
  Variable N : nat.
  Hypothesis HN : (0 < N)%nat.
  Variable s : list (list Z).      (* key polynomials *)
  Let k := length s.
  Hypothesis Hs : rect k N s.

  Local Notation P := (pl N HN).
  Local Notation "a ≡ b" := (peq N W32 a b) (at level 70).
  Local Notation "a ⊕ b" := (padd N a b) (at level 50, left associativity).
  Local Notation "a ⊖ b" := (psub N a b) (at level 50, left associativity).
  Local Notation "a ⊗ b" := (pmul N a b) (at level 40, left associativity).
  Add Ring PolyRing : (poly_ring N W32 HN).

  Definition sigma (i : nat) : apoly N := if (i <? k)%nat then popp N (P (nth i s [])) else pone N HN.
  (** phase of a list of k+1 polynomials *)
  Definition rph (ct : list (list Z)) : apoly N := psum N (S k) (fun i => P (nth i ct []) ⊗ sigma i).

  Lemma psum_opp n f : psum N n (fun i => popp N (f i)) ≡ popp N (psum N n f).
  Proof. induction n as [|n IH]; cbn [psum]; [ring|]. rewrite IH. ring. Qed.
  Lemma psum_sub n f g : psum N n (fun i => f i ⊖ g i) ≡ psum N n f ⊖ psum N n g.
  Proof. induction n as [|n IH]; cbn [psum]; [ring|]. rewrite IH. ring. Qed.
  Lemma psum_mul_r n a f : psum N n (fun i => f i ⊗ a) ≡ psum N n f ⊗ a.
  Proof. induction n as [|n IH]; cbn [psum]; [ring|]. rewrite IH. ring. Qed.

  Lemma rph_unfold ct : rph ct ≡ P (nth k ct []) ⊖ psum N k (fun i => P (nth i ct []) ⊗ P (nth i s [])).
  Proof.
    unfold rph. cbn [psum].
    rewrite (psum_ext N W32 k _ (fun i => popp N (P (nth i ct []) ⊗ P (nth i s [])))).
    - rewrite psum_opp. unfold sigma. rewrite Nat.ltb_irrefl. ring.
    - intros j Hj. unfold sigma. replace (j <? k)%nat with true by (symmetry; apply Nat.ltb_lt; exact Hj). ring.
  Qed.

  Lemma rph_coeff ct j : (j < N)%nat -> fn (rph ct) (Z.of_nat j) == rlwe_phase N s ct j [mod W32].
  Proof.
    intros Hj. rewrite (rph_unfold ct _). unfold rlwe_phase. cbn [fn psub pl]. rewrite psum_fn.
    rewrite ext_nat by assumption. fold k. unfold coeff at 1. apply eqm_eq. f_equal. apply zsum_ext. intros i Hi.
    cbn [fn pmul pl]. rewrite conv_nega_coeff by assumption. reflexivity.
  Qed.

  Lemma rph_ext_peq a b : (forall i, (i <= k)%nat -> P (nth i a []) ≡ P (nth i b [])) -> rph a ≡ rph b.
  Proof. intros H. apply psum_ext. intros j Hj. rewrite H by lia. reflexivity. Qed.

  Lemma rph_madd a b : rect (S k) N a -> rect (S k) N b -> rph (madd32 a b) ≡ rph a ⊕ rph b.
  Proof.
    intros Ha Hb. unfold rph. rewrite <- psum_add. apply psum_ext. intros i Hi.
    unfold madd32. rewrite (nth_map2 _ _ _ _ [] []) by (rewrite ?(rect_length _ _ _ Ha), ?(rect_length _ _ _ Hb); lia).
    rewrite pl_vadd by (apply (rect_nth (S k)); assumption). ring.
  Qed.
  Lemma rph_msub a b : rect (S k) N a -> rect (S k) N b -> rph (msub32 a b) ≡ rph a ⊖ rph b.
  Proof.
    intros Ha Hb. unfold rph. rewrite <- psum_sub. apply psum_ext. intros i Hi.
    unfold msub32. rewrite (nth_map2 _ _ _ _ [] []) by (rewrite ?(rect_length _ _ _ Ha), ?(rect_length _ _ _ Hb); lia).
    rewrite pl_vsub by (apply (rect_nth (S k)); assumption). ring.
  Qed.
  Lemma rph_monomial a d L : rect (S k) N a -> ~ (0 < L < 32) -> rph (monomial_mul_list a d L) ≡ pmono N HN d ⊗ rph a.
  Proof.
    intros Ha HL. unfold rph. rewrite <- psum_mul_l by exact HN. apply psum_ext. intros i Hi.
    unfold monomial_mul_list. rewrite (nth_map_lt _ _ _ _ []) by (rewrite (rect_length _ _ _ Ha); lia).
    rewrite pl_monomial by (assumption || (apply (rect_nth (S k)); assumption)). ring.
  Qed.
  Lemma rph_scale a d L : rect (S k) N a -> ~ (0 < L < 32) ->
    rph (map (fun row => scale_row d row L) a) ≡ (pmono N HN d ⊖ pone N HN) ⊗ rph a.
  Proof.
    intros Ha HL. unfold rph. rewrite <- psum_mul_l by exact HN. apply psum_ext. intros i Hi.
    rewrite (nth_map_lt _ _ _ _ []) by (rewrite (rect_length _ _ _ Ha); lia).
    rewrite pl_scale by (assumption || (apply (rect_nth (S k)); assumption)). ring.
  Qed.

  (** *** encryption *)
  Lemma rlwe_encrypt_rect tpu pt ai e L : rect k N ai -> length pt = N -> length e = N ->
    rect (S k) N (rlwe_jit_encrypt tpu N pt s ai e L).
  Proof.
    intros Ha Hp He. unfold rlwe_jit_encrypt. split.
    - rewrite app_length, (rect_length _ _ _ Ha). cbn [length]. lia.
    - apply Forall_app. split; [apply (rect_Forall _ _ _ Ha)|]. constructor; [|constructor].
      assert (E : length (vadd32 (vadd32 (poly_dot_product tpu N ai s) pt) e) = N).
      { rewrite !vadd32_length, poly_dot_length by (apply (rect_Forall k); assumption). lia. }
      destruct (L <? 32); [rewrite map_length|]; exact E.
  Qed.

  Lemma rlwe_encrypt_nth_lt tpu pt ai e L i : rect k N ai -> (i < k)%nat ->
    nth i (rlwe_jit_encrypt tpu N pt s ai e L) [] = nth i ai [].
  Proof. intros Ha Hi. unfold rlwe_jit_encrypt. apply app_nth1. rewrite (rect_length _ _ _ Ha). exact Hi. Qed.

  Lemma pl_mod_pow L x : 0 <= L <= 32 -> peq N (2 ^ L) (P (if L <? 32 then map (fun c => c mod 2 ^ L) x else x)) (P x).
  Proof.
    intros HL. apply pl_peq. intros i Hi. destruct (L <? 32); [|reflexivity].
    destruct (Nat.lt_ge_cases i (length x)) as [H|H].
    - rewrite (nth_map_lt _ _ _ _ 0) by assumption. apply eqm_mod.
    - rewrite !nth_overflow by (rewrite ?map_length; assumption). reflexivity.
  Qed.

  Lemma rlwe_encrypt_b tpu pt ai e L : rect k N ai -> length pt = N -> length e = N -> 0 <= L <= 32 ->
    peq N (2 ^ L) (P (nth k (rlwe_jit_encrypt tpu N pt s ai e L) []))
      (psum N k (fun i => P (nth i ai []) ⊗ P (nth i s [])) ⊕ P pt ⊕ P e).
  Proof.
    intros Ha Hp He HL. unfold rlwe_jit_encrypt. rewrite app_nth2 by (rewrite (rect_length _ _ _ Ha); lia).
    rewrite (rect_length _ _ _ Ha), Nat.sub_diag. cbn [nth]. rewrite pl_mod_pow by assumption.
    apply (peq_weaken N W32); [apply pow2_div_W32; assumption|].
    assert (E : length (poly_dot_product tpu N ai s) = N) by (apply poly_dot_length; apply (rect_Forall k); assumption).
    rewrite !pl_vadd by (rewrite ?vadd32_length; lia). rewrite pl_dot by ((apply (rect_Forall k); assumption) || (rewrite (rect_length _ _ _ Ha); reflexivity)).
    rewrite (rect_length _ _ _ Ha). reflexivity.
  Qed.

  Lemma rlwe_encrypt_phase tpu pt ai e L : rect k N ai -> length pt = N -> length e = N -> 0 <= L <= 32 ->
    peq N (2 ^ L) (rph (rlwe_jit_encrypt tpu N pt s ai e L)) (P pt ⊕ P e).
  Proof.
    intros Ha Hp He HL.
    assert (HD : (2 ^ L | W32)) by (apply pow2_div_W32; assumption).
    rewrite (peq_weaken N W32 (2 ^ L) _ _ HD (rph_unfold _)).
    rewrite (psub_mor N (2 ^ L) _ _ (rlwe_encrypt_b tpu pt ai e L Ha Hp He HL) _ _ (reflexivity _)).
    apply (peq_weaken N W32 _ _ _ HD).
    rewrite (psum_ext N W32 k (fun i => P (nth i (rlwe_jit_encrypt tpu N pt s ai e L) []) ⊗ P (nth i s []))
              (fun i => P (nth i ai []) ⊗ P (nth i s []))).
    - ring.
    - intros i Hi. rewrite rlwe_encrypt_nth_lt by assumption. reflexivity.
  Qed.

  (** *** decryption *)
  Lemma rlwe_decrypt_length tpu ct L d : rect (S k) N ct ->
    length (rlwe_decrypt_raw tpu ct {| rk_log := L; rk_degree := d; rk_data := s |}) = N \/ d <> N.
  Proof.
    intros Hc. destruct (Nat.eq_dec d N) as [->|H]; [left|right; exact H]. unfold rlwe_decrypt_raw. cbn [rk_log rk_degree rk_data].
    assert (E : length (vsub32 (last ct []) (poly_dot_product tpu N (removelast ct) s)) = N).
    { pose proof (rect_length _ _ _ Hc). rewrite vsub32_length, poly_dot_length.
      - rewrite (last_nth _ _ k) by assumption. rewrite (rect_nth (S k) N) by (assumption || lia). lia.
      - rewrite (removelast_firstn _ k) by assumption. apply Forall_firstn, (rect_Forall (S k)). assumption.
      - apply (rect_Forall k). assumption. }
    destruct (L <? 32); [rewrite map_length|]; exact E.
  Qed.

  Lemma rlwe_decrypt_phase tpu ct L : rect (S k) N ct -> 0 <= L <= 32 ->
    peq N (2 ^ L) (P (rlwe_decrypt_raw tpu ct {| rk_log := L; rk_degree := N; rk_data := s |})) (rph ct).
  Proof.
    intros Hc HL. unfold rlwe_decrypt_raw. cbn [rk_log rk_degree rk_data]. rewrite pl_mod_pow by assumption.
    apply (peq_weaken N W32); [apply pow2_div_W32; assumption|]. pose proof (rect_length _ _ _ Hc) as Hl.
    assert (HF : Forall (fun a => length a = N) (removelast ct)).
    { rewrite (removelast_firstn _ k) by assumption. apply Forall_firstn, (rect_Forall (S k)). assumption. }
    assert (HR : length (removelast ct) = k). { rewrite (removelast_firstn _ k) by assumption. rewrite firstn_length. lia. }
    rewrite pl_vsub.
    - rewrite pl_dot by (assumption || (apply (rect_Forall k); assumption)). rewrite rph_unfold, HR.
      rewrite (last_nth _ _ k) by assumption. apply psub_mor; [reflexivity|]. apply psum_ext. intros i Hi.
      rewrite (removelast_firstn _ k) by assumption. rewrite nth_firstn_lt by assumption. reflexivity.
    - rewrite (last_nth _ _ k) by assumption. apply (rect_nth (S k)); [assumption|lia].
    - apply poly_dot_length; [assumption|]. apply (rect_Forall k); assumption.
  Qed.
End Rlwe.
