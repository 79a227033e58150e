(** C42: lifting a ciphertext from the moduli q to q ++ p. *)
From Coq Require Import ZArith Znumtheory List Bool Lia.
From Verif Require Import Base.ZSum Base.Modeq Base.Nega Base.Lists Base.Word Base.Fermat Base.Crt.
From Verif Require Import Ckks.Model_rns_utils Ckks.Model_ntt_cpu Ckks.Model_barrett Ckks.Spec_barrett Ckks.Model_scheme Ckks.Model_ntt Ckks.Model_addmul Ckks.Model_basis Ckks.Model_rescale Ckks.Model_plan Ckks.Model_keyswitch Ckks.Model_blindrot Ckks.Spec_ntt Ckks.Spec_poly.
From Verif Require Import Ckks.Proof_ntt_cpu Ckks.Proof_transform Ckks.Prop_crt Ckks.Prop_barrett Ckks.Prop_ntt_cpu Ckks.Proof_slots Ckks.Proof_ntt_accel Ckks.Prop_ntt_accel Ckks.Proof_basis Ckks.Prop_basis Ckks.Proof_encrypt Ckks.Prop_rescale Ckks.Proof_keyswitch Ckks.Prop_keyswitch.
Import ListNotations.
Local Open Scope Z_scope.

Local Notation u32 := Model_scheme.u32.

(** ** specification: d has the coefficients of a modulo Q, plus fewer than k multiples of Q *)
Definition lift_of (Q : Z) (k : nat) (a d : list Z) : Prop :=
  length d = length a /\ forall j, (j < length a)%nat -> exists u, 0 <= u < Z.of_nat k /\ nth j d 0 = nth j a 0 mod Q + u * Q.

Lemma slots_app L ms ms' A A' a : slots L ms A (fun _ => a) -> slots L ms' A' (fun _ => a) -> slots L (ms ++ ms') (A ++ A') (fun _ => a).
Proof.
  intros [LA SA] [LB SB]. split; [rewrite !app_length; lia |]. intros i Hi. rewrite app_length in Hi. destruct (Nat.lt_ge_cases i (length ms)) as [H | H].
  - rewrite !app_nth1 by lia. apply SA. exact H.
  - rewrite !app_nth2 by lia. rewrite LA. apply SB. lia.
Qed.
Lemma at_front q p : at_indices (q ++ p) (seq 0 (length q)) = q.
Proof.
  unfold at_indices. apply (list_ext 0); [rewrite map_length, seq_length; reflexivity |]. intros i Hi. rewrite map_length, seq_length in Hi. rewrite nth_map_seq by exact Hi. apply app_nth1. exact Hi.
Qed.
Lemma at_back q p : at_indices (q ++ p) (seq (length q) (length p)) = p.
Proof.
  unfold at_indices. apply (list_ext 0); [rewrite map_length, seq_length; reflexivity |]. intros i Hi. rewrite map_length, seq_length in Hi.
  rewrite (nth_map_lt _ _ _ _ 0%nat) by (rewrite seq_length; exact Hi). rewrite seq_nth by exact Hi. rewrite app_nth2 by lia. f_equal. lia.
Qed.

(** Every component of the lifted ciphertext is the evaluation form, over all the moduli of q ++ p, of a polynomial with the
    same coefficients modulo Q = the product of q.  Partial: the multiples of Q are not removed (fewer than the number of moduli
    of q), and the moduli are those the accelerated kernels handle. *)
Theorem C42_lift_partial : forall lr lc q p polys data,
  let n := (2 ^ (lr + lc))%nat in
  Forall (accel_modulus lr lc) (q ++ p) -> coprime_moduli q -> q <> [] -> Z.of_nat (length q) <= 4112 -> Forall (fun m => 1020 * Z.of_nat (length q) <= m) p ->
  Forall (fun a => length a = n) polys -> Forall2 (evaluation_form q) polys data ->
  exists kq kp bc lifted, ntt_precompute_constants q (2 ^ lr) (2 ^ lc) = Some kq /\ ntt_precompute_constants p (2 ^ lr) (2 ^ lc) = Some kp /\
    basis_precompute_constants (q ++ p) [(seq 0 (length q), seq (length q) (length p))] = Some bc /\
    lift_ciphertext {| ct_data := data; ct_moduli := q |} bc 0 p kq kp (2 ^ lr) (2 ^ lc) = Some {| ct_data := lifted; ct_moduli := q ++ p |} /\
    Forall2 (fun a B => exists d, lift_of (lprod q) (length q) a d /\ evaluation_form (q ++ p) d B) polys lifted.
Proof.
  intros lr lc q p polys data n HM HC NE HK HT HL HE. pose proof HM as HM0. apply Forall_app in HM. destruct HM as [HMq HMp].
  destruct (kernel_exists lr lc q HMq) as (kq & EQ). destruct (kernel_exists lr lc p HMp) as (kp & EP). destruct (basis_precompute_ok q p HC) as (c & EC).
  exists kq, kp, [c].
  assert (EB : basis_precompute_constants (q ++ p) [(seq 0 (length q), seq (length q) (length p))] = Some [c]).
  { unfold basis_precompute_constants. cbn [map fst snd sequence_opt]. rewrite !select_total by (apply Forall_forall; intros i Hi; apply in_seq in Hi; rewrite app_length; lia).
    fold (at_indices (q ++ p) (seq 0 (length q))) (at_indices (q ++ p) (seq (length q) (length p))). rewrite at_front, at_back, EC. reflexivity. }
  pose proof (accel_adm lr lc q HMq) as HAq. pose proof (accel_adm lr lc (q ++ p) HM0) as HA. 
  assert (SH : forallb (shaped_as (length kq) (2 ^ lr * 2 ^ lc)) data = true).
  { rewrite (kernel_length _ _ _ _ EQ). rewrite <- Nat.pow_add_r. apply forallb_forall. intros A HA'. clear - HE HL HA' HAq.
    induction HE as [| a A' polys data E _ IH]; [contradiction |]. rewrite Forall_cons_iff in HL. destruct HL as [La HL]. destruct HA' as [-> | HI]; [| apply IH; assumption].
    apply (evaluation_slots (lr + lc) q a A HAq La) in E. destruct E as [LA S]. unfold shaped_as. rewrite LA, Nat.eqb_refl. cbn [andb]. apply forallb_forall. intros col HI. apply (In_nth _ _ []) in HI. destruct HI as (i & Hi & <-). destruct (S i ltac:(lia)) as [_ ->]. rewrite T_length. apply Nat.eqb_refl. }
  assert (G : exists lifted, sequence_opt (map (fun A => match basis_change [c] (intt_accel_poly kq A) 0 with None => None | Some conv => if negb (length conv =? length p)%nat || negb (length kp =? length p)%nat then None else Some (A ++ ntt_accel_poly kp conv) end) data) = Some lifted /\
    Forall2 (fun a B => exists d, lift_of (lprod q) (length q) a d /\ evaluation_form (q ++ p) d B) polys lifted).
  { clear SH. induction HE as [| a A polys data E _ IH]; [exists []; split; [reflexivity | constructor] |]. rewrite Forall_cons_iff in HL. destruct HL as [La HL]. destruct (IH HL) as (lifted & EL & FL).
    apply (evaluation_slots (lr + lc) q a A HAq La) in E.
    destruct (conv_ok lr lc q p kq kp c A a HMq HMp HC NE HK HT EQ EP EC E) as (D & conv & B1 & B2 & B3 & _ & B5 & B6).
    rewrite (slots_cast32 _ _ _ _ HAq (accel_le32 lr lc q HMq) E) in B1.
    exists ((A ++ ntt_accel_poly kp conv) :: lifted). cbn [map]. split.
    - cbn [sequence_opt]. rewrite EL. unfold basis_change. cbn [nth_error]. rewrite B1, B2, (kernel_length _ _ _ _ EP), !Nat.eqb_refl. reflexivity.
    - constructor; [| exact FL]. exists D. assert (LD : length D = (2 ^ (lr + lc))%nat) by (destruct B6 as [-> _]; exact La). split; [exact B6 |].
      apply (evaluation_slots (lr + lc) (q ++ p) D _ HA LD). apply slots_app; [| exact B5]. destruct E as [LA SA]. split; [exact LA |]. intros i Hi. split; [exact LD |]. destruct (SA i Hi) as [_ ->].
      symmetry. apply (digit_congr (lr + lc) q (length q) a D _ HAq HC B6). apply nth_In. exact Hi. }
  destruct G as (lifted & EL & FL). exists lifted. split; [exact EQ |]. split; [exact EP |]. split; [exact EB |]. split; [| exact FL].
  unfold lift_ciphertext. cbn [ct_data ct_moduli]. rewrite SH. cbn [negb]. rewrite EL. f_equal. f_equal. rewrite <- (map_id (q ++ p)) at 2. apply map_ext_in. intros m Hm. rewrite Forall_forall in HM0.
  destruct (accel_admissible lr lc m (HM0 m Hm)) as (_ & R & _). apply u32_small. lia.
Qed.
Example C42_lift_ex : exists kq kp bc B, ntt_precompute_constants ex_q 1 2 = Some kq /\ ntt_precompute_constants ex_p 1 2 = Some kp /\ basis_precompute_constants (ex_q ++ ex_p) [([0; 1], [2])%nat] = Some bc /\
  lift_ciphertext {| ct_data := [ex_eval [100000; 7]]; ct_moduli := ex_q |} bc 0 ex_p kq kp 1 2 = Some {| ct_data := [B]; ct_moduli := ex_q ++ ex_p |} /\ 
  (exists d0 d1, In d0 [100000; 100000 + 12289 * 2053] /\ In d1 [7; 7 + 12289 * 2053] /\ ntt_negacyclic_poly (residue_array [d0; d1] (ex_q ++ ex_p)) (ex_q ++ ex_p) = Some B).
Proof.
  destruct (ntt_precompute_constants ex_q 1 2) as [kq |] eqn:E1; [| vm_compute in E1; discriminate]. destruct (ntt_precompute_constants ex_p 1 2) as [kp |] eqn:E2; [| vm_compute in E2; discriminate].
  destruct (basis_precompute_constants (ex_q ++ ex_p) [([0; 1], [2])%nat]) as [bc |] eqn:E3; [| vm_compute in E3; discriminate].
  vm_compute in E1. injection E1 as <-. vm_compute in E2. injection E2 as <-. vm_compute in E3. injection E3 as <-.
  eexists. eexists. eexists. eexists. split; [reflexivity |]. split; [reflexivity |]. split; [reflexivity |]. split; [vm_compute; reflexivity |].
  first [exists 100000, 7; split; [left; reflexivity |]; split; [left; reflexivity |]; vm_compute; reflexivity
       | exists (100000 + 12289 * 2053), 7; split; [right; left; reflexivity |]; split; [left; reflexivity |]; vm_compute; reflexivity
       | exists 100000, (7 + 12289 * 2053); split; [left; reflexivity |]; split; [right; left; reflexivity |]; vm_compute; reflexivity
       | exists (100000 + 12289 * 2053), (7 + 12289 * 2053); split; [right; left; reflexivity |]; split; [right; left; reflexivity |]; vm_compute; reflexivity ].
Qed.
Print Assumptions C42_lift_partial.
