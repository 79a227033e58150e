(** C30: CRT reconstruction inverts the residue representation. *)
From Coq Require Import ZArith Znumtheory List Bool Lia.
From Verif Require Import Base.ZSum Base.Modeq Base.Lists Base.Egcd Base.Word Base.Fermat Base.Crt.
From Verif Require Import Ckks.Model_rns_utils Ckks.Model_encode.
Import ListNotations.
Local Open Scope Z_scope.

Lemma product_lprod ms : product ms = lprod ms.
Proof. unfold product. rewrite fold_left_mul. ring. Qed.

Lemma sequence_opt_total {A} (l : list (option A)) : (forall o, In o l -> o <> None) -> exists r, sequence_opt l = Some r.
Proof.
  induction l as [|o l IH]; intros H; [exists []; reflexivity |]. cbn [sequence_opt].
  destruct o as [x |]; [| exfalso; apply (H None); [left |]; reflexivity].
  destruct IH as [r ->]; [intros o Ho; apply H; right; exact Ho |]. eexists. reflexivity.
Qed.
Lemma sequence_opt_nth {A} (l : list (option A)) r d : sequence_opt l = Some r -> length r = length l /\ forall i, (i < length l)%nat -> nth i l None = Some (nth i r d).
Proof.
  revert r. induction l as [|o l IH]; intros r; cbn [sequence_opt].
  - intros E. injection E as <-. split; [reflexivity |]. cbn. intros; lia.
  - destruct o as [x |]; [| discriminate]. destruct (sequence_opt l) as [r' |]; [| discriminate]. intros E. injection E as <-.
    destruct (IH r' eq_refl) as [L N]. split; [cbn; lia |]. intros [|i] Hi; [reflexivity |]. apply N. cbn in Hi. lia.
Qed.

Lemma q_hat_inv_spec ms : coprime_moduli ms -> exists inv, compute_q_hat_inv_mod_q ms = Some inv /\ length inv = length ms /\
  forall i, (i < length ms)%nat -> product ms / nth i ms 0 = hat ms i /\ 0 <= nth i inv 0 < nth i ms 0 /\ hat ms i * nth i inv 0 == 1 [mod nth i ms 0].
Proof.
  intros C. pose proof (proj1 C) as P. rewrite Forall_forall in P.
  assert (H0 : forall i, (i < length ms)%nat -> 0 < nth i ms 0) by (intros i Hi; apply P; apply nth_In; exact Hi).
  assert (HD : forall i, (i < length ms)%nat -> product ms / nth i ms 0 = hat ms i).
  { intros i Hi. rewrite product_lprod. apply hat_div; [exact Hi |]. specialize (H0 i Hi). lia. }
  unfold compute_q_hat_inv_mod_q. destruct (sequence_opt_total (map (fun m => inverse_mod (product ms / m) m) ms)) as [inv E].
  - intros o Ho. apply in_map_iff in Ho. destruct Ho as (m & <- & Hm). apply (In_nth _ _ 0) in Hm. destruct Hm as (i & Hi & <-).
    rewrite HD by exact Hi. destruct (inverse_total (hat ms i) (nth i ms 0) (H0 i Hi) (hat_coprime ms i C Hi)) as [y Hy].
    unfold inverse_mod. rewrite Hy. discriminate.
  - exists inv. destruct (sequence_opt_nth _ _ 0 E) as [L N]. rewrite map_length in L, N. split; [exact E |]. split; [exact L |].
    intros i Hi. split; [apply HD; exact Hi |]. specialize (N i Hi). rewrite (nth_map_lt _ _ _ _ 0) in N by exact Hi.
    rewrite HD in N by exact Hi. apply inverse_some; [apply H0; exact Hi | exact N].
Qed.

Lemma crt_fold (f : nat -> Z) (residues : list (list Z)) n : forall k, (forall i, (i < k)%nat -> length (nth i residues []) = n) ->
  let r := fold_left (fun res i => map2 (fun r x => r + x * f i) res (nth i residues [])) (seq 0 k) (repeat 0 n) in
  length r = n /\ forall j, (j < n)%nat -> nth j r 0 = zsum k (fun i => nth j (nth i residues []) 0 * f i).
Proof.
  induction k as [|k IH]; intros H.
  - cbn. rewrite repeat_length. split; [reflexivity |]. intros j Hj. apply nth_repeat_lt'. exact Hj.
  - cbv zeta in *. rewrite seq_S, fold_left_app. cbn [Nat.add fold_left].
    destruct IH as [L N]; [intros i Hi; apply H; lia |]. set (r := fold_left _ (seq 0 k) _) in *.
    assert (M : forall (l1 l2 : list Z) g, length l1 = n -> length l2 = n -> length (map2 (fun a b => a + b * g) l1 l2) = n /\
      forall j, (j < n)%nat -> nth j (map2 (fun a b => a + b * g) l1 l2) 0 = nth j l1 0 + nth j l2 0 * g).
    { clear. revert n. intros n l1. revert n. induction l1 as [|x l1 IH]; intros n l2 g H1 H2.
      - cbn in H1. subst n. cbn. split; [reflexivity | intros; lia].
      - destruct l2 as [|y l2]; cbn in H1, H2; [lia |]. destruct n as [|n]; [lia |].
        destruct (IH n l2 g) as [L N]; [lia | lia |]. cbn [map2]. split; [cbn; lia |]. intros [|j] Hj; [reflexivity |]. cbn. apply N. lia. }
    destruct (M r (nth k residues []) (f k) L (H k ltac:(lia))) as [L' N']. split; [exact L' |].
    intros j Hj. rewrite N' by exact Hj. rewrite (N j Hj). cbn [zsum]. ring.
Qed.

(** C30: the value reconstructed for each column is the unique integer in [0, Q) with the given residues. *)
Theorem C30_reconstruct : forall moduli residues n, coprime_moduli moduli -> moduli <> [] ->
  length residues = length moduli -> Forall (fun row => length row = n) residues ->
  exists xs, reconstruct_crt residues moduli = Some xs /\ length xs = n /\
    forall j, (j < n)%nat ->
      0 <= nth j xs 0 < lprod moduli /\
      (forall i, (i < length moduli)%nat -> nth j xs 0 mod nth i moduli 0 = nth j (nth i residues []) 0 mod nth i moduli 0) /\
      (forall x, 0 <= x < lprod moduli -> (forall i, (i < length moduli)%nat -> x mod nth i moduli 0 = nth j (nth i residues []) 0 mod nth i moduli 0) ->
        x = nth j xs 0).
Proof.
  intros moduli residues n C NE LR HR. pose proof (proj1 C) as P.
  assert (H0 : forall i, (i < length moduli)%nat -> 0 < nth i moduli 0) by (intros i Hi; rewrite Forall_forall in P; apply P; apply nth_In; exact Hi).
  assert (HRow : forall i, (i < length moduli)%nat -> length (nth i residues []) = n).
  { intros i Hi. rewrite Forall_forall in HR. apply HR. apply nth_In. lia. }
  assert (LM : (0 < length moduli)%nat) by (destruct moduli; [contradiction | cbn; lia]).
  pose proof (lprod_pos _ P) as PP.
  assert (U : forall xs, (forall j, (j < n)%nat -> 0 <= nth j xs 0 < lprod moduli /\
      (forall i, (i < length moduli)%nat -> nth j xs 0 mod nth i moduli 0 = nth j (nth i residues []) 0 mod nth i moduli 0)) ->
     forall j, (j < n)%nat -> forall x, 0 <= x < lprod moduli -> (forall i, (i < length moduli)%nat -> x mod nth i moduli 0 = nth j (nth i residues []) 0 mod nth i moduli 0) ->
        x = nth j xs 0).
  { intros xs H j Hj x Bx Hx. destruct (H j Hj) as [B1 B2]. apply (eqm_small (lprod moduli)); [exact Bx | exact B1 |].
    apply crt_unique; [exact C |]. intros m Hm. apply (In_nth _ _ 0) in Hm. destruct Hm as (i & Hi & <-).
    apply eqm_mod_iff; [apply H0; exact Hi |]. rewrite B2, Hx by exact Hi. reflexivity. }
  assert (G : exists xs, reconstruct_crt residues moduli = Some xs /\ length xs = n /\ forall j, (j < n)%nat -> 0 <= nth j xs 0 < lprod moduli /\
      (forall i, (i < length moduli)%nat -> nth j xs 0 mod nth i moduli 0 = nth j (nth i residues []) 0 mod nth i moduli 0)).
  2:{ destruct G as (xs & E & L & G). exists xs. split; [exact E |]. split; [exact L |]. intros j Hj. destruct (G j Hj) as [B1 B2].
      split; [exact B1 |]. split; [exact B2 |]. apply (U xs G j Hj). }
  unfold reconstruct_crt. rewrite (HRow 0%nat LM). destruct (Nat.eqb_spec (length moduli) 1) as [E1 | E1].
  - eexists. split; [reflexivity |]. rewrite map_length. split; [apply HRow; exact LM |].
    intros j Hj. rewrite (nth_map_lt _ _ _ _ 0) by (rewrite HRow by exact LM; exact Hj).
    destruct moduli as [|m [|m' l]]; [cbn in E1; lia | | cbn in E1; lia]. cbn [nth].
    split; [unfold lprod; cbn [fold_right]; rewrite Z.mul_1_r; apply Z.mod_pos_bound; apply (H0 0%nat); cbn; lia |].
    intros i Hi. cbn in Hi. assert (i = 0)%nat as -> by lia. cbn [nth]. apply Z.mod_mod. specialize (H0 0%nat ltac:(cbn; lia)). cbn in H0. lia.
  - destruct (q_hat_inv_spec moduli C) as (inv & E & LI & HI). rewrite E. eexists. split; [reflexivity |]. rewrite map_length.
    destruct (crt_fold (fun i => nth i inv 0 * (product moduli / nth i moduli 0)) residues n (length moduli) HRow) as [L N].
    split; [exact L |]. intros j Hj. rewrite (nth_map_lt _ _ _ _ 0) by (rewrite L; exact Hj). rewrite product_lprod.
    split; [apply Z.mod_pos_bound; exact PP |]. intros k Hk. apply eqm_mod_iff; [apply H0; exact Hk |].
    transitivity (zsum (length moduli) (fun i => nth j (nth i residues []) 0 * (nth i inv 0 * hat moduli i))).
    + transitivity (nth j (fold_left (fun res i => map2 (fun r x => r + x * (nth i inv 0 * (product moduli / nth i moduli 0))) res (nth i residues []))
         (seq 0 (length moduli)) (repeat 0 n)) 0).
      { rewrite product_lprod. apply (eqm_weaken (lprod moduli)); [apply in_divides_lprod; apply nth_In; exact Hk | apply eqm_mod]. }
      rewrite N by exact Hj. apply eqm_eq. apply zsum_ext. intros i Hi. destruct (HI i Hi) as [-> _]. reflexivity.
    + apply (crt_sum moduli (fun i => nth j (nth i residues []) 0) (fun i => nth i inv 0)); [| exact Hk].
      intros i Hi. apply HI. exact Hi.
Qed.

(** C30: so the residues of an integer determine it: reducing a list of integers modulo every prime and reconstructing
    gives the integers modulo Q. *)
Theorem C30_roundtrip : forall moduli xs, coprime_moduli moduli -> moduli <> [] ->
  reconstruct_crt (map (fun q => map (fun x => x mod q) xs) moduli) moduli = Some (map (fun x => x mod lprod moduli) xs).
Proof.
  intros moduli xs C NE. pose proof (lprod_pos _ (proj1 C)) as PP.
  destruct (C30_reconstruct moduli (map (fun q => map (fun x => x mod q) xs) moduli) (length xs) C NE) as (ys & E & L & H).
  - apply map_length.
  - apply Forall_map. apply Forall_forall. intros q _. apply map_length.
  - rewrite E. f_equal. apply (list_ext 0); [rewrite map_length; exact L |]. intros j Hj. rewrite L in Hj.
    destruct (H j Hj) as (_ & _ & U). rewrite (nth_map_lt _ _ _ _ 0) by exact Hj. symmetry. apply U; [apply Z.mod_pos_bound; exact PP |].
    intros i Hi. rewrite (nth_map_lt _ _ _ _ 0) by exact Hi. rewrite (nth_map_lt _ _ _ _ 0) by exact Hj.
    assert (M0 : 0 < nth i moduli 0) by (destruct C as [P _]; rewrite Forall_forall in P; apply P; apply nth_In; exact Hi).
    rewrite Z.mod_mod by lia. symmetry. apply eqm_mod_iff; [exact M0 |]. symmetry. apply (eqm_weaken (lprod moduli)); [apply in_divides_lprod; apply nth_In; exact Hi | apply eqm_mod].
Qed.

(** C30: the centred lift used by decoding recovers every integer in (-Q/2, Q/2]. *)
Theorem C30_centred_lift : forall moduli xs, coprime_moduli moduli -> moduli <> [] ->
  Forall (fun x => - lprod moduli < 2 * x <= lprod moduli) xs -> decode_integers (encode_residues xs moduli) moduli = Some xs.
Proof.
  intros moduli xs C NE H. unfold decode_integers, encode_residues. rewrite (C30_roundtrip moduli xs C NE), map_map, product_lprod. f_equal.
  pose proof (lprod_pos _ (proj1 C)) as PP. set (Q := lprod moduli) in *. clearbody Q. clear C NE moduli.
  induction H as [|x xs Hx _ IH]; [reflexivity |]. cbn [map]. rewrite IH. f_equal. clear IH.
  unfold centre. destruct (Z.ltb_spec (Q / 2) (x mod Q)) as [Lt | Lt].
  - assert (x < 0).
    { destruct (Z.lt_ge_cases x 0) as [N | N]; [exact N |]. exfalso. rewrite Z.mod_small in Lt by lia.
      pose proof (Z.div_mod Q 2 ltac:(lia)). pose proof (Z.mod_pos_bound Q 2 ltac:(lia)). lia. }
    rewrite <- (Z_mod_plus_full x 1 Q), Z.mod_small by lia. lia.
  - assert (0 <= x).
    { destruct (Z.lt_ge_cases x 0) as [N | N]; [| exact N]. exfalso. rewrite <- (Z_mod_plus_full x 1 Q), Z.mod_small in Lt by lia.
      pose proof (Z.div_mod Q 2 ltac:(lia)). pose proof (Z.mod_pos_bound Q 2 ltac:(lia)). lia. }
    destruct (Z.eq_dec Q 1) as [-> | N]; [rewrite Z.mod_1_r; lia |]. rewrite Z.mod_small by lia. reflexivity.
Qed.

(** C30: moduli with a common factor are rejected (the modular inverse raises ValueError). *)
Theorem C30_common_factor_rejected : forall moduli residues i, Forall (fun m => 0 < m) moduli -> (1 < length moduli)%nat -> (i < length moduli)%nat ->
  Z.gcd (hat moduli i) (nth i moduli 0) <> 1 -> reconstruct_crt residues moduli = None.
Proof.
  intros moduli residues i P L Hi G. unfold reconstruct_crt. destruct (Nat.eqb_spec (length moduli) 1) as [E | _]; [lia |].
  replace (compute_q_hat_inv_mod_q moduli) with (@None (list Z)); [reflexivity |]. symmetry.
  destruct (compute_q_hat_inv_mod_q moduli) as [inv |] eqn:E; [| reflexivity]. exfalso. unfold compute_q_hat_inv_mod_q in E.
  destruct (sequence_opt_nth _ _ 0 E) as [_ N]. rewrite map_length in N. specialize (N i Hi). rewrite (nth_map_lt _ _ _ _ 0) in N by exact Hi.
  assert (M0 : 0 < nth i moduli 0) by (rewrite Forall_forall in P; apply P; apply nth_In; exact Hi).
  rewrite product_lprod, hat_div in N by (try exact Hi; lia). unfold inverse_mod in N. rewrite inverse_none in N; [discriminate | exact M0 | exact G].
Qed.

Example C30_example_moduli : coprime_moduli [97; 193; 257] /\ [97; 193; 257] <> [].
Proof. split; [| discriminate]. split; [repeat constructor | repeat constructor]. Qed.
Example C30_example : decode_integers (encode_residues [-2405648; 5; 0; 2405648] [97; 193; 257]) [97; 193; 257] = Some [-2405648; 5; 0; 2405648].
Proof. vm_compute. reflexivity. Qed.

Print Assumptions C30_reconstruct.
Print Assumptions C30_roundtrip.
Print Assumptions C30_centred_lift.
Print Assumptions C30_common_factor_rejected.
