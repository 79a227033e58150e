(** C43: chunk and RNS representations round-trip. *)
From Coq Require Import ZArith List Bool Lia.
From Verif Require Import Base.ZSum Base.Modeq Base.Lists Base.Word Base.Bits Base.Egcd Base.Fermat Base.Crt.
From Verif Require Import Ckks.Model_rns_utils Ckks.Prop_crt Ec.Model_util Ec.Spec_chunks Ec.Proof_chunks.
Import ListNotations.
Local Open Scope Z_scope.

(** every non-negative integer that fits in n chunks is converted to its n base-2^base digits, and back *)
Theorem C43_chunk_round_trip : forall x base width n, 1 <= base <= width -> 0 <= x < 2 ^ (base * Z.of_nat n) ->
  exists l, int_to_array x base width (Some n) = Some l /\ digits base n l /\ chunk_value base l = x /\ array_to_int l base = x.
Proof.
  intros x base width n Hb Hx. destruct (int_to_array_ok x base width n Hb Hx) as (l & E & D & V). exists l. repeat split; try assumption; try apply D.
  rewrite array_to_int_value; [exact V | lia | apply D].
Qed.
Print Assumptions C43_chunk_round_trip.

(** without a size the shortest digit list is returned *)
Theorem C43_unsized_round_trip : forall x base width, 1 <= base <= width -> 0 <= x ->
  exists l, int_to_array x base width None = Some l /\ array_to_int l base = x /\ forall n, (length l <= n)%nat <-> x < 2 ^ (base * Z.of_nat n).
Proof.
  intros x base width Hb Hx. unfold int_to_array. destruct (Z.ltb_spec base 1); [lia |]. destruct (elements_spec base ltac:(lia) _ x (fuel_enough x)) as (F & V & LN). cbv zeta.
  rewrite (forallb_width base width) by (try lia; exact F). eexists. split; [reflexivity |]. split; [rewrite array_to_int_value by (try lia; exact F); lia | exact LN].
Qed.
Print Assumptions C43_unsized_round_trip.

(** larger integers are rejected *)
Theorem C43_large_rejected : forall x base width n, 1 <= base -> 2 ^ (base * Z.of_nat n) <= x -> int_to_array x base width (Some n) = None.
Proof. exact int_to_array_large. Qed.
Print Assumptions C43_large_rejected.

(** the converse round trip: a chunk vector is recovered from its integer, for batches too *)
Theorem C43_array_round_trip : forall l base width n, 1 <= base <= width -> digits base n l -> int_to_array (array_to_int l base) base width (Some n) = Some l.
Proof. intros l base width n Hb D. rewrite array_to_int_value by (try lia; apply D). apply int_to_array_of_digits; assumption. Qed.
Print Assumptions C43_array_round_trip.
Theorem C43_batch_round_trip : forall xs base n, 1 <= base <= 16 -> Forall (fun x => 0 <= x < 2 ^ (base * Z.of_nat n)) xs ->
  exists A, int_list_to_array xs base n = Some A /\ length A = length xs /\ Forall (digits base n) A /\ array_to_int_list A base = xs.
Proof.
  intros xs base n Hb F. unfold int_list_to_array, array_to_int_list. induction F as [|x xs Hx F (A & E & L & FA & R)]; [exists []; repeat split; constructor |].
  destruct (C43_chunk_round_trip x base 16 n Hb Hx) as (l & El & D & V & B). exists (l :: A). cbn [map sequence_opt]. rewrite El, E. split; [reflexivity |]. split; [cbn; congruence |]. split; [constructor; assumption |]. cbn [map]. rewrite B, R. reflexivity.
Qed.
Print Assumptions C43_batch_round_trip.

(** FINDING: negative integers are not rejected, they silently become zero *)
Theorem C43_negative_becomes_zero : forall x base width n, 1 <= base -> 0 <= width -> x < 0 -> int_to_array x base width (Some n) = Some (repeat 0 n).
Proof.
  intros x base width n Hb Hw Hx. unfold int_to_array. destruct (Z.ltb_spec base 1); [lia |]. cbv zeta. rewrite Z.log2_nonpos by lia.
  change (int_elements (Z.to_nat (0 + 1)) base x) with (if x <=? 0 then [] else [Z.land x (Z.shiftl 1 base - 1)] ++ int_elements 0 base (Z.shiftr x base)).
  destruct (Z.leb_spec x 0); [| lia]. cbn [length Nat.leb]. rewrite firstn_nil, Nat.sub_0_r. cbn [app].
  rewrite (forallb_width 0 width); [reflexivity | lia | lia |]. apply (digits_zeros 0 n). lia.
Qed.
Print Assumptions C43_negative_becomes_zero.
Theorem C43_negative_rejected_refuted : ~ forall x base width n, 1 <= base <= width -> x < 0 -> int_to_array x base width (Some n) = None.
Proof. intros H. specialize (H (-5) 16 16 2%nat ltac:(lia) ltac:(lia)). vm_compute in H. discriminate. Qed.
Print Assumptions C43_negative_rejected_refuted.

(** reconstruction constants *)
Lemma icrt_ok moduli : coprime_moduli moduli -> exists pre, rns_precompute moduli = Some pre /\ length pre = length moduli /\
  forall i, (i < length moduli)%nat -> 0 <= nth i pre 0 < lprod moduli /\ exists c, nth i pre 0 == c * hat moduli i [mod lprod moduli] /\ hat moduli i * c == 1 [mod nth i moduli 0].
Proof.
  intros HC. pose proof (proj1 HC) as HP. unfold rns_precompute, rns_icrt_factors_compute, total_modulus. rewrite fold_left_mul, Z.mul_1_l. set (M := lprod moduli). pose proof (lprod_pos _ HP) as MP. fold M in MP.
  set (f := fun m => match inverse (M / m mod m) m with Some inv => Some ((M / m * inv) mod M) | None => None end).
  assert (T : forall i, (i < length moduli)%nat -> exists c, f (nth i moduli 0) = Some ((hat moduli i * c) mod M) /\ hat moduli i * c == 1 [mod nth i moduli 0]).
  { intros i Hi. assert (PM : 0 < nth i moduli 0) by (rewrite Forall_forall in HP; apply HP; apply nth_In; exact Hi). unfold f, M. rewrite (hat_div moduli i Hi) by lia.
    destruct (inverse_total (hat moduli i mod nth i moduli 0) (nth i moduli 0)) as [c Ec]; [lia | rewrite Z.gcd_mod, Z.gcd_comm by lia; apply hat_coprime; assumption |].
    exists c. rewrite Ec. split; [reflexivity |]. destruct (inverse_some _ _ _ PM Ec) as [_ EE]. rewrite <- EE. rewrite eqm_mod. reflexivity. }
  destruct (sequence_opt_total (map f moduli)) as [pre E].
  { intros o Ho. apply in_map_iff in Ho. destruct Ho as (m & <- & Hm). apply (In_nth _ _ 0) in Hm. destruct Hm as (i & Hi & <-). destruct (T i Hi) as (c & -> & _). discriminate. }
  exists pre. split; [exact E |]. destruct (sequence_opt_nth _ _ 0 E) as [Lp Np]. rewrite map_length in *. split; [exact Lp |]. intros i Hi. destruct (T i Hi) as (c & Ec & Hc).
  specialize (Np i Hi). rewrite (nth_map_lt f moduli i None 0 Hi), Ec in Np. injection Np as Np. rewrite <- Np. split; [apply Z.mod_pos_bound; lia |]. exists c. split; [| exact Hc]. rewrite eqm_mod, Z.mul_comm. reflexivity.
Qed.

(** reconstruction: any residue vector gives the unique integer in [0, M) with those residues *)
Theorem C43_rns_reconstruct : forall moduli residues, coprime_moduli moduli -> length residues = length moduli ->
  exists pre x, rns_precompute moduli = Some pre /\ rns_reconstruct residues moduli pre = Some x /\ 0 <= x < lprod moduli /\
    forall i, (i < length moduli)%nat -> x mod nth i moduli 0 = nth i residues 0 mod nth i moduli 0.
Proof.
  intros moduli residues HC L. pose proof (proj1 HC) as HP. destruct (icrt_ok moduli HC) as (pre & E & Lp & Hp). pose proof (lprod_pos _ HP) as MP.
  exists pre, (dotZ pre residues mod lprod moduli). split; [exact E |].
  unfold rns_reconstruct, total_modulus. rewrite L, Lp, !Nat.eqb_refl. cbn [andb negb]. rewrite fold_left_mul, Z.mul_1_l. split; [reflexivity |]. split; [apply Z.mod_pos_bound; lia |].
  intros k Hk. assert (PM : 0 < nth k moduli 0) by (rewrite Forall_forall in HP; apply HP; apply nth_In; exact Hk).
  apply (eqm_mod_iff _ _ _ PM). rewrite (eqm_weaken (lprod moduli) _ _ _ (in_divides_lprod _ _ (nth_In _ _ Hk)) (eqm_mod _ _)).
  rewrite dotZ_zsum by lia. rewrite Lp.
  assert (HH : forall i, exists c, (i < length moduli)%nat -> nth i pre 0 == c * hat moduli i [mod lprod moduli] /\ hat moduli i * c == 1 [mod nth i moduli 0]).
  { intros i. destruct (Nat.lt_ge_cases i (length moduli)) as [C | C]; [destruct (Hp i C) as (_ & c & X); exists c; intros _; exact X | exists 0; lia]. }
  assert (CH : exists c : nat -> Z, forall i, (i < length moduli)%nat -> nth i pre 0 == c i * hat moduli i [mod lprod moduli] /\ hat moduli i * c i == 1 [mod nth i moduli 0]).
  { clear - HH. set (n := length moduli) in *. clearbody n. induction n as [|n IH]; [exists (fun _ => 0); intros; lia |].
    destruct IH as [c Hc]; [intros i; destruct (HH i) as [x Hx]; exists x; intros; apply Hx; lia |]. destruct (HH n) as [x Hx].
    exists (fun i => if Nat.eqb i n then x else c i). intros i Hi. destruct (Nat.eqb_spec i n) as [-> | N]; [apply Hx; lia | apply Hc; lia]. }
  destruct CH as [c Hc]. rewrite <- (crt_sum moduli (fun i => nth i residues 0) c (fun i Hi => proj2 (Hc i Hi)) k Hk).
  apply eqm_zsum. intros i Hi. rewrite (eqm_weaken (lprod moduli) _ _ _ (in_divides_lprod _ _ (nth_In _ _ Hk)) (proj1 (Hc i Hi))). apply eqm_eq. ring.
Qed.
Print Assumptions C43_rns_reconstruct.

Theorem C43_rns_round_trip : forall moduli x, coprime_moduli moduli -> 0 <= x < lprod moduli ->
  exists r pre, to_rns x moduli = Some r /\ rns_precompute moduli = Some pre /\ rns_reconstruct r moduli pre = Some x.
Proof.
  intros moduli x HC Hx. pose proof (proj1 HC) as HP. set (r := map (fun m => x mod m) moduli). exists r.
  destruct (C43_rns_reconstruct moduli r HC) as (pre & y & Ep & Er & By & Hy); [unfold r; apply map_length |]. exists pre.
  split; [unfold to_rns, total_modulus; rewrite fold_left_mul, Z.mul_1_l; destruct (Z.ltb_spec x (lprod moduli)); [reflexivity | lia] |]. split; [exact Ep |]. rewrite Er. f_equal.
  assert (EQ : y == x [mod lprod moduli]).
  { apply (crt_unique moduli y x HC). intros m Hm. apply (In_nth _ _ 0) in Hm. destruct Hm as (i & Hi & <-). assert (PM : 0 < nth i moduli 0) by (rewrite Forall_forall in HP; apply HP; apply nth_In; exact Hi). apply (eqm_mod_iff _ _ _ PM). rewrite Hy by exact Hi. unfold r. rewrite (nth_map_lt _ _ _ _ 0 Hi). apply Z.mod_mod. lia. }
  apply (eqm_small (lprod moduli)); [lia | lia | exact EQ].
Qed.
Print Assumptions C43_rns_round_trip.

Theorem C43_rns_large_rejected : forall moduli x, lprod moduli <= x -> to_rns x moduli = None.
Proof. intros moduli x H. unfold to_rns, total_modulus. rewrite fold_left_mul, Z.mul_1_l. destruct (Z.ltb_spec x (lprod moduli)); [lia | reflexivity]. Qed.
Print Assumptions C43_rns_large_rejected.

(** the module's own RNS basis: what the search finds is the literal list, its members are pairwise coprime, and their
    product exceeds 2^791 *)
Fixpoint coprime_check (l : list Z) : bool :=
  match l with [] => true | m :: rest => (0 <? m) && (Z.gcd m (fold_left Z.mul rest 1) =? 1) && coprime_check rest end.
Lemma coprime_check_ok l : coprime_check l = true -> coprime_moduli l.
Proof.
  induction l as [|m l IH]; intros H; [split; constructor |]. cbn [coprime_check] in H. apply andb_prop in H. destruct H as [H H2]. apply andb_prop in H. destruct H as [H0 H1].
  apply Z.ltb_lt in H0. apply Z.eqb_eq in H1. destruct (IH H2) as [P C]. split; [constructor; assumption |]. constructor; [| exact C].
  rewrite fold_left_mul, Z.mul_1_l in H1. apply Forall_forall. intros x Hx. apply Z.bezout_1_gcd. apply in_divides_lprod in Hx. destruct Hx as [k Hk]. rewrite Hk in H1.
  apply Z.gcd_bezout in H1. destruct H1 as (a & b & E). exists a, (b * k). rewrite <- E. ring.
Qed.
Lemma moduli_literal : MODULI = MODULI_LITERAL /\ RNS_MODULI_T = RNS_MODULI_T_LITERAL.
Proof. split; vm_compute; reflexivity. Qed.
Lemma literal_coprime : coprime_moduli MODULI_LITERAL.
Proof. apply coprime_check_ok. vm_compute. reflexivity. Qed.
Theorem C43_moduli : MODULI = MODULI_LITERAL /\ RNS_MODULI_T = RNS_MODULI_T_LITERAL /\ coprime_moduli MODULI /\ 2 ^ 791 < lprod MODULI.
Proof. destruct moduli_literal as [-> ->]. split; [reflexivity |]. split; [reflexivity |]. split; [exact literal_coprime |]. vm_compute. reflexivity. Qed.
Print Assumptions C43_moduli.

(** field elements survive the trip through the module's RNS basis *)
Lemma array_rns_round_trip moduli x : coprime_moduli moduli -> 0 <= x < lprod moduli -> array_rns_to_int moduli (int_to_array_rns moduli x) = Some x.
Proof.
  intros HC Hx. unfold array_rns_to_int, int_to_array_rns. destruct (C43_rns_round_trip moduli x HC Hx) as (r & pre & Er & Ep & E). rewrite Ep, <- E. f_equal.
  unfold to_rns in Er. destruct (x <? total_modulus moduli); [injection Er as <-; reflexivity | discriminate].
Qed.
Theorem C43_field_element_rns : forall x, 0 <= x < 2 ^ 791 -> array_rns_to_int MODULI (int_to_array_rns MODULI x) = Some x.
Proof. intros x Hx. destruct C43_moduli as (_ & _ & HC & HB). apply array_rns_round_trip; [exact HC |]. split; [apply Hx |]. eapply Z.lt_trans; [apply Hx | exact HB]. Qed.
Print Assumptions C43_field_element_rns.

Example C43_example : int_to_array MODULUS_377_INT 16 16 (Some 24%nat) = Some MODULUS_377_INT_CHUNK /\ array_to_int MODULUS_377_INT_CHUNK 16 = MODULUS_377_INT /\ length MODULUS_377_INT_CHUNK = 24%nat /\
  int_to_array (2 ^ 384) 16 16 (Some 24%nat) = None /\ to_rns 1000 [7; 11; 13] = Some [6; 10; 12] /\ rns_precompute [7; 11; 13] = Some [715; 364; 924] /\ rns_reconstruct [6; 10; 12] [7; 11; 13] [715; 364; 924] = Some 1000.
Proof. vm_compute. repeat split. Qed.
