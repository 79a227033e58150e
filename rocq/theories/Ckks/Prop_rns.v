(** C31: RnsPolynomial operations are the operations of Z_Q[X]/(X^n + 1). *)
From Coq Require Import ZArith Znumtheory List Bool Lia.
From Verif Require Import Base.ZSum Base.Modeq Base.Lists Base.Bitrev Base.Nega Base.Powm Base.Fermat Base.PrimeCheck Base.Word Base.Crt.
From Verif Require Import Ckks.Model_rns_utils Ckks.Model_rns Ckks.Spec_ntt Ckks.Spec_poly Ckks.Proof_ntt Ckks.Proof_ntt_ref Ckks.Proof_transform.
From Verif Require Import Ckks.Prop_ntt_ref Ckks.Prop_crt Ckks.Proof_ntt_cpu.
Import ListNotations.
Local Open Scope Z_scope.

(** [params] are the NTT parameters of n = 2^L and the moduli (RnsParams.ntt_params) *)
Definition rns_setup (L : nat) (moduli : list Z) (params : list ntt_params) : Prop :=
  Forall (ntt_admissible L) moduli /\ mk_rns_params (2 ^ L) moduli = Some params.

(** the RnsPolynomial [p] represents the polynomial with integer coefficients [a]: row i holds the residues of the
    coefficients modulo q_i, or the NTT of the polynomial modulo q_i when [p] is in NTT form *)
Definition represents (L : nat) (moduli : list Z) (params : list ntt_params) (p : rns_poly) (a : list Z) : Prop :=
  rp_degree p = (2 ^ L)%nat /\ rp_moduli p = moduli /\ length a = (2 ^ L)%nat /\
  rp_coeffs p = if rp_is_ntt p then map (fun par => forward par a) params else map (fun q => poly_mod q a) moduli.

(** entry j of row i *)
Definition entry (ntt : bool) (L : nat) (q psi : Z) (a : list Z) (j : nat) : Z :=
  if ntt then nth j (transform L q psi a) 0 else co a j mod q.

Lemma setup_rows L ms params : rns_setup L ms params ->
  length params = length ms /\ forall i, (i < length ms)%nat ->
    ntt_admissible L (nth i ms 0) /\ mk_ntt (2 ^ L) (nth i ms 0) = Some (nth i params {| nt_n := 0; nt_q := 0; nt_n_inv := 0; nt_psis := []; nt_psis_inv := [] |}) /\ 1 < nth i ms 0 /\
    exists psi, pw psi (2 ^ L) == -1 [mod nth i ms 0] /\ forall a, length a = (2 ^ L)%nat ->
      forward (nth i params {| nt_n := 0; nt_q := 0; nt_n_inv := 0; nt_psis := []; nt_psis_inv := [] |}) a = transform L (nth i ms 0) psi a.
Proof.
  intros [A E]. unfold mk_rns_params in E. destruct (sequence_opt_nth _ _ {| nt_n := 0; nt_q := 0; nt_n_inv := 0; nt_psis := []; nt_psis_inv := [] |} E) as [Ln N].
  rewrite map_length in Ln, N. split; [exact Ln |]. intros i Hi. specialize (N i Hi). rewrite (nth_map_lt _ _ _ _ 0) in N by exact Hi.
  assert (Ai : ntt_admissible L (nth i ms 0)) by (rewrite Forall_forall in A; apply A; apply nth_In; exact Hi).
  split; [exact Ai |]. split; [exact N |]. destruct (mk_ntt_ok L _ _ Ai N) as (Q & psi & B & OK). split; [exact Q |].
  exists psi. split; [exact (no_root _ _ _ _ OK) |]. intros a Ha. apply forward_transform; [apply Ai | exact Q | exact OK | exact Ha].
Qed.

Lemma represents_entries L ms params p a : rns_setup L ms params -> represents L ms params p a -> forall i j, (i < length ms)%nat -> (j < 2 ^ L)%nat ->
  exists psi, pw psi (2 ^ L) == -1 [mod nth i ms 0] /\ (forall b, length b = (2 ^ L)%nat ->
      forward (nth i params {| nt_n := 0; nt_q := 0; nt_n_inv := 0; nt_psis := []; nt_psis_inv := [] |}) b = transform L (nth i ms 0) psi b) /\
    nth j (nth i (rp_coeffs p) []) 0 = entry (rp_is_ntt p) L (nth i ms 0) psi a j.
Proof.
  intros S (_ & _ & La & E) i j Hi Hj. destruct (setup_rows L ms params S) as [Lp H]. destruct (H i Hi) as (_ & _ & Q & psi & R & F).
  exists psi. split; [exact R |]. split; [exact F |]. rewrite E. unfold entry. destruct (rp_is_ntt p).
  - rewrite (nth_map_lt _ _ _ _ {| nt_n := 0; nt_q := 0; nt_n_inv := 0; nt_psis := []; nt_psis_inv := [] |}) by lia. rewrite F by exact La. reflexivity.
  - rewrite (nth_map_lt _ _ _ _ 0) by exact Hi. fold (co (poly_mod (nth i ms 0) a) j). rewrite co_mod. reflexivity.
Qed.

(** the common argument: a pointwise operation that is the ring operation on coefficients and on slots *)
Lemma pointwise_represents L ms params f (F : list Z -> list Z -> list Z) p1 p2 a b :
  rns_setup L ms params -> represents L ms params p1 a -> represents L ms params p2 b -> rp_is_ntt p1 = rp_is_ntt p2 ->
  length (F a b) = (2 ^ L)%nat ->
  (forall q psi j, (j < 2 ^ L)%nat -> 0 < q -> pw psi (2 ^ L) == -1 [mod q] ->
    f (entry (rp_is_ntt p1) L q psi a j) (entry (rp_is_ntt p1) L q psi b j) == entry (rp_is_ntt p1) L q psi (F a b) j [mod q]) ->
  represents L ms params (rebuild p1 (pointwise f p1 p2)) (F a b).
Proof.
  intros S R1 R2 EN LF H. pose proof R1 as (D1 & M1 & La & _). unfold represents, rebuild. cbn [rp_degree rp_moduli rp_coeffs rp_is_ntt].
  split; [exact D1 |]. split; [exact M1 |]. split; [exact LF |]. destruct (setup_rows L ms params S) as [Lp HS].
  unfold pointwise. rewrite M1, D1. apply (list_ext []).
  { destruct (rp_is_ntt p1); rewrite !map_length, seq_length; lia. }
  intros i Hi. rewrite map_length, seq_length in Hi. rewrite nth_map_seq by exact Hi.
  destruct (HS i Hi) as (_ & _ & Q & _).
  assert (G : forall row, length row = (2 ^ L)%nat -> (forall j, (j < 2 ^ L)%nat ->
      (f (nth j (nth i (rp_coeffs p1) []) 0) (nth j (nth i (rp_coeffs p2) []) 0)) mod nth i ms 0 = nth j row 0) ->
      map (fun j => f (nth j (nth i (rp_coeffs p1) []) 0) (nth j (nth i (rp_coeffs p2) []) 0) mod nth i ms 0) (seq 0 (2 ^ L)) = row).
  { intros row Lr Hr. apply (list_ext 0); [rewrite map_length, seq_length; auto |]. intros j Hj. rewrite map_length, seq_length in Hj.
    rewrite nth_map_seq by exact Hj. apply Hr. exact Hj. }
  assert (K : forall j, (j < 2 ^ L)%nat -> exists psi, (forall b, length b = (2 ^ L)%nat ->
      forward (nth i params {| nt_n := 0; nt_q := 0; nt_n_inv := 0; nt_psis := []; nt_psis_inv := [] |}) b = transform L (nth i ms 0) psi b) /\
     f (nth j (nth i (rp_coeffs p1) []) 0) (nth j (nth i (rp_coeffs p2) []) 0) mod nth i ms 0 = entry (rp_is_ntt p1) L (nth i ms 0) psi (F a b) j).
  { intros j Hj. destruct (represents_entries L ms params p1 a S R1 i j Hi Hj) as (psi & HR & HF & E1).
    destruct (represents_entries L ms params p2 b S R2 i j Hi Hj) as (psi2 & HR2 & HF2 & E2).
    exists psi. split; [exact HF |]. rewrite E1, E2. rewrite <- EN.
    assert (EE : entry (rp_is_ntt p1) L (nth i ms 0) psi2 b j = entry (rp_is_ntt p1) L (nth i ms 0) psi b j).
    { unfold entry. destruct (rp_is_ntt p1); [| reflexivity]. pose proof R2 as (_ & _ & Lb & _). rewrite <- HF, <- HF2 by exact Lb. reflexivity. }
    rewrite EE. apply eqm_small_mod; [lia | apply H; [exact Hj | lia | exact HR] |].
    unfold entry. destruct (rp_is_ntt p1); [apply slot_range; [lia | exact Hj] | apply Z.mod_pos_bound; lia]. }
  unfold entry in K. destruct (rp_is_ntt p1).
  - rewrite (nth_map_lt _ _ _ _ {| nt_n := 0; nt_q := 0; nt_n_inv := 0; nt_psis := []; nt_psis_inv := [] |}) by lia.
    apply G.
    + destruct (HS i Hi) as (_ & _ & _ & psi & _ & HF). rewrite HF by exact LF. apply transform_len.
    + intros j Hj. destruct (K j Hj) as (psi & HF & ->). rewrite HF by exact LF. reflexivity.
  - rewrite (nth_map_lt _ _ _ _ 0) by exact Hi. apply G; [rewrite poly_mod_length; exact LF |].
    intros j Hj. destruct (K j Hj) as (psi & HF & ->). fold (co (poly_mod (nth i ms 0) (F a b)) j). rewrite co_mod. reflexivity.
Qed.

Lemma compatible_represents L ms params p1 p2 a b : represents L ms params p1 a -> represents L ms params p2 b ->
  length params = length ms -> check_compatible p1 p2 = Bool.eqb (rp_is_ntt p1) (rp_is_ntt p2).
Proof.
  intros (D1 & M1 & _ & C1) (D2 & M2 & _ & C2) Lp. unfold check_compatible. rewrite D1, D2, M1, M2, !Nat.eqb_refl. cbn [andb].
  replace (forallb _ _) with true; [| symmetry; apply forallb_forall; intros i _; apply Z.eqb_refl]. cbn [andb].
  replace (length (rp_coeffs p1) =? length (rp_coeffs p2))%nat with true; [reflexivity |].
  symmetry. apply Nat.eqb_eq. rewrite C1, C2. destruct (rp_is_ntt p1), (rp_is_ntt p2); rewrite !map_length; lia.
Qed.

(** C31: creating a polynomial from integer coefficients *)
Theorem C31_generate : forall L moduli params a, rns_setup L moduli params -> length a = (2 ^ L)%nat ->
  represents L moduli params (gen_rns_polynomial (2 ^ L) a moduli) a.
Proof. intros. unfold represents, gen_rns_polynomial. cbn. repeat split; auto. Qed.

(** C31: changing the form changes the form and not the polynomial *)
Theorem C31_to_ntt : forall L moduli params p a, rns_setup L moduli params -> represents L moduli params p a ->
  represents L moduli params (to_ntt_form params p) a /\ rp_is_ntt (to_ntt_form params p) = true.
Proof.
  intros L ms params p a S R. pose proof R as (D & M & La & C). destruct (setup_rows L ms params S) as [Lp HS].
  unfold to_ntt_form. destruct (rp_is_ntt p) eqn:EF; [split; [exact R | exact EF] |].
  split; [| reflexivity]. unfold represents. cbn [rp_degree rp_moduli rp_coeffs rp_is_ntt]. split; [exact D |]. split; [exact M |]. split; [exact La |].
  unfold transform_rows. rewrite M, C. rewrite skipn_all2 by (rewrite map_length; lia). rewrite app_nil_r.
  rewrite !firstn_all2 by (rewrite ?map_length; lia).
  set (d := {| nt_n := 0; nt_q := 0; nt_n_inv := 0; nt_psis := []; nt_psis_inv := [] |}) in *.
  apply (list_ext []); [rewrite map2_length, !map_length; lia |]. intros i Hi. rewrite map2_length, map_length in Hi.
  rewrite (nth_map2 _ d [] []) by (rewrite ?map_length; lia). rewrite (nth_map_lt _ _ _ _ 0) by lia. rewrite (nth_map_lt _ _ _ _ d) by lia.
  destruct (HS i ltac:(lia)) as (_ & _ & Q & psi & _ & HF). rewrite !HF by (rewrite ?poly_mod_length; exact La). apply transform_mod; lia.
Qed.
Theorem C31_to_coeffs : forall L moduli params p a, rns_setup L moduli params -> represents L moduli params p a ->
  represents L moduli params (to_coeffs_form params p) a /\ rp_is_ntt (to_coeffs_form params p) = false.
Proof.
  intros L ms params p a S R. pose proof R as (D & M & La & C). destruct (setup_rows L ms params S) as [Lp HS].
  unfold to_coeffs_form. destruct (rp_is_ntt p) eqn:EF; cbn [negb]; [| split; [exact R | exact EF]].
  split; [| reflexivity]. unfold represents. cbn [rp_degree rp_moduli rp_coeffs rp_is_ntt]. split; [exact D |]. split; [exact M |]. split; [exact La |].
  unfold transform_rows. rewrite M, C. rewrite skipn_all2 by (rewrite map_length; lia). rewrite app_nil_r.
  rewrite !firstn_all2 by (rewrite ?map_length; lia).
  set (d := {| nt_n := 0; nt_q := 0; nt_n_inv := 0; nt_psis := []; nt_psis_inv := [] |}) in *.
  apply (list_ext []); [rewrite map2_length, !map_length; lia |]. intros i Hi. rewrite map2_length, map_length in Hi.
  rewrite (nth_map2 _ d [] []) by (rewrite ?map_length; lia). rewrite (nth_map_lt _ _ _ _ d) by lia. rewrite (nth_map_lt _ _ _ _ 0) by lia.
  destruct (HS i ltac:(lia)) as (A & E & _). apply (C26_backward_forward L _ _ a A E La).
Qed.

Section Ops.
  Variables (L : nat) (moduli : list Z) (params : list ntt_params) (p1 p2 : rns_poly) (a b : list Z).
  Hypothesis S : rns_setup L moduli params.
  Hypothesis R1 : represents L moduli params p1 a.
  Hypothesis R2 : represents L moduli params p2 b.
  Lemma La : length a = (2 ^ L)%nat. Proof. apply R1. Qed.
  Lemma Lb : length b = (2 ^ L)%nat. Proof. apply R2. Qed.

  Lemma add_ok : rp_is_ntt p1 = rp_is_ntt p2 ->
    exists r, rp_add p1 p2 = Some r /\ represents L moduli params r (poly_add a b) /\ rp_is_ntt r = rp_is_ntt p1.
  Proof.
    intros EN. unfold rp_add. rewrite (compatible_represents L moduli params p1 p2 a b R1 R2) by apply (setup_rows L moduli params S).
    rewrite EN, eqb_reflx. eexists. split; [reflexivity |]. split; [| exact EN].
    apply (pointwise_represents L moduli params Z.add poly_add); auto; [rewrite poly_add_length; exact La |].
    intros q psi j Hj Hq Hr. pose proof La. pose proof Lb. unfold entry. destruct (rp_is_ntt p1).
    - symmetry. apply slot_add; auto. congruence.
    - rewrite !eqm_mod, co_add by lia. reflexivity.
  Qed.
  Lemma sub_ok : rp_is_ntt p1 = rp_is_ntt p2 ->
    exists r, rp_sub p1 p2 = Some r /\ represents L moduli params r (poly_sub a b) /\ rp_is_ntt r = rp_is_ntt p1.
  Proof.
    intros EN. unfold rp_sub. rewrite (compatible_represents L moduli params p1 p2 a b R1 R2) by apply (setup_rows L moduli params S).
    rewrite EN, eqb_reflx. eexists. split; [reflexivity |]. split; [| exact EN].
    apply (pointwise_represents L moduli params Z.sub poly_sub); auto; [rewrite poly_sub_length; exact La |].
    intros q psi j Hj Hq Hr. pose proof La. pose proof Lb. unfold entry. destruct (rp_is_ntt p1).
    - symmetry. apply slot_sub; auto. congruence.
    - rewrite !eqm_mod, co_sub by lia. reflexivity.
  Qed.
  Lemma neg_ok : represents L moduli params (rp_neg p1) (poly_neg a) /\ rp_is_ntt (rp_neg p1) = rp_is_ntt p1.
  Proof.
    split; [| reflexivity]. unfold rp_neg.
    apply (pointwise_represents L moduli params (fun x _ => - x) (fun x _ => poly_neg x) p1 p1 a a); auto; [rewrite poly_neg_length; exact La |].
    intros q psi j Hj Hq Hr. pose proof La. pose proof Lb. unfold entry. destruct (rp_is_ntt p1).
    - symmetry. apply slot_neg; auto.
    - rewrite !eqm_mod, co_neg. reflexivity.
  Qed.
  Lemma mul_ok : rp_is_ntt p1 = true -> rp_is_ntt p2 = true ->
    exists r, rp_mul p1 p2 = Some r /\ represents L moduli params r (poly_mul a b) /\ rp_is_ntt r = true.
  Proof.
    intros E1 E2. unfold rp_mul. rewrite (compatible_represents L moduli params p1 p2 a b R1 R2) by apply (setup_rows L moduli params S).
    rewrite E1, E2. cbn. eexists. split; [reflexivity |]. split; [| exact E1].
    apply (pointwise_represents L moduli params Z.mul poly_mul); auto; [congruence | rewrite poly_mul_length; exact La |].
    intros q psi j Hj Hq Hr. pose proof La. pose proof Lb. unfold entry. rewrite E1. symmetry. apply slot_mul; auto.
  Qed.
End Ops.

(** C31: the four operations, in either form *)
Theorem C31_add : forall L moduli params p1 p2 a b, rns_setup L moduli params ->
  represents L moduli params p1 a -> represents L moduli params p2 b -> rp_is_ntt p1 = rp_is_ntt p2 ->
  exists r, rp_add p1 p2 = Some r /\ represents L moduli params r (poly_add a b) /\ rp_is_ntt r = rp_is_ntt p1.
Proof. intros. apply add_ok; assumption. Qed.
Theorem C31_sub : forall L moduli params p1 p2 a b, rns_setup L moduli params ->
  represents L moduli params p1 a -> represents L moduli params p2 b -> rp_is_ntt p1 = rp_is_ntt p2 ->
  exists r, rp_sub p1 p2 = Some r /\ represents L moduli params r (poly_sub a b) /\ rp_is_ntt r = rp_is_ntt p1.
Proof. intros. apply sub_ok; assumption. Qed.
Theorem C31_neg : forall L moduli params p a, rns_setup L moduli params -> represents L moduli params p a ->
  represents L moduli params (rp_neg p) (poly_neg a) /\ rp_is_ntt (rp_neg p) = rp_is_ntt p.
Proof. intros L moduli params p a S R. exact (neg_ok L moduli params p p a a S R R). Qed.
Theorem C31_mul : forall L moduli params p1 p2 a b, rns_setup L moduli params ->
  represents L moduli params p1 a -> represents L moduli params p2 b -> rp_is_ntt p1 = true -> rp_is_ntt p2 = true ->
  exists r, rp_mul p1 p2 = Some r /\ represents L moduli params r (poly_mul a b) /\ rp_is_ntt r = true.
Proof. intros. apply mul_ok; assumption. Qed.

(** C31: incompatible operands are rejected by the three binary operations *)
Theorem C31_incompatible_rejected : forall p1 p2,
  rp_degree p1 <> rp_degree p2 \/ rp_moduli p1 <> rp_moduli p2 \/ rp_is_ntt p1 <> rp_is_ntt p2 ->
  rp_add p1 p2 = None /\ rp_sub p1 p2 = None /\ rp_mul p1 p2 = None.
Proof.
  intros p1 p2 H. assert (C : check_compatible p1 p2 = false).
  { destruct (check_compatible p1 p2) eqn:E; [| reflexivity]. exfalso. unfold check_compatible in E.
    apply andb_prop in E. destruct E as [E E5]. apply andb_prop in E. destruct E as [E E4]. apply andb_prop in E. destruct E as [E E3].
    apply andb_prop in E. destruct E as [E1 E2]. apply Nat.eqb_eq in E1, E2. apply eqb_prop in E5.
    destruct H as [H | [H | H]]; [contradiction | | contradiction]. apply H. apply (list_ext 0); [exact E2 |].
    intros i Hi. rewrite forallb_forall in E3. apply Z.eqb_eq. apply E3. apply in_seq. lia. }
  unfold rp_add, rp_sub, rp_mul. rewrite C. auto.
Qed.
Theorem C31_mul_needs_ntt : forall p1 p2, rp_is_ntt p1 = false \/ rp_is_ntt p2 = false -> rp_mul p1 p2 = None.
Proof.
  intros p1 p2 H. unfold rp_mul. destruct (check_compatible p1 p2); [| reflexivity]. destruct H as [-> | ->]; [reflexivity |].
  cbn. rewrite orb_true_r. reflexivity.
Qed.

(** C31: the polynomial represented is determined modulo Q = product of the moduli, whatever the form *)
Theorem C31_faithful : forall L moduli params p a b, rns_setup L moduli params -> coprime_moduli moduli ->
  represents L moduli params p a -> represents L moduli params p b -> poly_eqm (lprod moduli) a b.
Proof.
  intros L ms params p a b S C Ra Rb.
  destruct (C31_to_coeffs L ms params p a S Ra) as [(_ & _ & La & Ca) Fa]. destruct (C31_to_coeffs L ms params p b S Rb) as [(_ & _ & Lb & Cb) _].
  rewrite Fa in Ca, Cb. split; [congruence |]. intros j Hj. apply crt_unique; [exact C |]. intros m Hm.
  assert (E : poly_mod m a = poly_mod m b).
  { rewrite Ca in Cb. clear - Cb Hm. induction ms as [|q ms IH]; [destruct Hm |]. cbn in Cb. injection Cb as E1 E2.
    destruct Hm as [-> | Hm]; [exact E1 | apply IH; [exact E2 | exact Hm]]. }
  destruct C as [P _]. rewrite Forall_forall in P. apply eqm_mod_iff; [apply P; exact Hm |]. rewrite <- !co_mod, E. reflexivity.
Qed.

Example C31_example_setup : match mk_rns_params 4 [17; 97] with
  | Some params => rns_setup 2 [17; 97] params /\ coprime_moduli [17; 97] /\
     (let x := to_ntt_form params (gen_rns_polynomial 4 [1; -2; 3; 400] [17; 97]) in
      let y := to_ntt_form params (gen_rns_polynomial 4 [0; 0; 0; 1] [17; 97]) in
      match rp_mul x y with Some r => to_coeffs_form params r = gen_rns_polynomial 4 [2; -3; -400; 1] [17; 97] | None => False end)
  | None => False end.
Proof.
  destruct (mk_rns_params 4 [17; 97]) as [params |] eqn:E; [| vm_compute in E; discriminate].
  split; [split |].
  - constructor; [| constructor; [| constructor]]; (split; [lia |]; split; [apply prime_check_sound; vm_compute |]; reflexivity).
  - exact E.
  - split; [split; repeat constructor |]. vm_compute in E. injection E as <-. vm_compute. reflexivity.
Qed.

Print Assumptions C31_to_ntt.
Print Assumptions C31_to_coeffs.
Print Assumptions C31_add.
Print Assumptions C31_mul.
Print Assumptions C31_faithful.
