(** Property C63: CKKS keys and ciphertexts made from random sources. *)
From Coq Require Import ZArith Znumtheory List Bool Lia.
From Verif Require Import Base.ZSum Base.Lists Base.Word Base.Fermat Base.Crt Base.PrimeCheck Cggi.Model_random_source Cggi.Spec_random_source Cggi.Prop_random_source.
From Verif Require Import Ckks.Model_ntt_cpu Ckks.Model_encode Ckks.Model_scheme Ckks.Spec_ntt Ckks.Spec_poly Ckks.Proof_ntt_cpu Ckks.Proof_transform Ckks.Proof_slots Ckks.Proof_encrypt Ckks.Prop_crt Ckks.Prop_encrypt Ckks.Model_session Ckks.Spec_session.
Import ListNotations.
Local Open Scope Z_scope.

Lemma scheme_gt1 L ms : scheme_moduli L ms -> Forall (fun q => 1 < q) ms.
Proof. intros [_ H]. eapply Forall_impl; [| exact H]. intros q [A _]. apply (admissible_gt1 L). exact A. Qed.
Lemma bits_bound c : Forall bit c -> poly_bound 1 c.
Proof. intros H. eapply Forall_impl; [| exact H]. intros x [-> | ->]; cbn; lia. Qed.

Section Session.
Context {S : Type} {L : nat} {moduli : list Z} {B : Z} {keys enc : source S}.
Hypothesis HS : scheme_moduli L moduli.
Hypothesis HK : honest B keys.
Hypothesis HE : honest B enc.
Let n := (2 ^ L)%nat.

Definition good_keys (weight : option nat) (pk : public_key) (sk : secret_key) : Prop := exists s a e, length s = n /\ length e = n /\ uniform_sample n moduli a /\ Forall bit s /\ poly_bound B e /\
  match weight with Some w => ones s = w | None => True end /\ keygen moduli (residue_array s moduli) a (residue_array e moduli) = Some (pk, sk).
Lemma keys_ok weight st : match weight with Some w => (w <= n)%nat | None => True end -> exists pk sk st', new_keys n moduli keys weight st = (Some (pk, sk), st') /\ good_keys weight pk sk.
Proof.
  intros HW. pose proof (scheme_gt1 L moduli HS) as G. unfold new_keys.
  assert (KEY : exists s A st1, match weight with Some w => gen_sparse_binary keys n w moduli st | None => let '(k, s) := gen_ternary_poly keys n moduli st in (Some k, s) end = (Some A, st1) /\ A = residue_array s moduli /\ length s = n /\ Forall bit s /\ match weight with Some w => ones s = w | None => True end).
  { destruct weight as [w|].
    - destruct (honest_sparse _ _ HK n w moduli st G HW) as (A & E & s & Ls & (Bs & Os) & EA). destruct (gen_sparse_binary keys n w moduli st) as [o st1]. cbn [fst] in E. subst o. exists s, A, st1. repeat (split; [first [reflexivity | assumption] |]). exact Os.
    - destruct (honest_ternary _ _ HK n moduli st G) as (s & Ls & Bs & EA). destruct (gen_ternary_poly keys n moduli st) as [A st1]. cbn [fst] in EA. exists s, A, st1. repeat (split; [first [reflexivity | assumption] |]). exact I. }
  destruct KEY as (s & A & st1 & -> & -> & Ls & Bs & Os).
  pose proof (honest_uniform _ _ HK n moduli st1 G) as U. destruct (gen_uniform_poly keys n moduli st1) as [a st2]. cbn [fst] in U.
  destruct (honest_gaussian _ _ HK n moduli st2 G) as (e & Le & Be & EE). destruct (gen_gaussian_poly keys n moduli st2) as [ea st3]. cbn [fst] in EE. subst ea.
  destruct (keygen_ok L moduli HS s a e) as (pk & sk & EK & _); try assumption. exists pk, sk, st3. split; [f_equal; exact EK |]. exists s, a, e. repeat (split; [assumption |]). exact EK.
Qed.
Lemma encrypt_degree pk pt v e0 e1 level m : level <> [] -> encode_plaintext m level = Some pt -> length m = n -> encrypt pk pt v e0 e1 <> None -> pt_moduli pt = level /\ degree_of (pt_data pt) = n /\ list_eqb level (firstn (length level) (pk_moduli pk)) = true.
Proof.
  intros NE EP Lm EC. unfold encode_plaintext in EP. destruct (ntt_negacyclic_poly _ _) as [x|]; [| discriminate]. injection EP as <-. unfold encrypt in EC. cbn [pt_moduli pt_data] in *.
  split; [reflexivity |]. split; [| destruct (list_eqb _ _); [reflexivity | exfalso; apply EC; reflexivity]]. unfold degree_of, tab. destruct level as [|q level]; [contradiction |]. cbn [length seq map nth]. rewrite map_length, seq_length. exact Lm.
Qed.
Lemma trips_ok weight pk sk messages : good_keys weight pk sk -> Forall (fun mk => length (fst mk) = n /\ (1 <= snd mk <= length moduli)%nat) messages ->
  forall st, exists outs st', round_trips pk sk moduli enc messages st = (Some outs, st') /\
    Forall2 (fun mk pt => exists noise, length noise = n /\ poly_bound ((2 * Z.of_nat n + 1) * B) noise /\
      pt = {| pt_data := residue_array (poly_add (fst mk) noise) (firstn (snd mk) moduli); pt_moduli := firstn (snd mk) moduli |}) messages outs.
Proof.
  intros (s & a & e & Ls & Le & Ua & Bs & Be & _ & EK) F. induction F as [|[m k] messages [Lm Hk] F IH]; intros st; cbn [round_trips]; [exists [], st; split; [reflexivity | constructor] |].
  cbn [fst snd] in Lm, Hk. pose proof (scheme_firstn L moduli k HS Hk) as HS'. pose proof (scheme_gt1 L _ HS') as G.
  assert (Z0 : length (repeat 0 n) = n) by apply repeat_length.
  destruct (C32_decrypt_encrypt L moduli k s a e m (repeat 0 n) (repeat 0 n) (repeat 0 n) HS Hk Ua ltac:(repeat (constructor; [assumption |]); constructor)) as (pk' & sk' & pt & ct0 & EK' & EP & EC0 & _). rewrite EK in EK'. injection EK' as <- <-.
  rewrite EP. destruct (encrypt_degree pk pt _ _ _ (firstn k moduli) m ltac:(apply HS') EP Lm ltac:(rewrite EC0; discriminate)) as (MP & DG & EQ).
  unfold new_encryption. rewrite MP, DG, EQ. cbn [negb].
  destruct (honest_ternary _ _ HE n (firstn k moduli) st G) as (v & Lv & Bv & EV). destruct (gen_ternary_poly enc n (firstn k moduli) st) as [va st1]. cbn [fst] in EV. subst va.
  destruct (honest_gaussian _ _ HE n (firstn k moduli) st1 G) as (e0 & L0 & B0 & E0). destruct (gen_gaussian_poly enc n (firstn k moduli) st1) as [a0 st2]. cbn [fst] in E0. subst a0.
  destruct (honest_gaussian _ _ HE n (firstn k moduli) st2 G) as (e1 & L1 & B1 & E1). destruct (gen_gaussian_poly enc n (firstn k moduli) st2) as [a1 st3]. cbn [fst] in E1. subst a1.
  destruct (C32_decrypt_encrypt L moduli k s a e m v e0 e1 HS Hk Ua ltac:(repeat (constructor; [assumption |]); constructor)) as (pk' & sk' & pt' & ct & EK' & EP' & EC & _ & ED). rewrite EK in EK'. injection EK' as <- <-. rewrite EP in EP'. injection EP' as <-.
  rewrite EC, ED. destruct (IH st3) as (outs & st4 & -> & FF). eexists. exists st4. split; [reflexivity |]. constructor; [| exact FF]. exists (fresh_noise s e v e0 e1). cbn [fst snd]. split; [unfold fresh_noise; rewrite !poly_add_length, poly_mul_length; exact Lv |]. split; [| reflexivity].
  apply C32_noise_bound; try assumption; [repeat (constructor; [assumption |]); constructor | apply bits_bound; assumption | apply bits_bound; assumption].
Qed.
End Session.

(** For every chain of admissible primes, degree 2^L, pair of sources (the same object or two) that keep their contract, in whatever state,
    with a dense or a sparse secret: keys are generated and every message of any sequence, at any level, comes back up to noise of at most
    (2n + 1)B. *)
Theorem C63_session : forall (S : Type) L moduli B (keys enc : source S) weight messages st,
  scheme_moduli L moduli -> honest B keys -> honest B enc -> match weight with Some w => (w <= 2 ^ L)%nat | None => True end ->
  Forall (fun mk => length (fst mk) = (2 ^ L)%nat /\ (1 <= snd mk <= length moduli)%nat) messages ->
  exists outs st', session (2 ^ L) moduli keys enc weight messages st = (Some outs, st') /\
    Forall2 (fun mk pt => exists noise, length noise = (2 ^ L)%nat /\ poly_bound ((2 * Z.of_nat (2 ^ L) + 1) * B) noise /\
      pt = {| pt_data := residue_array (poly_add (fst mk) noise) (firstn (snd mk) moduli); pt_moduli := firstn (snd mk) moduli |}) messages outs.
Proof.
  intros S L moduli B keys enc weight messages st HS HK HE HW F. unfold session. destruct (keys_ok HS HK weight st HW) as (pk & sk & st1 & -> & GK). exact (trips_ok HS HE weight pk sk messages GK F st1).
Qed.
Print Assumptions C63_session.

(** *** the sources of the library *)
Lemma draws_P {S} (gen : S -> Z * S) (P : Z -> Prop) k : forall s, (forall s, P (fst (gen s))) -> length (fst (draws gen k s)) = k /\ Forall P (fst (draws gen k s)).
Proof.
  induction k as [|k IH]; intros s H; cbn [draws]; [split; [reflexivity | constructor] |]. pose proof (H s) as Hs. destruct (gen s) as [v s1]. specialize (IH s1 H). destruct (draws gen k s1) as [l s2]. cbn [fst length] in *. destruct IH as [L1 F]. split; [congruence | constructor; assumption].
Qed.
Lemma sparse_column k indices : Forall (fun i => (i < k)%nat) indices -> forall v, length v = k -> Forall bit v ->
  length (fold_left (fun v i => upd i 1 v) indices v) = k /\ Forall bit (fold_left (fun v i => upd i 1 v) indices v) /\
  forall j, (j < k)%nat -> nth j (fold_left (fun v i => upd i 1 v) indices v) 0 = if existsb (Nat.eqb j) indices then 1 else nth j v 0.
Proof.
  intros F. induction F as [|i indices Hi F IH]; intros v Lv Bv; cbn [fold_left existsb]; [repeat split; auto |].
  destruct (IH (upd i 1 v) ltac:(rewrite upd_length; exact Lv)) as (A1 & A2 & A3).
  { apply Forall_forall. intros x Hx. apply (In_nth _ _ 0) in Hx. destruct Hx as (j & Hj & <-). rewrite upd_length in Hj. destruct (Nat.eq_dec j i) as [-> | NE]; [rewrite nth_upd_eq by lia; right; reflexivity | rewrite nth_upd_neq by congruence; rewrite Forall_forall in Bv; apply Bv; apply nth_In; exact Hj]. }
  split; [exact A1 |]. split; [exact A2 |]. intros j Hj. rewrite (A3 j Hj). destruct (Nat.eqb_spec j i) as [-> | NE]; cbn [orb].
  - rewrite nth_upd_eq by lia. destruct (existsb _ _); reflexivity.
  - rewrite nth_upd_neq by congruence. reflexivity.
Qed.
Lemma count_positions (l : list Z) : count_occ Z.eq_dec l 1 = length (filter (fun j => nth j l 0 =? 1) (seq 0 (length l))).
Proof.
  induction l as [|x l IH]; [reflexivity |]. cbn [length seq filter]. rewrite <- seq_shift. change (nth 0 (x :: l) 0) with x.
  assert (R : forall m, length (filter (fun j => nth j (x :: l) 0 =? 1) (map Datatypes.S m)) = length (filter (fun j => nth j l 0 =? 1) m)).
  { induction m as [|a m IHm]; [reflexivity |]. cbn [map filter]. change (nth (Datatypes.S a) (x :: l) 0) with (nth a l 0). destruct (nth a l 0 =? 1); cbn [length]; rewrite IHm; reflexivity. }
  cbn [count_occ]. destruct (Z.eq_dec x 1) as [-> | NE].
  - change (1 =? 1) with true. cbn [length]. rewrite R, IH. reflexivity.
  - rewrite (proj2 (Z.eqb_neq x 1) NE), R. exact IH.
Qed.
Lemma sparse_holds n indices ms : Forall (fun q => 1 < q) ms -> NoDup indices -> Forall (fun i => (i < n)%nat) indices ->
  holds n ms (fun c => Forall bit c /\ ones c = length indices) (sparse_binary n indices ms).
Proof.
  intros G ND F. unfold sparse_binary. set (v := fold_left _ _ _). destruct (sparse_column n indices F (repeat 0 n) (repeat_length 0 n) ltac:(apply Forall_forall; intros x Hx; apply repeat_spec in Hx; left; exact Hx)) as (A1 & A2 & A3). fold v in A1, A2, A3.
  exists v. split; [exact A1 |]. split; [split; [exact A2 |] |].
  - unfold ones. rewrite count_positions, A1.
    assert (Q : filter (fun j => nth j v 0 =? 1) (seq 0 n) = filter (fun j => existsb (Nat.eqb j) indices) (seq 0 n)).
    { apply filter_ext_in. intros j Hj. apply in_seq in Hj. rewrite A3 by lia. destruct (existsb _ _); [reflexivity |]. rewrite nth_repeat. reflexivity. }
    rewrite Q. apply Nat.le_antisymm.
    + apply NoDup_incl_length; [apply NoDup_filter, seq_NoDup |]. intros j Hj. apply filter_In in Hj. destruct Hj as [_ Hj]. apply existsb_exists in Hj. destruct Hj as (i & Hi & E). apply Nat.eqb_eq in E. subst i. exact Hi.
    + apply NoDup_incl_length; [exact ND |]. intros j Hj. apply filter_In. split; [apply in_seq; rewrite Forall_forall in F; specialize (F j Hj); lia |]. apply existsb_exists. exists j. split; [exact Hj | apply Nat.eqb_refl].
  - unfold residue_array. apply map_ext_in. intros q Hq. rewrite Forall_forall in G. specialize (G q Hq). symmetry. rewrite <- (map_id v) at 2. apply map_ext_in. intros x Hx. rewrite Forall_forall in A2. destruct (A2 x Hx) as [-> | ->]; apply Z.mod_small; lia.
Qed.
(** SecureRandomSource, TestRandomSource (any generator) and ZeroNoiseRandomSource *)
Theorem C63_sources : forall (S : Type) B (rng : generator S), 0 <= B -> python_generator B rng -> honest B (secure_source rng) /\ honest 0 (zero_noise_source rng).
Proof.
  intros S B rng HB [P1 P2 P3 P4 P5].
  assert (T : forall n ms s, holds n ms (Forall bit) (fst (ternary rng n ms s))).
  { intros n ms s. unfold ternary. destruct (draws_P (choice01 rng) bit n s P1) as [L1 F]. destruct (draws (choice01 rng) n s) as [c s1]. cbn [fst] in *. exists c. repeat split; assumption. }
  assert (U : forall n ms s, Forall (fun q => 1 < q) ms -> uniform_sample n ms (fst (uniform rng n ms s))).
  { intros n ms s G. revert s. induction G as [|q ms Hq G IH]; intros s; cbn [uniform]; [constructor |]. destruct (draws_P (randrange rng q) (fun x => 0 <= x < q) n s ltac:(intros; apply P2; lia)) as [L1 F]. destruct (draws (randrange rng q) n s) as [col s1]. specialize (IH s1). destruct (uniform rng n ms s1) as [cols s2]. cbn [fst] in *. constructor; [split; assumption | exact IH]. }
  assert (P : forall n w ms s, Forall (fun q => 1 < q) ms -> (w <= n)%nat -> exists A, fst (sparse rng n w ms s) = Some A /\ holds n ms (fun c => Forall bit c /\ ones c = w) A).
  { intros n w ms s G HW. unfold sparse. destruct (P4 n w s HW) as (l & E & ND & LL & F). destruct (sample rng n w s) as [o s1]. cbn [fst] in *. subst o. eexists. split; [reflexivity |]. rewrite <- LL. apply sparse_holds; assumption. }
  split; constructor; cbn [secure_source zero_noise_source gen_gaussian_poly gen_ternary_poly gen_uniform_poly gen_sparse_binary]; auto.
  - intros n ms s _. unfold gaussian. destruct (draws_P (rounded_normal rng) (fun x => Z.abs x <= B) n s P3) as [L1 F]. destruct (draws (rounded_normal rng) n s) as [c s1]. cbn [fst] in *. exists c. repeat split; assumption.
  - intros n ms s G. cbn [fst]. exists (repeat 0 n). split; [apply repeat_length |]. split; [apply Forall_forall; intros x Hx; apply repeat_spec in Hx; subst x; cbn; lia |].
    unfold residue_array. apply map_ext. intros q. rewrite <- (map_id (repeat 0 n)) at 1. apply map_ext_in. intros x Hx. apply repeat_spec in Hx. subst x. symmetry. apply Zmod_0_l.
Qed.
Print Assumptions C63_sources.
(** so with ZeroNoiseRandomSource every message comes back exactly *)
Theorem C63_noiseless : forall (S : Type) L moduli B (rng : generator S) weight messages st,
  scheme_moduli L moduli -> 0 <= B -> python_generator B rng -> match weight with Some w => (w <= 2 ^ L)%nat | None => True end ->
  Forall (fun mk => length (fst mk) = (2 ^ L)%nat /\ (1 <= snd mk <= length moduli)%nat) messages ->
  exists st', session (2 ^ L) moduli (zero_noise_source rng) (zero_noise_source rng) weight messages st =
    (Some (map (fun mk => {| pt_data := residue_array (fst mk) (firstn (snd mk) moduli); pt_moduli := firstn (snd mk) moduli |}) messages), st').
Proof.
  intros S L moduli B rng weight messages st HS HB HP HW F. destruct (C63_sources S B rng HB HP) as [_ H0].
  destruct (C63_session S L moduli 0 _ _ weight messages st HS H0 H0 HW F) as (outs & st' & E & FF). exists st'. rewrite E. f_equal. f_equal. clear E.
  revert F. induction FF as [|mk pt messages outs (noise & Ln & Bn & ->) FF IH]; intros F; [reflexivity |]. inversion F as [|? ? [Lm Hk] F']. subst. cbn [map]. f_equal; [| apply IH; exact F']. f_equal. f_equal.
  apply (list_eq_nth 0); [rewrite poly_add_length; reflexivity |]. intros j Hj. rewrite poly_add_length in Hj. unfold poly_add. rewrite (nth_map_lt _ _ j 0 0%nat) by (rewrite seq_length; exact Hj). rewrite seq_nth by exact Hj. cbn [Nat.add].
  assert (N0 : co noise j = 0). { unfold co. assert (IN : In (nth j noise 0) noise) by (apply nth_In; lia). unfold poly_bound in Bn. rewrite Forall_forall in Bn. specialize (Bn _ IN). lia. } rewrite N0. unfold co. lia.
Qed.
Print Assumptions C63_noiseless.
(** a weight above the degree raises, and nothing else is drawn *)
Theorem C63_weight_error : forall (S : Type) B (rng : generator S) n w moduli st, python_generator B rng -> (n < w)%nat ->
  new_keys n moduli (secure_source rng) (Some w) st = (None, snd (sample rng n w st)).
Proof. intros S B rng n w moduli st HP H. unfold new_keys. cbn [secure_source gen_sparse_binary]. unfold sparse. pose proof (py_sample_error _ _ HP n w st H) as E. destruct (sample rng n w st) as [o s1]. cbn [fst] in E. subst o. reflexivity. Qed.
Print Assumptions C63_weight_error.

(** *** the draws *)
Lemma recording_honest {S} B r (src : source S) : honest B src -> honest B (recording r src).
Proof. intros [H1 H2 H3 H4]. constructor; cbn [recording gen_gaussian_poly gen_ternary_poly gen_uniform_poly gen_sparse_binary fst]; intros; auto. Qed.
(** every polynomial is drawn once and in this order: three for the keys, three fresh ones for every encryption *)
Theorem C63_draws : forall (S : Type) L moduli B (keys enc : source S) weight messages st log,
  scheme_moduli L moduli -> honest B keys -> honest B enc -> match weight with Some w => (w <= 2 ^ L)%nat | None => True end ->
  Forall (fun mk => length (fst mk) = (2 ^ L)%nat /\ (1 <= snd mk <= length moduli)%nat) messages ->
  exists outs st', session (2 ^ L) moduli (recording Keys keys) (recording Encryption enc) weight messages (st, log) = (Some outs, (st', log ++ expected_calls (2 ^ L) moduli weight messages)).
Proof.
  intros S L moduli B keys enc weight messages st log HS HK HE HW F. unfold session.
  destruct (keys_ok HS (recording_honest B Keys keys HK) weight (st, log) HW) as (pk & sk & st1 & E & GK). rewrite E.
  assert (LG : exists x, st1 = (x, log ++ [(Keys, match weight with Some w => Sparse w | None => Ternary end, (2 ^ L)%nat, moduli); (Keys, Uniform, (2 ^ L)%nat, moduli); (Keys, Gaussian, (2 ^ L)%nat, moduli)])).
  { revert E. unfold new_keys. destruct weight as [w|]; cbn [recording gen_gaussian_poly gen_ternary_poly gen_uniform_poly gen_sparse_binary fst snd].
    - destruct (fst (gen_sparse_binary keys _ _ _ _)) as [A|]; [| discriminate]. intros E. injection E as _ <-. eexists. rewrite <- !app_assoc. reflexivity.
    - intros E. injection E as _ <-. eexists. rewrite <- !app_assoc. reflexivity. }
  destruct LG as (x & ->). clear E. unfold expected_calls. rewrite app_assoc. match goal with |- context [round_trips _ _ _ _ _ (x, ?lg)] => set (start := lg) end.
  match goal with |- context [app ?lg (flat_map _ _)] => change lg with start end. clearbody start. clear log st. rename start into log. revert x log.
 pose proof (trips_ok HS (recording_honest B Encryption enc HE) weight pk sk messages GK F) as T. destruct GK as (s & a & e & Ls & Le & Ua & Bs & Be & _ & EK).
  induction F as [|[m k] messages [Lm Hk] F IH]; intros x log; cbn [round_trips flat_map]; [exists [], x; rewrite app_nil_r; reflexivity |].
  assert (T' : forall st, exists outs st', round_trips pk sk moduli (recording Encryption enc) messages st = (Some outs, st') /\ Forall2 (fun mk pt => exists noise, length noise = (2 ^ L)%nat /\ poly_bound ((2 * Z.of_nat (2 ^ L) + 1) * B) noise /\ pt = {| pt_data := residue_array (poly_add (fst mk) noise) (firstn (snd mk) moduli); pt_moduli := firstn (snd mk) moduli |}) messages outs).
  { apply (trips_ok HS (recording_honest B Encryption enc HE) None); [exists s, a, e; repeat (split; [assumption |]); split; [exact I | exact EK] | exact F]. }
  specialize (IH T'). specialize (T (x, log)). cbn [round_trips] in T.
  cbn [fst snd] in Lm, Hk. pose proof (scheme_firstn L moduli k HS Hk) as HS'. assert (Z0 : length (repeat 0 (2 ^ L)) = (2 ^ L)%nat) by apply repeat_length.
  destruct (C32_decrypt_encrypt L moduli k s a e m (repeat 0 (2 ^ L)) (repeat 0 (2 ^ L)) (repeat 0 (2 ^ L)) HS Hk Ua ltac:(repeat (constructor; [assumption |]); constructor)) as (pk' & sk' & pt & ct0 & EK' & EP & EC0 & _). rewrite EK in EK'. injection EK' as <- <-.
  rewrite EP in T |- *. destruct (encrypt_degree (L := L) pk pt _ _ _ (firstn k moduli) m ltac:(apply HS') EP Lm ltac:(rewrite EC0; discriminate)) as (MP & DG & EQ).
  unfold new_encryption in T |- *. rewrite MP, DG, EQ in T |- *. cbn [negb recording gen_gaussian_poly gen_ternary_poly fst snd] in T |- *.
  destruct (match encrypt pk pt _ _ _ with None => None | Some ct => decrypt sk ct end) as [out|]; [| destruct T as (outs & st' & E & _); discriminate].
  match goal with |- context [round_trips pk sk moduli _ messages (?y, ?lg)] => destruct (IH y lg) as (outs & st' & E) end. rewrite E. exists (out :: outs), st'. f_equal. f_equal. rewrite <- !app_assoc. reflexivity.
Qed.
Print Assumptions C63_draws.

(** ** Examples *)
Definition ex_rng : generator Z := {| choice01 := fun s => (s mod 2, 5 * s + 3); randrange := fun q s => (s mod q, 5 * s + 3); rounded_normal := fun s => (s mod 7 - 3, 5 * s + 3);
  sample := fun n w s => (if (w <=? n)%nat then Some (seq 0 w) else None, s) |}.
Lemma ex_python : python_generator 3 ex_rng.
Proof.
  constructor; cbn [ex_rng choice01 randrange rounded_normal sample fst].
  - intros s. pose proof (Z.mod_pos_bound s 2 ltac:(lia)). unfold bit. lia.
  - intros q s H. apply Z.mod_pos_bound. exact H.
  - intros s. pose proof (Z.mod_pos_bound s 7 ltac:(lia)). lia.
  - intros n w s H. apply Nat.leb_le in H. rewrite H. eexists. split; [reflexivity |]. split; [apply seq_NoDup |]. split; [apply seq_length |]. apply Forall_forall. intros i Hi. apply in_seq in Hi. apply Nat.leb_le in H. lia.
  - intros n w s H. apply Nat.leb_gt in H. rewrite H. reflexivity.
Qed.
Example C63_session_ex : honest 3 (secure_source ex_rng) /\ scheme_moduli 2 [97; 193] /\
  (exists outs st', session 4 [97; 193] (secure_source ex_rng) (secure_source ex_rng) (Some 3%nat) [([5; -7; 0; 1], 2%nat); ([1; 2; 3; 4], 1%nat)] 1 = (Some outs, st')) /\
  exists st', session 4 [97; 193] (zero_noise_source ex_rng) (zero_noise_source ex_rng) None [([5; -7; 0; 1], 2%nat)] 1 = (Some [{| pt_data := [[5; 90; 0; 1]; [5; 186; 0; 1]]; pt_moduli := [97; 193] |}], st').
Proof.
  assert (H : honest 3 (secure_source ex_rng)) by (apply C63_sources; [lia | apply ex_python]). pose proof (proj1 C32_example_moduli) as M.
  split; [exact H |]. split; [exact M |]. split.
  - destruct (C63_session Z 2 [97; 193] 3 _ _ (Some 3%nat) [([5; -7; 0; 1], 2%nat); ([1; 2; 3; 4], 1%nat)] 1 M H H ltac:(cbn; lia) ltac:(repeat constructor)) as (outs & st' & E & _). exists outs, st'. exact E.
  - apply (C63_noiseless Z 2 [97; 193] 3 ex_rng None [([5; -7; 0; 1], 2%nat)] 1 M ltac:(lia) ex_python I). repeat constructor.
Qed.
