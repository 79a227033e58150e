(** C35: rescaling divides by the last primes and rounds. *)
From Coq Require Import ZArith Znumtheory List Bool Lia.
From Verif Require Import Base.ZSum Base.Modeq Base.Nega Base.Lists Base.Word Base.Fermat Base.PrimeCheck Base.Crt.
From Verif Require Import Ckks.Model_rns_utils Ckks.Model_math Ckks.Model_ntt_cpu Ckks.Model_barrett Ckks.Spec_barrett Ckks.Model_scheme Ckks.Model_ntt Ckks.Model_rescale Ckks.Spec_ntt Ckks.Spec_poly Ckks.Spec_rescale.
From Verif Require Import Ckks.Proof_ntt_cpu Ckks.Proof_transform Ckks.Prop_crt Ckks.Prop_barrett Ckks.Prop_ntt_cpu Ckks.Proof_slots Ckks.Proof_ntt_accel Ckks.Prop_ntt_accel Ckks.Proof_rescale Ckks.Proof_encrypt.
Import ListNotations.
Local Open Scope Z_scope.

(** the array A holds the integer polynomial a: it is the NTT of the residues of a modulo every prime *)
Definition evaluation_form (moduli : list Z) (a : list Z) (A : array) : Prop := ntt_negacyclic_poly (residue_array a moduli) moduli = Some A.

Lemma evaluation_slots L ms a A : Forall (cpu_admissible L) ms -> length a = (2 ^ L)%nat -> (evaluation_form ms a A <-> slots L ms A (fun _ => a)).
Proof.
  intros HA La. destruct (ntt_residues L ms HA a La) as (B & E & S). unfold evaluation_form. rewrite E. split.
  - intros X. injection X as <-. exact S.
  - intros [LA SA]. f_equal. destruct S as [LB SB]. apply (list_ext []); [lia |]. intros i Hi. rewrite LB in Hi.
    destruct (SB i Hi) as [_ ->]. destruct (SA i Hi) as [_ ->]. reflexivity.
Qed.

(** every ciphertext component is the evaluation form of some integer polynomial *)
Theorem C35_every_component : forall L moduli A, Forall (cpu_admissible L) moduli -> coprime_moduli moduli -> moduli <> [] ->
  uniform_sample (2 ^ L) moduli A -> exists a, length a = (2 ^ L)%nat /\ reduced (lprod moduli) a /\ evaluation_form moduli a A.
Proof.
  intros L moduli A HA HC NE U. destruct (slots_exist L moduli A HA U) as (f & S).
  destruct (C30_reconstruct moduli (map f (seq 0 (length moduli))) (2 ^ L) HC NE) as (xs & _ & Lx & HX).
  - rewrite map_length, seq_length. reflexivity.
  - apply Forall_map. apply Forall_forall. intros i Hi. apply in_seq in Hi. destruct S as [_ S]. apply S. lia.
  - exists xs. split; [exact Lx |]. split.
    + apply Forall_forall. intros x Hx. apply (In_nth _ _ 0) in Hx. destruct Hx as (j & Hj & <-). apply HX. lia.
    + apply (evaluation_slots L moduli xs A HA Lx). destruct S as [LA S]. split; [exact LA |]. intros i Hi. split; [exact Lx |].
      destruct (S i Hi) as [Lf ->]. pose proof (adm L moduli HA i Hi) as Ai. pose proof (admissible_gt1 _ _ Ai) as Q.
      rewrite <- (T_mod L _ (f i) Ai), <- (T_mod L _ xs Ai). f_equal. unfold poly_mod. apply (list_ext 0); [rewrite !map_length; lia |].
      intros j Hj. rewrite map_length, Lf in Hj. rewrite !(nth_map_lt _ _ _ _ 0) by lia. destruct (HX j Hj) as (_ & E & _). rewrite E by exact Hi.
      rewrite (nth_map_seq f) by exact Hi. reflexivity.
Qed.
Print Assumptions C35_every_component.

Lemma firstn_app_exact {A} (l1 l2 : list A) : firstn (length l1) (l1 ++ l2) = l1.
Proof. rewrite <- (Nat.add_0_r (length l1)), firstn_app_2. cbn. apply app_nil_r. Qed.

Lemma rescale_loop_ok lr lc kept total : (0 < length kept)%nat ->
  forall dropped full, Forall (accel_modulus lr lc) (kept ++ rev dropped) -> coprime_moduli (kept ++ rev dropped) ->
  ForallOrdPairs (fun q later => later <= 2 * q + 1) (kept ++ rev dropped) ->
  (length (kept ++ rev dropped) <= total)%nat ->
  ntt_precompute_constants (kept ++ rev dropped) (2 ^ lr) (2 ^ lc) = Some (firstn (length (kept ++ rev dropped)) full) ->
  exists its, rescale_iterations (length dropped) total full (kept ++ rev dropped) = Some its /\
    forall polys data, Forall2 (fun a A => slots (lr + lc) (kept ++ rev dropped) A (fun _ => a)) polys data ->
      exists data', rescale_loop its (kept ++ rev dropped) data = (kept, data') /\
        Forall2 (fun a A => slots (lr + lc) kept A (fun _ => map (nearest_all dropped) a)) polys data'.
Proof.
  intros Hk. induction dropped as [|ql dropped IH]; intros full HM HC HS HT EK.
  - exists []. split; [reflexivity |]. cbn [rev]. rewrite app_nil_r. intros polys data F. exists data. split; [reflexivity |].
    clear - F. induction F as [|a A polys data S F IHF]; constructor; [| exact IHF]. replace (map (nearest_all []) a) with a by (symmetry; apply map_id). exact S.
  - cbn [rev] in *. rewrite app_assoc in *. set (rest := kept ++ rev dropped) in *.
    assert (Hr : (0 < length rest)%nat) by (unfold rest; rewrite app_length; lia).
    assert (HMr : Forall (accel_modulus lr lc) rest) by (rewrite Forall_app in HM; apply HM).
    assert (HSp : Forall (fun q => ql <= 2 * q + 1) rest /\ ForallOrdPairs (fun q later => later <= 2 * q + 1) rest /\ ForallOrdPairs (fun a b => Z.gcd a b = 1) rest).
    { destruct HC as [_ HC]. clear - HS HC. induction rest as [|x l IHl]; [repeat constructor |]. cbn [app] in *. inversion HS as [|? ? F1 F2]; subst. inversion HC as [|? ? G1 G2]; subst.
      destruct (IHl G2 F2) as (I1 & I2 & I3). rewrite Forall_app in F1, G1. destruct F1 as [F1 F3]. rewrite Forall_cons_iff in F3. repeat split; constructor; try tauto. }
    destruct HSp as (HS1 & HS2 & HC2).
    assert (HCr : coprime_moduli rest) by (split; [destruct HC as [HC _]; rewrite Forall_app in HC; apply HC | exact HC2]).
    rewrite app_length in HT, EK. cbn [length] in HT, EK.
    assert (EKr : ntt_precompute_constants rest (2 ^ lr) (2 ^ lc) = Some (firstn (length rest) full)).
    { apply (C28_slice _ _ _ _ (length rest)) in EK. unfold slice_moduli in EK. rewrite firstn_app_exact, firstn_firstn, Nat.min_l in EK by lia. exact EK. }
    destruct (gamma_beta_ok rest ql Hr HC) as (gammas & betas & EGB & Lg & Lb & _).
    { revert HM. apply Forall_impl. intros q Hq. destruct (accel_admissible lr lc q Hq) as (_ & Q & _). lia. }
    assert (exists kl, firstn 1 (skipn (length rest) full) = [kl] /\ ntt_precompute ql (2 ^ lr) (2 ^ lc) = Some kl) as (kl & El & Ekl).
    { assert (Al : accel_modulus lr lc ql) by (rewrite Forall_app in HM; destruct HM as [_ X]; rewrite Forall_cons_iff in X; apply X).
      destruct (accel_admissible lr lc ql Al) as (Aq & Qq & _). destruct (accel_constants_exist lr lc ql Aq Qq) as (kl & Ekl). exists kl. split; [| exact Ekl].
      unfold ntt_precompute_constants in EK. destruct (sequence_opt_nth _ _ kl EK) as [LK NK]. rewrite map_length, app_length in LK, NK. cbn [length] in LK, NK.
      specialize (NK (length rest) ltac:(lia)). rewrite (nth_map_lt _ _ _ _ 0) in NK by (rewrite app_length; cbn; lia).
      rewrite app_nth2, Nat.sub_diag in NK by lia. cbn [nth] in NK. rewrite Ekl in NK. injection NK as NK.
      rewrite firstn_length in LK. rewrite nth_firstn_lt in NK by lia.
      rewrite <- (Nat.add_0_r (length rest)), <- nth_skipn in NK. assert (LS : (0 < length (skipn (length rest) full))%nat) by (rewrite skipn_length; lia).
      destruct (skipn (length rest) full) as [|x l]; [cbn in LS; lia |]. cbn in NK. subst x. reflexivity. }
    destruct (IH full HMr HCr HS2 ltac:(lia) EKr) as (its & EI & HI).
    cbn [length rescale_iterations]. rewrite EGB, removelast_last, EI. eexists. split; [reflexivity |].
    intros polys data F. cbn [rescale_loop]. rewrite removelast_last, app_length. cbn [length].
    replace (length rest + 1 - 1)%nat with (length rest) by lia. rewrite last_last, El.
    set (it := {| rc_gammas := _ |}).
    assert (F' : Forall2 (fun a A => slots (lr + lc) rest A (fun _ => a)) (map (map (nearest ql)) polys) (map (rescale_limbs it (rest ++ [ql])) data)).
    { clear - F HM HC Hr HS1 EGB Lg Lb EKr Ekl. induction F as [|a A polys data S F IHF]; cbn [map]; constructor; [| exact IHF].
      apply (step_ok lr lc rest ql HM HC Hr HS1 it gammas betas kl EGB); try reflexivity; try exact Ekl; try exact EKr; try exact S.
      - unfold it. cbn [rc_gammas]. unfold pad. rewrite <- Lg. apply firstn_app_exact.
      - unfold it. cbn [rc_betas]. unfold pad. rewrite <- Lb. apply firstn_app_exact. }
    destruct (HI _ _ F') as (data' & E & FD). exists data'. split; [exact E |]. clear - FD.
    revert data' FD. induction polys as [|a polys IHP]; intros data' FD; cbn [map] in FD; inversion FD as [|? ? ? ? F1 F2]; subst; constructor; [| apply IHP; exact F2].
    rewrite map_map in F1. exact F1.
Qed.

(** part of C35: for every layout and chain of primes the accelerator handles (see accel_modulus) in which no prime is
    more than twice (plus one) an earlier one, and every ciphertext given by its components as integer polynomials, dropping
    the primes of [dropped] (last prime first) succeeds and gives the components whose coefficients are divided by these
    primes and rounded to the nearest integer, for every remaining prime.
    Missing: primes on which the Barrett kernel is wrong or that are too small for the layout; without the condition on
    the ratio of the primes the claim is false (C35_unbalanced_refuted). *)
Theorem C35_rescale_partial : forall lr lc kept dropped polys ct,
  let moduli := kept ++ rev dropped in
  let n := (2 ^ (lr + lc))%nat in
  kept <> [] -> dropped <> [] -> Forall (accel_modulus lr lc) moduli -> coprime_moduli moduli ->
  ForallOrdPairs (fun q later => later <= 2 * q + 1) moduli ->
  Forall2 (fun a A => length a = n /\ evaluation_form moduli a A) polys (ct_data ct) ->
  exists kernel ct', rescale_precompute moduli (length dropped) (2 ^ lr) (2 ^ lc) = Some kernel /\
    rescale (Some kernel) ct = Some ct' /\ ct_moduli ct' = kept /\
    Forall2 (fun a A => evaluation_form kept (map (nearest_all dropped) a) A) polys (ct_data ct').
Proof.
  intros lr lc kept dropped polys ct moduli n HK HD HM HC HS F.
  assert (HA : Forall (cpu_admissible (lr + lc)) moduli).
  { revert HM. apply Forall_impl. intros q Hq. apply (accel_admissible lr lc q Hq). }
  assert (HAk : Forall (cpu_admissible (lr + lc)) kept) by (unfold moduli in HA; rewrite Forall_app in HA; apply HA).
  assert (exists full, ntt_precompute_constants moduli (2 ^ lr) (2 ^ lc) = Some full) as (full & EF).
  { apply sequence_opt_total. intros o Ho. apply in_map_iff in Ho. destruct Ho as (q & <- & Hq). rewrite Forall_forall in HM.
    destruct (accel_admissible lr lc q (HM q Hq)) as (Aq & Qq & _). destruct (accel_constants_exist lr lc q Aq Qq) as (k & ->). discriminate. }
  assert (LF : length full = length moduli).
  { unfold ntt_precompute_constants in EF. clear - EF. revert full EF. induction moduli as [|q l IH]; intros full E; [cbn in E; injection E as <-; reflexivity |].
    cbn [map sequence_opt] in E. destruct (ntt_precompute _ _ _); [| discriminate]. destruct (sequence_opt _); [| discriminate]. injection E as <-. cbn. rewrite (IH _ eq_refl). reflexivity. }
  assert (Hk0 : (0 < length kept)%nat) by (destruct kept; [contradiction | cbn; lia]).
  destruct (rescale_loop_ok lr lc kept (length moduli) Hk0 dropped full HM HC HS (le_n _)) as (its & EI & HI).
  { fold moduli. rewrite <- LF, firstn_all. exact EF. }
  unfold rescale_precompute. destruct dropped as [|q0 dropped]; [contradiction |]. cbn [length Nat.eqb] in *. rewrite EF. fold moduli in EI. rewrite EI.
  destruct (HI polys (ct_data ct)) as (data' & EL & FD).
  { clear - F HA. induction F as [|a A polys data [La E] F IHF]; constructor; [| exact IHF]. apply (evaluation_slots (lr + lc) moduli a A HA La). exact E. }
  eexists. exists {| ct_data := data'; ct_moduli := kept |}. split; [reflexivity |]. split; [| split; [reflexivity |]].
  - unfold rescale. cbn [rk_moduli rk_r rk_c rk_iterations].
    replace (forallb _ _) with true; [| symmetry; apply forallb_forall; intros A HIn].
    + cbn [negb]. fold moduli in EL. rewrite EL. reflexivity.
    + assert (X : exists a, length a = n /\ evaluation_form moduli a A).
      { clear - F HIn. induction F as [|a B polys data H F IHF]; [contradiction |]. destruct HIn as [<- | HIn]; [exists a; exact H | apply IHF; exact HIn]. }
      destruct X as (a & La & E). apply (evaluation_slots (lr + lc) moduli a A HA La) in E. destruct E as [LA S].
      rewrite LA, Nat.eqb_refl, andb_true_r. apply Nat.eqb_eq. unfold degree_of. destruct (S 0%nat) as [_ ->]; [unfold moduli; rewrite app_length; lia |].
      rewrite T_length. apply Nat.pow_add_r.
  - cbn [ct_data]. clear - FD HAk F. revert data' FD. induction F as [|a A polys data [La _] F IHF]; intros data' FD; inversion FD as [|? B ? ? S FD']; subst; constructor; [| apply IHF; exact FD'].
    apply (evaluation_slots (lr + lc) kept _ B HAk); [rewrite map_length; exact La | exact S].
Qed.
Print Assumptions C35_rescale_partial.

(** C35 at the level of decryption: dropping the last prime q from a two-component ciphertext that decrypts to m gives a
    ciphertext that decrypts, on the remaining primes, to d with q*d = m - err, |err| at most (1 + n)/2 * q for a secret
    with coefficients -1, 0, 1 *)
Theorem C35_decrypts_partial : forall lr lc kept q c0 c1 s ct sk,
  let moduli := kept ++ [q] in
  let n := (2 ^ (lr + lc))%nat in
  kept <> [] -> Forall (accel_modulus lr lc) moduli -> coprime_moduli moduli ->
  ForallOrdPairs (fun q later => later <= 2 * q + 1) moduli ->
  Forall (fun p => length p = n) [c0; c1; s] -> poly_bound 1 s ->
  Forall2 (evaluation_form moduli) [c0; c1] (ct_data ct) ->
  sk_moduli sk = moduli -> evaluation_form moduli s (sk_data sk) ->
  exists kernel ct' d err, rescale_precompute moduli 1 (2 ^ lr) (2 ^ lc) = Some kernel /\ rescale (Some kernel) ct = Some ct' /\
    decrypt sk ct' = Some {| pt_data := residue_array d kept; pt_moduli := kept |} /\
    length d = n /\ length err = n /\
    (forall j, (j < n)%nat -> q * co d j = co (poly_add c0 (poly_mul c1 s)) j - co err j) /\
    poly_bound ((1 + Z.of_nat n) * (q / 2)) err.
Proof.
  intros lr lc kept q c0 c1 s ct sk moduli n HK HM HC HS HF Bs HE EM ES.
  rewrite !Forall_cons_iff in HF. destruct HF as (L0 & L1 & Ls & _).
  assert (HA : Forall (cpu_admissible (lr + lc)) moduli).
  { revert HM. apply Forall_impl. intros p Hp. apply (accel_admissible lr lc p Hp). }
  assert (HSM : scheme_moduli (lr + lc) moduli).
  { split; [unfold moduli; destruct kept; discriminate |]. revert HM. apply Forall_impl. intros p Hp.
    destruct (accel_admissible lr lc p Hp) as (A1 & A2 & _). split; [exact A1 | lia]. }
  assert (Hk0 : (0 < length kept)%nat) by (destruct kept; [contradiction | cbn; lia]).
  assert (EKM : firstn (length kept) moduli = kept) by apply firstn_app_exact.
  assert (HAk : Forall (cpu_admissible (lr + lc)) kept) by (unfold moduli in HA; rewrite Forall_app in HA; apply HA).
  assert (Hq : 1 < q).
  { unfold moduli in HM. rewrite Forall_app in HM. destruct HM as [_ X]. rewrite Forall_cons_iff in X. destruct (accel_admissible lr lc q (proj1 X)) as (_ & Q & _). lia. }
  destruct (C35_rescale_partial lr lc kept [q] [c0; c1] ct) as (kernel & ct' & E1 & E2 & E3 & E4); try assumption; try discriminate.
  { inversion HE as [|? ? ? ? X1 X2 X3 X4]; subst. inversion X2 as [|? ? ? ? Y1 Y2]; subst. inversion Y2; subst. repeat constructor; assumption. }
  assert (exists A0 A1, ct_data ct' = [A0; A1] /\ evaluation_form kept (map (nearest_all [q]) c0) A0 /\ evaluation_form kept (map (nearest_all [q]) c1) A1) as (A0 & A1 & X4 & X1 & Y1).
  { clear - E4. inversion E4 as [|? A0 ? ? X1 X2 X3 X4]; subst. inversion X2 as [|? A1 ? ? Y1 Y2 Y3 Y4]; subst. inversion Y2; subst. exists A0, A1. repeat split; assumption. }
  set (y0 := map (nearest_all [q]) c0) in *. set (y1 := map (nearest_all [q]) c1) in *.
  exists kernel, ct', (poly_add y0 (poly_mul y1 s)), (poly_add (poly_sub c0 (poly_scale q y0)) (poly_mul (poly_sub c1 (poly_scale q y1)) s)).
  assert (Ly0 : length y0 = n) by (unfold y0; rewrite map_length; exact L0). assert (Ly1 : length y1 = n) by (unfold y1; rewrite map_length; exact L1).
  split; [exact E1 |]. split; [exact E2 |]. split; [| split; [| split; [| split]]].
  - assert (X := decrypt_gen (lr + lc) moduli (length kept) sk ct' (fun _ => s) (fun _ => y0) (fun _ => y1) HSM ltac:(unfold moduli; rewrite app_length; lia) EM).
    rewrite EKM in X. rewrite X; clear X; [| | exact E3 | |].
    + f_equal. f_equal. unfold residue_array. apply (list_ext []); [rewrite !map_length, seq_length; reflexivity |]. intros i Hi. rewrite map_length, seq_length in Hi.
      rewrite (nth_map_seq (fun i => poly_mod (nth i kept 0) (poly_add y0 (poly_mul y1 s)))) by exact Hi. rewrite (nth_map_lt _ _ _ _ 0) by exact Hi. reflexivity.
    + apply (evaluation_slots (lr + lc) moduli s _ HA Ls). exact ES.
    + apply slots_cslots; [rewrite <- EKM; apply scheme_firstn; [exact HSM | unfold moduli; rewrite app_length; lia] |]. rewrite X4. cbn [nth].
      apply (evaluation_slots (lr + lc) kept y0 A0 HAk Ly0). exact X1.
    + apply slots_cslots; [rewrite <- EKM; apply scheme_firstn; [exact HSM | unfold moduli; rewrite app_length; lia] |]. rewrite X4. cbn [nth].
      apply (evaluation_slots (lr + lc) kept y1 A1 HAk Ly1). exact Y1.
  - rewrite poly_add_length. exact Ly0.
  - rewrite poly_add_length, poly_sub_length. exact L0.
  - intros j Hj. rewrite !co_add by (rewrite ?poly_sub_length; lia). rewrite co_sub by lia. rewrite co_scale.
    rewrite !co_mul by (rewrite ?poly_sub_length; lia). rewrite poly_sub_length, Ly1, L1.
    assert (X : nega_coeff n (co (poly_sub c1 (poly_scale q y1))) (co s) j = nega_coeff n (co c1) (co s) j - q * nega_coeff n (co y1) (co s) j).
    { transitivity (nega_coeff n (fun i => co c1 i - q * co y1 i) (co s) j).
      - unfold nega_coeff. apply zsum_ext. intros i Hi. rewrite co_sub by lia. rewrite co_scale. reflexivity.
      - unfold nega_coeff. rewrite <- zsum_mul_l, <- zsum_sub. apply zsum_ext. intros i Hi. destruct (_ <=? _)%nat; ring. }
    rewrite X. ring.
  - assert (BN : forall c, length c = n -> poly_bound (q / 2) (poly_sub c (poly_scale q (map (nearest_all [q]) c)))).
    { intros c Lc. apply poly_bound_intro. intros i Hi. rewrite poly_sub_length in Hi. rewrite co_sub by exact Hi. rewrite co_scale. unfold co at 2. rewrite (nth_map_lt _ _ _ _ 0) by exact Hi. fold (co c i).
      cbn [nearest_all fold_left]. pose proof (nearest_spec q (co c i) ltac:(lia)). apply Z.div_le_lower_bound; lia. }
    replace ((1 + Z.of_nat n) * (q / 2)) with (q / 2 + Z.of_nat (length (poly_sub c1 (poly_scale q y1))) * (q / 2 * 1)) by (rewrite poly_sub_length, L1; ring).
    apply poly_bound_add; [rewrite poly_mul_length, !poly_sub_length; lia | apply BN; exact L0 |].
    apply poly_bound_mul; [rewrite poly_sub_length; lia | apply BN; exact L1 | exact Bs].
Qed.
Print Assumptions C35_decrypts_partial.

(** C35: rescaling before the constants have been computed is an error, for every ciphertext; asking for no rescaling, or
    for as many as there are primes, is refused when the constants are computed *)
Theorem C35_rejections : (forall ct, rescale None ct = None) /\ (forall moduli r c, rescale_precompute moduli 0 r c = None) /\
  (forall moduli k r c, (length moduli <= k)%nat -> rescale_precompute moduli k r c = None).
Proof.
  split; [reflexivity |]. split; [reflexivity |]. intros moduli k r c H. unfold rescale_precompute. destruct (Nat.eqb_spec k 0) as [-> | Hk0]; [reflexivity |].
  destruct (ntt_precompute_constants moduli r c) as [full |]; [| reflexivity].
  assert (X : forall total, rescale_iterations k total full moduli = None).
  { intros total. revert moduli H. induction k as [|k IH]; intros moduli H; [lia |]. cbn [rescale_iterations].
    destruct moduli as [|q1 [|q2 moduli]]; [reflexivity | reflexivity |].
    rewrite IH; [destruct (gamma_beta_calculation _) as [[? ?] |]; reflexivity | cbn in H; lia |].
    assert (Y : forall (l : list Z), length (removelast l) = (length l - 1)%nat).
    { intros l. destruct l as [|x l] using rev_ind; [reflexivity |]. rewrite removelast_last, app_length. cbn. lia. }
    rewrite Y. cbn in *. lia. }
  rewrite X. reflexivity.
Qed.
Print Assumptions C35_rejections.

Lemma accel_small lr lc q : prime_check q = true -> (q - 1) mod (2 * 2 ^ Z.of_nat (lr + lc)) = 0 -> q <= 2 ^ 27 ->
  1020 * 2 ^ Z.of_nat lr <= q -> 1020 * 2 ^ Z.of_nat lc <= q -> (lr <= 14)%nat -> (lc <= 14)%nat -> accel_modulus lr lc q.
Proof.
  intros P D Q H1 H2 H3 H4. apply prime_check_sound in P. pose proof (prime_ge_2 q P).
  split; [exact P |]. split; [apply Z.mod_divide; [| exact D]; pose proof (Z.pow_pos_nonneg 2 (Z.of_nat (lr + lc)) ltac:(lia) ltac:(lia)); lia |].
  split; [lia |]. split; [intros z Hz; apply C23_reduction_partial; lia |]. repeat split; assumption.
Qed.

(** without the condition on the ratio of the primes the claim is false: dropping 12289 from the chain 2053, 12289 *)
Theorem C35_unbalanced_refuted : ~ forall lr lc kept dropped polys ct,
  let moduli := kept ++ rev dropped in
  kept <> [] -> dropped <> [] -> Forall (accel_modulus lr lc) moduli -> coprime_moduli moduli ->
  Forall2 (fun a A => length a = (2 ^ (lr + lc))%nat /\ evaluation_form moduli a A) polys (ct_data ct) ->
  exists kernel ct', rescale_precompute moduli (length dropped) (2 ^ lr) (2 ^ lc) = Some kernel /\
    rescale (Some kernel) ct = Some ct' /\ ct_moduli ct' = kept /\
    Forall2 (fun a A => evaluation_form kept (map (nearest_all dropped) a) A) polys (ct_data ct').
Proof.
  intros H. specialize (H 0%nat 1%nat [2053] [12289] [[6145; 0]] {| ct_data := [[[2039; 2039]; [6145; 6145]]]; ct_moduli := [2053; 12289] |}).
  destruct H as (k & ct' & E1 & E2 & E3 & E4).
  - discriminate.
  - discriminate.
  - cbn [app rev]. constructor; [| constructor; [| constructor]]; apply accel_small; try lia; vm_compute; reflexivity.
  - split; [constructor; [lia | constructor; [lia | constructor]] |]. constructor; [constructor; [reflexivity | constructor] | constructor; [constructor | constructor]].
  - constructor; [| constructor]. split; [reflexivity | vm_compute; reflexivity].
  - vm_compute in E1. injection E1 as <-. vm_compute in E2. injection E2 as <-. cbn [ct_data] in E4. inversion E4 as [|? ? ? ? X _]; subst. vm_compute in X. discriminate.
Qed.
Print Assumptions C35_unbalanced_refuted.

Example C35_example_chain : let moduli := [12289; 2053] ++ rev [2069; 2081] in Forall (accel_modulus 0 1) moduli /\ coprime_moduli moduli /\
  ForallOrdPairs (fun q later => later <= 2 * q + 1) moduli.
Proof.
  cbv zeta. cbn [rev app]. split; [| split; [split |]].
  - repeat (constructor; [apply accel_small; try lia; vm_compute; reflexivity |]). constructor.
  - repeat (constructor; [lia |]). constructor.
  - repeat (constructor; [repeat (constructor; [reflexivity |]); constructor |]). constructor.
  - repeat (constructor; [repeat (constructor; [lia |]); constructor |]). constructor.
Qed.
Example C35_example : exists A kernel, evaluation_form ([12289; 2053] ++ rev [2069; 2081]) [6145; -1000000000000] A /\
  rescale_precompute ([12289; 2053] ++ rev [2069; 2081]) 2 1 2 = Some kernel /\
  map (nearest_all [2069; 2081]) [6145; -1000000000000] = [0; -232256] /\
  rescale (Some kernel) {| ct_data := [A]; ct_moduli := [12289; 2053; 2081; 2069] |} = Some {| ct_data := [[[7793; 4496]; [548; 1505]]]; ct_moduli := [12289; 2053] |}.
Proof. eexists. eexists. split; [vm_compute; reflexivity |]. split; [vm_compute; reflexivity |]. split; vm_compute; reflexivity. Qed.
