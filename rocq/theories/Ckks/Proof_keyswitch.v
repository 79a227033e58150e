(** Key switching: extension of a digit to all moduli, key parts, accumulation. *)
From Coq Require Import ZArith Znumtheory List Bool Lia Permutation.
From Verif Require Import Base.ZSum Base.Modeq Base.Nega Base.Powm Base.Lists Base.Word Base.Fermat Base.Crt.
From Verif Require Import Ckks.Model_rns_utils Ckks.Model_ntt_cpu Ckks.Model_barrett Ckks.Spec_barrett Ckks.Model_scheme Ckks.Model_ntt Ckks.Model_addmul Ckks.Model_basis Ckks.Model_plan Ckks.Model_keyswitch Ckks.Spec_ntt Ckks.Spec_poly.
From Verif Require Import Ckks.Proof_ntt_cpu Ckks.Proof_transform Ckks.Prop_crt Ckks.Prop_barrett Ckks.Prop_ntt_cpu Ckks.Proof_slots Ckks.Proof_ntt_accel Ckks.Prop_ntt_accel Ckks.Proof_basis Ckks.Proof_encrypt Ckks.Prop_plan.
Import ListNotations.
Local Open Scope Z_scope.

Local Notation u64 := Model_scheme.u64.
Local Notation u32 := Model_scheme.u32.

Lemma list_choice n (P : nat -> Z -> Prop) : (forall j, (j < n)%nat -> exists u, P j u) -> exists us, length us = n /\ forall j, (j < n)%nat -> P j (nth j us 0).
Proof.
  induction n as [|n IH]; intros H; [exists []; split; [reflexivity | lia] |].
  destruct IH as (us & L & HU); [intros j Hj; apply H; lia |]. destruct (H n ltac:(lia)) as (u & Hu). exists (us ++ [u]).
  split; [rewrite app_length, L; cbn; lia |]. intros j Hj. destruct (Nat.eq_dec j n) as [-> | NE].
  - rewrite app_nth2 by lia. rewrite L, Nat.sub_diag. exact Hu.
  - rewrite app_nth1 by lia. apply HU. lia.
Qed.

(** sums of polynomials *)
Definition poly_sum (n k : nat) (f : nat -> list Z) : list Z := map (fun j => zsum k (fun t => co (f t) j)) (seq 0 n).
Lemma poly_sum_length n k f : length (poly_sum n k f) = n.
Proof. unfold poly_sum. rewrite map_length, seq_length. reflexivity. Qed.
Lemma co_sum n k f j : (j < n)%nat -> co (poly_sum n k f) j = zsum k (fun t => co (f t) j).
Proof. intros H. unfold co at 1, poly_sum. rewrite nth_map_seq by exact H. reflexivity. Qed.
Lemma poly_sum_S n k f : length (f k) = n -> poly_sum n (S k) f = poly_add (poly_sum n k f) (f k).
Proof.
  intros E. apply (list_ext 0); [rewrite poly_add_length, !poly_sum_length; reflexivity |]. intros j Hj. rewrite poly_sum_length in Hj.
  change (co (poly_sum n (S k) f) j = co (poly_add (poly_sum n k f) (f k)) j). rewrite co_add by (rewrite poly_sum_length; exact Hj). rewrite !co_sum by exact Hj. reflexivity.
Qed.
Lemma slot_sum L q k f j : cpu_admissible L q -> (j < 2 ^ L)%nat -> (forall t, (t < k)%nat -> length (f t) = (2 ^ L)%nat) ->
  nth j (T L q (poly_sum (2 ^ L) k f)) 0 == zsum k (fun t => nth j (T L q (f t)) 0) [mod q].
Proof.
  intros A Hj. pose proof (admissible_gt1 L q A) as Q. pose proof (psi_of_root L q A) as R. induction k as [|k IH]; intros Lf.
  - unfold T. rewrite slot_eval by exact Hj. apply eqm_eq. rewrite eval_co. cbn [zsum]. unfold evalf. apply zsum_zero. intros i Hi. rewrite poly_sum_length in Hi. rewrite co_sum by exact Hi. cbn. ring.
  - rewrite poly_sum_S by (apply Lf; lia). cbn [zsum]. rewrite <- IH by (intros t Ht; apply Lf; lia). unfold T. apply slot_add; [exact Hj |]. rewrite poly_sum_length, Lf by lia. reflexivity.
Qed.
Lemma poly_sum_bound n k f (B : nat -> Z) : (forall t, (t < k)%nat -> length (f t) = n /\ poly_bound (B t) (f t)) -> poly_bound (zsum k B) (poly_sum n k f).
Proof.
  intros H. apply poly_bound_intro. intros i Hi. rewrite poly_sum_length in Hi. rewrite co_sum by exact Hi. etransitivity; [apply zsum_abs |]. apply zsum_le. intros t Ht.
  destruct (H t Ht) as [E BT]. apply poly_bound_co; [exact BT | lia].
Qed.

(** set_columns *)
Lemma set_columns_spec idx : forall cols A, NoDup idx -> length cols = length idx -> Forall (fun i => (i < length A)%nat) idx ->
  length (set_columns idx cols A) = length A /\
  (forall t, (t < length idx)%nat -> nth (nth t idx 0%nat) (set_columns idx cols A) [] = nth t cols []) /\
  (forall i, ~ In i idx -> nth i (set_columns idx cols A) [] = nth i A []).
Proof.
  unfold set_columns. induction idx as [|x idx IH]; intros cols A ND LC F.
  - cbn. split; [reflexivity |]. split; [intros t Ht; lia | reflexivity].
  - destruct cols as [|c cols]; [discriminate |]. cbn [combine fold_left fst snd]. rewrite Forall_cons_iff in F. destruct F as [Fx F]. rewrite NoDup_cons_iff in ND. destruct ND as [NX ND].
    destruct (IH cols (upd x c A) ND) as (I1 & I2 & I3); [cbn in LC; lia | rewrite upd_length; exact F |]. rewrite upd_length in I1.
    split; [exact I1 |]. split.
    + intros t Ht. destruct t as [|t]; cbn [nth]; [rewrite I3 by exact NX; apply nth_upd_eq; exact Fx | apply I2; cbn in Ht; lia].
    + intros i Hi. cbn [In] in Hi. rewrite I3 by tauto. apply nth_upd_neq. tauto.
Qed.

Lemma nth_pick {A} (d : A) l idx t : (t < length idx)%nat -> nth t (pick d l idx) d = nth (nth t idx 0%nat) l d.
Proof. intros H. unfold pick. rewrite (nth_map_lt _ _ _ _ 0%nat) by exact H. reflexivity. Qed.
Lemma pick_length {A} (d : A) l idx : length (pick d l idx) = length idx.
Proof. apply map_length. Qed.

Lemma slots_pick L ms A a idx : slots L ms A a -> Forall (fun i => (i < length ms)%nat) idx -> slots L (pick 0 ms idx) (pick [] A idx) (fun t => a (nth t idx 0%nat)).
Proof.
  intros [LA S] F. split; [rewrite !pick_length; reflexivity |]. intros t Ht. rewrite pick_length in Ht. rewrite !nth_pick by exact Ht.
  apply S. rewrite Forall_forall in F. apply F, nth_In, Ht.
Qed.
Lemma slots_cast32 L ms A a : Forall (cpu_admissible L) ms -> Forall (fun q => q <= 2 ^ 32) ms -> slots L ms A a -> cast32 A = A.
Proof.
  intros HA HQ [LA S]. unfold cast32. apply (list_ext []); [apply map_length |]. intros i Hi. rewrite map_length in Hi. rewrite (nth_map_lt _ _ _ _ []) by exact Hi.
  destruct (S i ltac:(lia)) as [La ->]. apply (list_ext 0); [apply map_length |]. intros j Hj. rewrite map_length, T_length in Hj. rewrite (nth_map_lt _ _ _ _ 0) by (rewrite T_length; exact Hj).
  pose proof (T_range L (nth i ms 0) (a i) j (adm L ms HA i ltac:(lia)) Hj) as R. rewrite Forall_forall in HQ. pose proof (HQ (nth i ms 0) ltac:(apply nth_In; lia)). apply u32_small. lia.
Qed.

Lemma accel_scheme lr lc ms : ms <> [] -> Forall (accel_modulus lr lc) ms -> scheme_moduli (lr + lc) ms.
Proof.
  intros NE HM. split; [exact NE |]. revert HM. apply Forall_impl. intros p Hp. destruct (accel_admissible lr lc p Hp) as (A1 & A2 & _). split; [exact A1 | lia].
Qed.
Lemma accel_adm lr lc ms : Forall (accel_modulus lr lc) ms -> Forall (cpu_admissible (lr + lc)) ms.
Proof. apply Forall_impl. intros p Hp. apply (accel_admissible lr lc p Hp). Qed.
Lemma accel_le32 lr lc ms : Forall (accel_modulus lr lc) ms -> Forall (fun q => q <= 2 ^ 32) ms.
Proof. apply Forall_impl. intros p Hp. destruct (accel_admissible lr lc p Hp) as (_ & A2 & _). lia. Qed.
Lemma slots_words L ms A a : Forall (cpu_admissible L) ms -> Forall (fun q => q <= 2 ^ 32) ms -> slots L ms A a -> Forall (word_column (2 ^ L)) A.
Proof.
  intros HA HQ [LA S]. apply Forall_forall. intros col HI. apply (In_nth _ _ []) in HI. destruct HI as (i & Hi & <-). destruct (S i ltac:(lia)) as [La ->]. split; [apply T_length |].
  apply Forall_forall. intros x Hx. apply (In_nth _ _ 0) in Hx. destruct Hx as (j & Hj & <-). rewrite T_length in Hj.
  pose proof (T_range L (nth i ms 0) (a i) j (adm L ms HA i ltac:(lia)) Hj) as R. rewrite Forall_forall in HQ. pose proof (HQ (nth i ms 0) ltac:(apply nth_In; lia)). lia.
Qed.

Lemma kernel_length ms r c ks : ntt_precompute_constants ms r c = Some ks -> length ks = length ms.
Proof.
  unfold ntt_precompute_constants. revert ks. induction ms as [|q l IH]; intros full E; [cbn in E; injection E as <-; reflexivity |].
  cbn [map sequence_opt] in E. destruct (ntt_precompute _ _ _); [| discriminate]. destruct (sequence_opt _); [| discriminate]. injection E as <-. cbn. rewrite (IH _ eq_refl). reflexivity.
Qed.
Lemma kernel_exists lr lc ms : Forall (accel_modulus lr lc) ms -> exists ks, ntt_precompute_constants ms (2 ^ lr) (2 ^ lc) = Some ks.
Proof.
  intros HM. apply sequence_opt_total. intros o Ho. apply in_map_iff in Ho. destruct Ho as (q & <- & Hq). rewrite Forall_forall in HM.
  destruct (accel_admissible lr lc q (HM q Hq)) as (Aq & Qq & _). destruct (accel_constants_exist lr lc q Aq Qq) as (k & ->). discriminate.
Qed.
(** the accelerated transforms on slots *)
Lemma accel_intt lr lc ms ks A a : Forall (accel_modulus lr lc) ms -> ntt_precompute_constants ms (2 ^ lr) (2 ^ lc) = Some ks -> slots (lr + lc) ms A a ->
  intt_accel_poly ks A = map (fun i => poly_mod (nth i ms 0) (a i)) (seq 0 (length ms)).
Proof.
  intros HM EK S. pose proof (accel_adm lr lc ms HM) as HA. pose proof (accel_le32 lr lc ms HM) as HQ.
  destruct (C28_agrees_partial lr lc ms A HM (proj1 S) (slots_words _ _ _ _ HA HQ S)) as (ks' & EK' & _ & E). rewrite EK in EK'. injection EK' as <-.
  rewrite (intt_poly_slots _ _ HA _ _ S) in E. injection E as E. symmetry. exact E.
Qed.
Lemma accel_ntt lr lc ms ks cols : Forall (accel_modulus lr lc) ms -> ntt_precompute_constants ms (2 ^ lr) (2 ^ lc) = Some ks ->
  length cols = length ms -> Forall (word_column (2 ^ (lr + lc))) cols -> slots (lr + lc) ms (ntt_accel_poly ks cols) (fun i => nth i cols []).
Proof.
  intros HM EK LC HC. pose proof (accel_adm lr lc ms HM) as HA.
  destruct (C28_agrees_partial lr lc ms cols HM LC HC) as (ks' & EK' & E & _). rewrite EK in EK'. injection EK' as <-.
  destruct (ntt_poly_slots _ _ HA cols LC) as (B & EB & SB).
  - intros i Hi. rewrite Forall_forall in HC. apply HC, nth_In. lia.
  - rewrite E in EB. injection EB as ->. exact SB.
Qed.

(** the digit of a polynomial modulo the product of the source primes, on the target primes *)
Definition digit_of (Q : Z) (k : nat) (a D : list Z) : Prop := length D = length a /\
  forall j, (j < length a)%nat -> exists u, 0 <= u < Z.of_nat k /\ co D j = co a j mod Q + u * Q.

Lemma conv_ok lr lc src tgt kq ko c A a : Forall (accel_modulus lr lc) src -> Forall (accel_modulus lr lc) tgt -> coprime_moduli src -> src <> [] ->
  Z.of_nat (length src) <= 4112 -> Forall (fun p => 1020 * Z.of_nat (length src) <= p) tgt ->
  ntt_precompute_constants src (2 ^ lr) (2 ^ lc) = Some kq -> ntt_precompute_constants tgt (2 ^ lr) (2 ^ lc) = Some ko -> basis_precompute src tgt = Some c ->
  slots (lr + lc) src A (fun _ => a) ->
  exists D conv, basis_change_with c (intt_accel_poly kq (cast32 A)) = Some conv /\ length conv = length tgt /\ Forall (word_column (2 ^ (lr + lc))) conv /\ cast32 conv = conv /\
    slots (lr + lc) tgt (ntt_accel_poly ko conv) (fun _ => D) /\ digit_of (lprod src) (length src) a D.
Proof.
  intros HMs HMt HC NE HK HT EKq EKo EC S. set (n := (2 ^ (lr + lc))%nat).
  pose proof (accel_adm lr lc src HMs) as HAs. pose proof (accel_adm lr lc tgt HMt) as HAt.
  assert (La : length a = n) by (apply (proj2 S 0%nat); destruct src; [contradiction | cbn; lia]).
  assert (PQ : 0 < lprod src) by (apply lprod_pos, HC).
  rewrite (slots_cast32 _ _ _ _ HAs (accel_le32 lr lc src HMs) S), (accel_intt lr lc src kq A (fun _ => a) HMs EKq S).
  destruct (basis_change_entries src tgt HC NE) with (A := map (fun i => poly_mod (nth i src 0) a) (seq 0 (length src))) (x := fun j => co a j mod lprod src) (n := n) (c := c) as (conv & E & Lc & Lcol & HV).
  - revert HMs. apply Forall_impl. intros q Hq. destruct (accel_admissible lr lc q Hq) as (_ & Q & B & _). split; assumption.
  - rewrite Forall_forall in *. intros q Hq. destruct (accel_admissible lr lc q (HMt q Hq)) as (_ & Q & _). split; [assumption | apply HT; exact Hq].
  - exact HK.
  - exact EC.
  - rewrite map_length, seq_length. reflexivity.
  - unfold degree_of. destruct src; [contradiction |]. cbn [seq map length nth]. rewrite poly_mod_length. exact La.
  - intros j Hj. apply Z.mod_pos_bound. exact PQ.
  - intros i j Hi Hj. unfold ent. rewrite (nth_map_seq (fun i => poly_mod (nth i src 0) a)) by exact Hi. change (co (poly_mod (nth i src 0) a) j = (co a j mod lprod src) mod nth i src 0). rewrite co_mod.
    pose proof (in_divides_lprod (nth i src 0) src (nth_In _ _ Hi)) as [z Ez]. pose proof (adm _ _ HAs i Hi) as Ai. pose proof (admissible_gt1 _ _ Ai).
    symmetry. apply eqm_mod_iff; [lia |]. apply eqm_ex. exists (- (z * (co a j / lprod src))). rewrite (Z.mod_eq (co a j)) by lia. rewrite Ez at 1. ring.
  - destruct (list_choice n (fun j u => 0 <= u < Z.of_nat (length src) /\ forall p, (p < length tgt)%nat -> ent conv p j = (co a j mod lprod src + u * lprod src) mod nth p tgt 0) HV) as (us & Lus & HU).
    set (D := map (fun j => co a j mod lprod src + nth j us 0 * lprod src) (seq 0 n)).
    assert (LD : length D = n) by (unfold D; rewrite map_length, seq_length; reflexivity).
    assert (CD : forall j, (j < n)%nat -> co D j = co a j mod lprod src + nth j us 0 * lprod src) by (intros j Hj; unfold co at 1, D; rewrite nth_map_seq by exact Hj; reflexivity).
    assert (EV : forall i, (i < length tgt)%nat -> nth i conv [] = poly_mod (nth i tgt 0) D).
    { intros i Hi. apply (list_ext 0); [rewrite poly_mod_length, LD; apply Lcol; exact Hi |]. intros j Hj. rewrite Lcol in Hj by exact Hi. change (ent conv i j = co (poly_mod (nth i tgt 0) D) j).
      rewrite co_mod, CD by exact Hj. apply HU; assumption. }
    assert (W : Forall (word_column n) conv).
    { apply Forall_forall. intros col HI. apply (In_nth _ _ []) in HI. destruct HI as (i & Hi & <-). rewrite Lc in Hi. rewrite EV by exact Hi. split; [rewrite poly_mod_length; exact LD |].
      unfold poly_mod. apply Forall_map. apply Forall_forall. intros x _. rewrite Forall_forall in HMt. destruct (accel_admissible lr lc _ (HMt _ (nth_In _ 0 Hi))) as (_ & Q & _).
      pose proof (Z.mod_pos_bound x (nth i tgt 0) ltac:(lia)). lia. }
    exists D, conv. split; [exact E |]. split; [exact Lc |]. split; [exact W |]. split; [| split].
    + unfold cast32. rewrite <- (map_id conv) at 2. apply map_ext_in. intros col HI. rewrite Forall_forall in W. destruct (W col HI) as [_ F]. rewrite <- (map_id col) at 2. apply map_ext_in. intros x Hx.
      rewrite Forall_forall in F. apply u32_small, F, Hx.
    + pose proof (accel_ntt lr lc tgt ko conv HMt EKo Lc W) as [LS SS]. split; [exact LS |]. intros i Hi. split; [exact LD |]. destruct (SS i Hi) as [_ ->]. rewrite EV by exact Hi.
      apply T_mod. apply adm; assumption.
    + split; [lia |]. intros j Hj. rewrite La in Hj. exists (nth j us 0). split; [apply HU; exact Hj | apply CD; exact Hj].
Qed.

(** a digit is congruent to the polynomial modulo every source prime *)
Lemma digit_congr L src k a D q : Forall (cpu_admissible L) src -> coprime_moduli src -> digit_of (lprod src) k a D -> In q src -> T L q D = T L q a.
Proof.
  intros HA HC [LD HD] Hq. rewrite Forall_forall in HA. pose proof (HA q Hq) as Aq. pose proof (admissible_gt1 L q Aq). rewrite <- (T_mod L q D Aq), <- (T_mod L q a Aq). f_equal.
  apply (list_ext 0); [rewrite !poly_mod_length; exact LD |]. intros j Hj. rewrite poly_mod_length in Hj. change (co (poly_mod q D) j = co (poly_mod q a) j). rewrite !co_mod.
  destruct (HD j ltac:(lia)) as (u & Hu & ->). pose proof (in_divides_lprod q src Hq) as [z Ez]. assert (PQ : 0 < lprod src) by (apply lprod_pos, HC).
  apply eqm_mod_iff; [lia |]. apply eqm_ex. pose proof (Z.div_mod (co a j) (lprod src) ltac:(lia)) as DM. exists ((u - co a j / lprod src) * z). rewrite Ez in *. nia.
Qed.
Lemma digit_bound Q k a D : 0 < Q -> digit_of Q k a D -> poly_bound (Z.of_nat k * Q) D.
Proof.
  intros HQ [LD HD]. apply poly_bound_intro. intros j Hj. destruct (HD j ltac:(lia)) as (u & Hu & ->). pose proof (Z.mod_pos_bound (co a j) Q HQ). nia.
Qed.

Lemma fun_choice {A} (d : A) n (P : nat -> A -> Prop) : (forall j, (j < n)%nat -> exists u, P j u) -> exists f, forall j, (j < n)%nat -> P j (f j).
Proof.
  induction n as [|n IH]; intros H; [exists (fun _ => d); lia |].
  destruct IH as (f & HF); [intros j Hj; apply H; lia |]. destruct (H n ltac:(lia)) as (u & Hu). exists (fun j => if (j =? n)%nat then u else f j).
  intros j Hj. destruct (Nat.eqb_spec j n) as [-> | NE]; [exact Hu | apply HF; lia].
Qed.

Lemma coprime_nth ms i j : coprime_moduli ms -> (i < length ms)%nat -> (j < length ms)%nat -> i <> j -> Z.gcd (nth i ms 0) (nth j ms 0) = 1.
Proof.
  intros [_ H] Hi Hj NE. rewrite (nth_split_list ms j 0 Hj) in H.
  apply (FOP_middle (fun a b => Z.gcd a b = 1)) with (y := nth i ms 0) in H; [exact H | intros a b E; rewrite Z.gcd_comm; exact E |].
  apply in_app_iff. destruct (Nat.lt_ge_cases i j) as [C | C].
  - left. rewrite <- (nth_firstn_lt ms j i 0 C). apply nth_In. rewrite firstn_length. lia.
  - right. replace i with (S j + (i - S j))%nat by lia. rewrite <- nth_skipn. apply nth_In. rewrite skipn_length. lia.
Qed.
Lemma coprime_pick ms idx : coprime_moduli ms -> NoDup idx -> Forall (fun i => (i < length ms)%nat) idx -> coprime_moduli (pick 0 ms idx).
Proof.
  intros C ND F. split.
  - unfold pick. apply Forall_map. revert F. apply Forall_impl. intros i Hi. destruct C as [P _]. rewrite Forall_forall in P. apply P, nth_In, Hi.
  - induction ND as [|x idx NX ND IH]; [constructor |]. rewrite Forall_cons_iff in F. destruct F as [Fx F]. cbn [pick map]. constructor; [| apply IH; exact F].
    unfold pick. apply Forall_map. apply Forall_forall. intros y Hy. rewrite Forall_forall in F. apply coprime_nth; [exact C | exact Fx | apply F; exact Hy |]. intros ->. contradiction.
Qed.
Lemma pick_Forall (P : Z -> Prop) ms idx : Forall P ms -> Forall (fun i => (i < length ms)%nat) idx -> Forall P (pick 0 ms idx).
Proof. intros H F. unfold pick. apply Forall_map. revert F. apply Forall_impl. intros i Hi. rewrite Forall_forall in H. apply H, nth_In, Hi. Qed.

Section Switch.
  Variables (lr lc : nat) (q p : list Z).
  Let QP := q ++ p.
  Let L := (lr + lc)%nat.
  Let n := (2 ^ L)%nat.
  Hypothesis HM : Forall (accel_modulus lr lc) QP.
  Hypothesis HC : coprime_moduli QP.
  Hypothesis NQ : q <> [].

  Let HA : Forall (cpu_admissible L) QP := accel_adm lr lc QP HM.
  Lemma lq_pos : (0 < length q)%nat. Proof. destruct q; [contradiction | cbn; lia]. Qed.
  Lemma qp_length : length QP = (length q + length p)%nat. Proof. apply app_length. Qed.
  Lemma qp_nth i : (i < length q)%nat -> nth i QP 0 = nth i q 0. Proof. intros H. apply app_nth1. exact H. Qed.
  Lemma qp_scheme : scheme_moduli L QP. Proof. apply accel_scheme; [unfold QP; destruct q; [contradiction | discriminate] | exact HM]. Qed.
  Lemma qp_range i : (i < length QP)%nat -> 1 < nth i QP 0 < 2 ^ 31 /\ barrett_exact (nth i QP 0).
  Proof. intros Hi. pose proof HM as X. rewrite Forall_forall in X. destruct (accel_admissible lr lc _ (X _ (nth_In _ 0 Hi))) as (_ & Q & B & _). split; assumption. Qed.
  Lemma q_adm : Forall (cpu_admissible L) q. Proof. pose proof HA as X. unfold QP in X. rewrite Forall_app in X. apply X. Qed.
  Lemma q_scheme : scheme_moduli L q.
  Proof. apply accel_scheme; [exact NQ |]. pose proof HM as X. unfold QP in X. rewrite Forall_app in X. apply X. Qed.

  Lemma extend_part_ok kq ko bc control c c1 a ins : NoDup ins -> Forall (fun i => (i < length q)%nat) ins -> ins <> [] ->
    let outs := not_in (length QP) ins in
    Z.of_nat (length ins) <= 4112 -> Forall (fun m => 1020 * Z.of_nat (length ins) <= m) (pick 0 QP outs) ->
    ntt_precompute_constants (pick 0 QP ins) (2 ^ lr) (2 ^ lc) = Some kq -> ntt_precompute_constants (pick 0 QP outs) (2 ^ lr) (2 ^ lc) = Some ko ->
    nth_error bc control = Some c -> basis_precompute (pick 0 QP ins) (pick 0 QP outs) = Some c ->
    slots L q c1 (fun _ => a) ->
    exists D E, extend_part (length QP) n kq ko bc control c1 ins outs = Some E /\ slots L QP E (fun _ => D) /\ digit_of (lprod (pick 0 QP ins)) (length ins) a D.
  Proof.
    intros ND F NE outs HK HT EKq EKo EN EC S.
    assert (F' : Forall (fun i => (i < length QP)%nat) ins) by (revert F; apply Forall_impl; intros i Hi; rewrite qp_length; lia).
    pose proof (not_in_spec (length QP) ins ND F') as PM. fold outs in PM.
    assert (Fo : Forall (fun i => (i < length QP)%nat) outs).
    { apply Forall_forall. intros i Hi. assert (X : In i (seq 0 (length QP))) by (apply (Permutation_in _ PM); apply in_app_iff; right; exact Hi). apply in_seq in X. lia. }
    assert (NDo : NoDup outs) by (apply NoDup_filter, seq_NoDup).
    assert (EP : pick 0 QP ins = pick 0 q ins). { unfold pick. apply map_ext_in. intros i Hi. rewrite Forall_forall in F. apply qp_nth, F, Hi. }
    assert (Sp : slots L (pick 0 QP ins) (pick [] c1 ins) (fun _ => a)). { rewrite EP. exact (slots_pick L q c1 (fun _ => a) ins S F). }
    destruct (conv_ok lr lc (pick 0 QP ins) (pick 0 QP outs) kq ko c (pick [] c1 ins) a) as (D & conv & E1 & E2 & E3 & E4 & E5 & E6); try assumption.
    - apply pick_Forall; assumption.
    - apply pick_Forall; assumption.
    - apply coprime_pick; assumption.
    - destruct ins; [contradiction | discriminate].
    - rewrite pick_length. exact HK.
    - rewrite pick_length. exact HT.
    - rewrite pick_length in *. pose proof (kernel_length _ _ _ _ EKq) as K1. pose proof (kernel_length _ _ _ _ EKo) as K2. rewrite pick_length in K1, K2.
      assert (La : length a = n) by (apply (proj2 S 0%nat); apply lq_pos).
      unfold extend_part. rewrite K1, Nat.eqb_refl. cbn [negb]. unfold basis_change. rewrite EN, E1, E2, K2, Nat.eqb_refl. cbn [negb orb]. rewrite E4.
      eexists D, _. split; [reflexivity |]. split; [| exact E6].
      rewrite (slots_cast32 L _ _ _ (accel_adm lr lc _ (pick_Forall _ _ _ HM F')) (accel_le32 lr lc _ (pick_Forall _ _ _ HM F')) Sp).
      set (Z0 := tab (length QP) n (fun _ _ => 0)). assert (LZ : length Z0 = length QP) by apply tab_length.
      destruct (set_columns_spec ins (pick [] c1 ins) Z0 ND (pick_length _ _ _)) as (I1 & I2 & I3); [rewrite LZ; exact F' |].
      destruct (set_columns_spec outs (ntt_accel_poly ko conv) (set_columns ins (pick [] c1 ins) Z0) NDo) as (O1 & O2 & O3).
      { destruct E5 as [X _]. rewrite pick_length in X. exact X. }
      { rewrite I1, LZ. exact Fo. }
      split; [rewrite O1, I1; exact LZ |]. intros i Hi. split; [destruct E6 as [X _]; lia |].
      assert (X : In i (ins ++ outs)) by (apply (Permutation_in (l := seq 0 (length QP))); [symmetry; exact PM | apply in_seq; lia]).
      destruct (in_dec Nat.eq_dec i outs) as [Y | Y].
      + apply (In_nth _ _ 0%nat) in Y. destruct Y as (t & Ht & <-). rewrite O2 by exact Ht. destruct E5 as [_ E5]. destruct (E5 t) as [_ ->]; [rewrite pick_length; exact Ht |]. rewrite nth_pick by exact Ht. reflexivity.
      + rewrite O3 by exact Y. apply in_app_iff in X. destruct X as [X | X]; [| contradiction]. apply (In_nth _ _ 0%nat) in X. destruct X as (t & Ht & <-). rewrite I2 by exact Ht.
        destruct Sp as [_ Sp]. destruct (Sp t) as [_ ->]; [rewrite pick_length; exact Ht |]. rewrite nth_pick by exact Ht. symmetry.
        apply (digit_congr L (pick 0 QP ins) (length ins)); [apply accel_adm, pick_Forall; assumption | apply coprime_pick; assumption | exact E6 |].
        rewrite <- nth_pick by exact Ht. apply nth_In. rewrite pick_length. exact Ht.
  Qed.

  Lemma degree_slots ms A a : (0 < length ms)%nat -> slots L ms A a -> degree_of A = n.
  Proof. intros H [_ S]. unfold degree_of. destruct (S 0%nat H) as [_ ->]. apply T_length. Qed.

  Lemma accumulate_ok key acc E a b D : slots L QP key a -> slots L QP acc b -> slots L QP E (fun _ => D) ->
    exists R, accumulate QP (Some (precompute_constants QP)) key acc E = Some R /\ slots L QP R (fun i => poly_add (b i) (poly_mul (a i) D)).
  Proof.
    intros SK SA SE. assert (LP : (0 < length QP)%nat) by (rewrite qp_length; pose proof lq_pos; lia).
    assert (Lb : forall i, (i < length QP)%nat -> length (b i) = n) by (intros i Hi; apply SA; exact Hi).
    assert (La : forall i, (i < length QP)%nat -> length (a i) = n) by (intros i Hi; apply SK; exact Hi).
    assert (LD : length D = n) by (apply (proj2 SE 0%nat LP)).
    unfold accumulate, mul_plain_barrett. cbn [ct_moduli pt_moduli ct_data pt_data]. rewrite list_eqb_refl. cbn [negb map nth ct_data]. eexists. split; [reflexivity |].
    rewrite (degree_slots QP acc b LP SA). apply slots_tab; [exact HA | intros i Hi; rewrite poly_add_length; apply Lb; exact Hi |]. intros i j Hi Hj.
    destruct (qp_range i Hi) as [Q B]. destruct (slots_ent L QP HA acc b i j SA Hi Hj) as [R1 V1]. destruct (slots_ent L QP HA key a i j SK Hi Hj) as [R2 V2]. destruct (slots_ent L QP HA E _ i j SE Hi Hj) as [R3 V3].
    unfold zip_entries. rewrite (degree_slots QP key a LP SK), (proj1 SK). rewrite tab_ent by assumption. unfold precompute_constants. rewrite (nth_map_lt _ _ _ _ 0) by exact Hi.
    assert (E64 : Model_barrett.u64 (ent key i j * ent E i j) = ent key i j * ent E i j) by (apply Z.mod_small; nia). rewrite E64, B by nia.
    pose proof (Z.mod_pos_bound (ent key i j * ent E i j) (nth i QP 0) ltac:(lia)) as RM. replace (u32' _) with ((ent key i j * ent E i j) mod nth i QP 0) by (symmetry; apply Z.mod_small; lia).
    rewrite u64_small by lia. split; [apply Z.mod_pos_bound; lia |]. rewrite !eqm_mod. rewrite V1, V2, V3. pose proof (psi_of_root L _ (adm L QP HA i Hi)) as RT. specialize (La i Hi). specialize (Lb i Hi).
    unfold T. symmetry. rewrite slot_add by (try exact Hj; rewrite poly_mul_length; congruence). rewrite slot_mul by (first [exact Hj | exact RT | congruence | lia]). reflexivity.
  Qed.

  (** parts *)
  Variable dnum : nat.
  Hypothesis Hdnum : (0 < dnum)%nat.
  Let ins := part_indices (length q) dnum.
  Let outs t := not_in (length QP) (ins t).
  Let alpha := ceil_div (length q) dnum.

  Lemma ins_in t i : In i (ins t) <-> (t * alpha <= i < Nat.min ((t + 1) * alpha) (length q))%nat.
  Proof. unfold ins, part_indices. fold alpha. rewrite in_seq. lia. Qed.
  Lemma ins_range t : Forall (fun i => (i < length q)%nat) (ins t).
  Proof. apply Forall_forall. intros i Hi. apply ins_in in Hi. lia. Qed.
  Lemma ins_NoDup t : NoDup (ins t).
  Proof. apply seq_NoDup. Qed.
  Lemma ins_length t : (length (ins t) <= alpha)%nat.
  Proof. unfold ins, part_indices. fold alpha. rewrite seq_length. nia. Qed.
  Lemma alpha_cover : (length q <= dnum * alpha)%nat /\ (0 < alpha)%nat.
  Proof. destruct (ceil_div_spec (length q) dnum Hdnum) as [A1 _]. fold alpha in A1. pose proof lq_pos. split; [lia |]. destruct alpha; lia. Qed.
  Lemma ins_unique i t : (i < length q)%nat -> (existsb (Nat.eqb i) (ins t) = true <-> t = i / alpha)%nat.
  Proof.
    intros Hi. destruct alpha_cover as [_ Ha]. pose proof (Nat.div_mod i alpha ltac:(lia)) as DM. pose proof (Nat.mod_upper_bound i alpha ltac:(lia)) as B.
    rewrite existsb_exists. split.
    - intros (x & Hx & E). apply Nat.eqb_eq in E. subst x. apply ins_in in Hx. nia.
    - intros ->. exists i. split; [| apply Nat.eqb_refl]. apply ins_in. split; [nia |]. apply Nat.min_glb_lt; nia.
  Qed.
  Lemma owner_lt i : (i < length q)%nat -> (i / alpha < dnum)%nat.
  Proof. intros Hi. destruct alpha_cover as [C Ha]. apply Nat.div_lt_upper_bound; lia. Qed.
  Lemma ins_outside i t : (length q <= i)%nat -> existsb (Nat.eqb i) (ins t) = false.
  Proof. intros Hi. destruct (existsb _ _) eqn:E; [| reflexivity]. apply existsb_exists in E. destruct E as (x & Hx & E). apply Nat.eqb_eq in E. subst x. apply ins_in in Hx. lia. Qed.

  Hypothesis HE : ((dnum - 1) * alpha < length q)%nat.
  Hypothesis HK : Z.of_nat alpha <= 4112.
  Hypothesis HT : Forall (fun m => 1020 * Z.of_nat alpha <= m) QP.

  Lemma ins_nonempty t : (t < dnum)%nat -> ins t <> [].
  Proof.
    intros Ht E. destruct alpha_cover as [_ Ha]. assert (X : In (t * alpha)%nat (ins t)) by (apply ins_in; split; [lia | apply Nat.min_glb_lt; nia]). rewrite E in X. contradiction.
  Qed.
  Lemma outs_range t : Forall (fun i => (i < length QP)%nat) (outs t).
  Proof. apply Forall_forall. intros i Hi. unfold outs, not_in in Hi. apply filter_In in Hi. destruct Hi as [Hi _]. apply in_seq in Hi. lia. Qed.
  Lemma outs_targets t : Forall (fun m => 1020 * Z.of_nat (length (ins t)) <= m) (pick 0 QP (outs t)).
  Proof.
    apply pick_Forall; [| apply outs_range]. revert HT. apply Forall_impl. intros m Hm. pose proof (ins_length t). lia.
  Qed.

  (** the kernels of the key switcher *)

  Lemma switcher_parts sw : key_switcher_precompute q p dnum (2 ^ lr) (2 ^ lc) = Some sw -> length (sw_q sw) = dnum /\ sw_r sw = (2 ^ lr)%nat /\ sw_c sw = (2 ^ lc)%nat /\
    forall t, (t < dnum)%nat -> ntt_precompute_constants (pick 0 QP (ins t)) (2 ^ lr) (2 ^ lc) = Some (nth t (sw_q sw) []) /\
      ntt_precompute_constants (pick 0 QP (outs t)) (2 ^ lr) (2 ^ lc) = Some (nth t (sw_out sw) []).
  Proof.
    unfold key_switcher_precompute. destruct (Nat.eqb_spec dnum 0); [lia |]. fold QP.
    destruct (sequence_opt _) as [kq |] eqn:E1; [| discriminate]. destruct (sequence_opt (map (fun i => ntt_kernel (pick 0 QP (not_in (length QP) (part_indices (length q) dnum i))) _ _) _)) as [ko |] eqn:E2; [| discriminate].
    intros E. injection E as <-. cbn [sw_q sw_out sw_r sw_c]. destruct (sequence_opt_nth _ _ [] E1) as [L1 N1]. destruct (sequence_opt_nth _ _ [] E2) as [L2 N2].
    rewrite map_length, seq_length in L1, L2, N1, N2. split; [exact L1 |]. split; [reflexivity |]. split; [reflexivity |]. intros t Ht. specialize (N1 t Ht). specialize (N2 t Ht).
    rewrite (nth_map_seq (fun i => ntt_kernel (pick 0 QP (part_indices (length q) dnum i)) (2 ^ lr) (2 ^ lc))) in N1 by exact Ht.
    rewrite (nth_map_seq (fun i => ntt_kernel (pick 0 QP (not_in (length QP) (part_indices (length q) dnum i))) (2 ^ lr) (2 ^ lc))) in N2 by exact Ht.
    fold (ins t) in N1, N2. fold (outs t) in N2. unfold ntt_kernel in N1, N2.
    destruct (pick 0 QP (ins t)) eqn:P1; [discriminate |]. destruct (pick 0 QP (outs t)) eqn:P2; [discriminate |]. split; assumption.
  Qed.

  Lemma p_mod_ok m (ps : list Z) : 1 < m <= 2 ^ 32 -> forall acc, 0 <= acc < m -> let r := fold_left (fun acc p => u64 (acc * (p mod m)) mod m) ps acc in 0 <= r < m /\ r == acc * lprod ps [mod m].
  Proof.
    intros Hm. induction ps as [|x ps IH]; intros acc Ha; cbn [fold_left]; [unfold lprod; cbn [fold_right]; split; [exact Ha | apply eqm_eq; ring] |].
    pose proof (Z.mod_pos_bound x m ltac:(lia)) as B. rewrite (u64_mul acc (x mod m) m) by lia.
    destruct (IH ((acc * (x mod m)) mod m)) as [I1 I2]; [apply Z.mod_pos_bound; lia |]. split; [exact I1 |]. rewrite I2. rewrite !eqm_mod. unfold lprod. cbn [fold_right]. apply eqm_eq. ring.
  Qed.

  Lemma shaped_slots ms A a : slots L ms A a -> shaped_as (length ms) n A = true.
  Proof.
    intros [LA S]. unfold shaped_as. rewrite LA, Nat.eqb_refl. cbn [andb]. apply forallb_forall. intros col HI. apply (In_nth _ _ []) in HI. destruct HI as (i & Hi & <-). destruct (S i ltac:(lia)) as [_ ->]. rewrite T_length. apply Nat.eqb_refl.
  Qed.

  Lemma key_switch_ok sw bc start ksk ct C0 C1 c0 c1 (a b : nat -> nat -> list Z) :
    key_switcher_precompute q p dnum (2 ^ lr) (2 ^ lc) = Some sw ->
    (forall t, (t < dnum)%nat -> exists c, nth_error bc (start + t) = Some c /\ basis_precompute (pick 0 QP (ins t)) (pick 0 QP (outs t)) = Some c) ->
    length (ek_a ksk) = dnum -> length (ek_b ksk) = dnum ->
    (forall t, (t < dnum)%nat -> slots L QP (nth t (ek_a ksk) []) (a t) /\ slots L QP (nth t (ek_b ksk) []) (b t)) ->
    ct_moduli ct = q -> ct_data ct = [C0; C1] -> slots L q C0 (fun _ => c0) -> slots L q C1 (fun _ => c1) ->
    exists ct' D, key_switch sw ct ksk p bc (Some (precompute_constants QP)) start = Some ct' /\
      (forall t, (t < dnum)%nat -> digit_of (lprod (pick 0 QP (ins t))) (length (ins t)) c1 (D t)) /\
      ct_moduli ct' = QP /\ length (ct_data ct') = 2%nat /\
      slots L QP (nth 0 (ct_data ct') []) (fun i => poly_add (poly_scale (lprod p) c0) (poly_sum n dnum (fun t => poly_mul (b t i) (D t)))) /\
      slots L QP (nth 1 (ct_data ct') []) (fun i => poly_sum n dnum (fun t => poly_mul (a t i) (D t))).
  Proof.
    intros ESW HB LA LB HS EM ED S0 S1. destruct (switcher_parts sw ESW) as (LQ & ER & ECc & HKer).
    assert (LP : (0 < length QP)%nat) by (rewrite qp_length; pose proof lq_pos; lia).
    assert (L0 : length c0 = n) by (apply (proj2 S0 0%nat lq_pos)). assert (L1 : length c1 = n) by (apply (proj2 S1 0%nat lq_pos)).
    assert (La : forall t i, (t < dnum)%nat -> (i < length QP)%nat -> length (a t i) = n) by (intros t i Ht Hi; apply (HS t Ht); exact Hi).
    assert (Lb : forall t i, (t < dnum)%nat -> (i < length QP)%nat -> length (b t i) = n) by (intros t i Ht Hi; apply (HS t Ht); exact Hi).
    destruct (fun_choice ([], []) dnum (fun t DE => extend_part (length QP) n (nth t (sw_q sw) []) (nth t (sw_out sw) []) bc (start + t) C1 (ins t) (outs t) = Some (snd DE) /\
      slots L QP (snd DE) (fun _ => fst DE) /\ digit_of (lprod (pick 0 QP (ins t))) (length (ins t)) c1 (fst DE))) as (DE & HDE).
    { intros t Ht. destruct (HB t Ht) as (c & EN & EC). destruct (HKer t Ht) as [K1 K2].
      destruct (extend_part_ok (nth t (sw_q sw) []) (nth t (sw_out sw) []) bc (start + t) c C1 c1 (ins t) (ins_NoDup t) (ins_range t) (ins_nonempty t Ht)) as (D & E & X1 & X2 & X3); try assumption.
      - pose proof (ins_length t). lia.
      - apply outs_targets.
      - exists (D, E). cbn [fst snd]. split; [exact X1 | split; [exact X2 | exact X3]]. }
    set (D := fun t => fst (DE t)).
    assert (LD : forall t, (t < dnum)%nat -> length (D t) = n) by (intros t Ht; destruct (HDE t Ht) as (_ & _ & [X _]); fold (D t) in X; lia).
    assert (FOLD : forall k, (k <= dnum)%nat -> exists A B, fold_left (fun acc i =>
        match acc with
        | None => None
        | Some (c0_ks, c1_ks) =>
            match extend_part (length QP) n (nth i (sw_q sw) []) (nth i (sw_out sw) []) bc (start + i) C1 (part_indices (length q) dnum i) (not_in (length QP) (part_indices (length q) dnum i)) with
            | None => None
            | Some c1_part_qp =>
                match accumulate QP (Some (precompute_constants QP)) (static_index (ek_b ksk) i []) c0_ks c1_part_qp,
                      accumulate QP (Some (precompute_constants QP)) (static_index (ek_a ksk) i []) c1_ks c1_part_qp with
                | Some c0_ks', Some c1_ks' => Some (c0_ks', c1_ks')
                | _, _ => None
                end
            end
        end) (seq 0 k) (Some (tab (length QP) n (fun _ _ => 0), tab (length QP) n (fun _ _ => 0))) = Some (A, B) /\
        slots L QP A (fun i => poly_sum n k (fun t => poly_mul (b t i) (D t))) /\ slots L QP B (fun i => poly_sum n k (fun t => poly_mul (a t i) (D t)))).
    { induction k as [|k IH]; intros Hk.
      - cbn [seq fold_left]. eexists _, _. split; [reflexivity |].
        assert (Z0 : forall f, slots L QP (tab (length QP) n (fun _ _ => 0)) (fun i => poly_sum n 0 (f i))).
        { intros f. apply slots_tab; [exact HA | intros i Hi; apply poly_sum_length |]. intros i j Hi Hj. destruct (qp_range i Hi) as [Q _]. split; [lia |]. symmetry. apply (slot_sum L (nth i QP 0) 0 (f i) j (adm L QP HA i Hi) Hj). lia. }
        split; apply Z0.
      - destruct (IH ltac:(lia)) as (A & B & EF & SA & SB). rewrite seq_S, fold_left_app, EF. cbn [Nat.add fold_left].
        destruct (HDE k ltac:(lia)) as (X1 & X2 & X3). fold (D k) in X2, X3. fold (ins k). fold (outs k). rewrite X1. destruct (HS k ltac:(lia)) as [Sa Sb].
        unfold static_index. rewrite LA, LB. rewrite Nat.min_l by lia.
        destruct (accumulate_ok _ _ _ _ _ _ Sb SA X2) as (R0 & -> & SR0). destruct (accumulate_ok _ _ _ _ _ _ Sa SB X2) as (R1 & -> & SR1).
        exists R0, R1. split; [reflexivity |]. split.
        + eapply slots_ext; [| exact SR0]. intros i Hi. cbv beta. rewrite poly_sum_S; [reflexivity |]. rewrite poly_mul_length. apply Lb; lia.
        + eapply slots_ext; [| exact SR1]. intros i Hi. cbv beta. rewrite poly_sum_S; [reflexivity |]. rewrite poly_mul_length. apply La; lia. }
    destruct (FOLD dnum (le_n _)) as (A & B & EF & SA & SB).
    unfold key_switch. rewrite ED, EM. cbn [static_index length nth Nat.sub Nat.min]. fold QP. rewrite LQ. change (static_index [C0; C1] 0 []) with C0. change (static_index [C0; C1] 1 []) with C1.
    rewrite (degree_slots q C1 _ lq_pos S1), (shaped_slots q C0 _ S0), (shaped_slots q C1 _ S1), ER, ECc.
    destruct (Nat.eqb_spec dnum 0); [lia |]. replace (n =? 2 ^ lr * 2 ^ lc)%nat with true by (symmetry; apply Nat.eqb_eq; unfold n, L; apply Nat.pow_add_r).
    assert (FA : forallb (shaped_as (length QP) n) (ek_a ksk) = true).
    { apply forallb_forall. intros X HX. apply (In_nth _ _ []) in HX. destruct HX as (t & Ht & <-). eapply shaped_slots. apply (HS t). rewrite <- LA. exact Ht. }
    assert (FB : forallb (shaped_as (length QP) n) (ek_b ksk) = true).
    { apply forallb_forall. intros X HX. apply (In_nth _ _ []) in HX. destruct HX as (t & Ht & <-). eapply shaped_slots. apply (HS t). rewrite <- LB. exact Ht. }
    rewrite FA, FB, LA, LB. destruct (Nat.eqb_spec dnum 0); [lia |]. cbn [orb negb]. rewrite EF.
    eexists _, D. split; [reflexivity |]. split; [intros t Ht; apply (HDE t Ht) |]. cbn [ct_moduli ct_data length nth]. split; [reflexivity |]. split; [reflexivity |]. split.
    - apply slots_tab; [exact HA | intros i Hi; rewrite poly_add_length, poly_scale_length; exact L0 |]. intros i j Hi Hj.
      destruct (qp_range i Hi) as [Q _]. pose proof (psi_of_root L _ (adm L QP HA i Hi)) as RT. destruct (slots_ent L QP HA A _ i j SA Hi Hj) as [R1 V1].
      set (X := if (i <? length q)%nat then _ else 0).
      assert (HX : 0 <= X < nth i QP 0 /\ X == lprod p * nth j (T L (nth i QP 0) c0) 0 [mod nth i QP 0]).
      { unfold X. destruct (Nat.ltb_spec i (length q)) as [C | C].
        - destruct (slots_ent L q q_adm C0 _ i j S0 C Hj) as [R2 V2]. cbv beta zeta. rewrite <- (qp_nth i C) in *. destruct (p_mod_ok (nth i QP 0) p ltac:(lia) 1 ltac:(lia)) as [P1 P2]. cbv zeta in P1, P2.
          match goal with |- context [ent C0 i j * ?x] => set (pm := x) end. change (0 <= pm < nth i QP 0) in P1. change (pm == 1 * lprod p [mod nth i QP 0]) in P2.
          rewrite (u64_mul _ _ (nth i QP 0)) by (assumption || lia). pose proof (Z.mod_pos_bound (ent C0 i j * pm) (nth i QP 0) ltac:(lia)). rewrite u32_small by lia. split; [assumption |].
          rewrite eqm_mod, P2, V2. apply eqm_eq. ring.
        - split; [lia |]. assert (DV : (nth i QP 0 | lprod p)). { apply in_divides_lprod. unfold QP. rewrite app_nth2 by exact C. apply nth_In. rewrite qp_length in Hi. lia. }
          destruct DV as [z DV]. symmetry. apply eqm_ex. exists (z * nth j (T L (nth i QP 0) c0) 0). rewrite DV. ring. }
      destruct HX as [B1 B2]. rewrite (u64_small (X + ent A i j)) by lia. pose proof (Z.mod_pos_bound (X + ent A i j) (nth i QP 0) ltac:(lia)). rewrite u32_small by lia. split; [assumption |].
      rewrite eqm_mod, B2, V1. unfold T. symmetry. rewrite slot_add; [| exact Hj | rewrite poly_scale_length, poly_sum_length; exact L0]. rewrite slot_scale by exact Hj. reflexivity.
    - apply slots_cast; [exact HA | | exact SB]. intros i j Hi Hj. destruct (slots_ent L QP HA B _ i j SB Hi Hj) as [R1 _]. destruct (qp_range i Hi) as [Q _]. apply u32_small. lia.
  Qed.
End Switch.
