From Coq Require Import ZArith List Bool Lia Setoid.
From Verif Require Import Base.ZSum Base.Modeq Base.Lists Base.Bitrev Base.Nega Base.Powm Base.Word Base.Egcd.
From Verif Require Import Ckks.Model_rns_utils Ckks.Model_rns Ckks.Spec_ntt.
Import ListNotations.
Local Open Scope Z_scope.

Lemma eval_evalf a x : eval a x = evalf (length a) (fun i => nth i a 0) x.
Proof. reflexivity. Qed.

(** *** One in-place pass of butterflies *)
Section Pass.
  Variable bf : Z -> Z -> Z -> Z * Z.

  Lemma pass_block_prefix w h k c : (k + 2 * h <= length c)%nat -> forall J, (J <= h)%nat ->
    let l := fold_left (fun l j =>
        let r := bf w (nth (k + j) l 0) (nth (k + j + h) l 0) in
        upd (k + j + h) (snd r) (upd (k + j) (fst r) l)) (seq 0 J) c in
    length l = length c /\
    (forall j, (j < J)%nat -> nth (k + j) l 0 = fst (bf w (nth (k + j) c 0) (nth (k + j + h) c 0)) /\
                              nth (k + j + h) l 0 = snd (bf w (nth (k + j) c 0) (nth (k + j + h) c 0))) /\
    (forall j, (J <= j < h)%nat -> nth (k + j) l 0 = nth (k + j) c 0 /\ nth (k + j + h) l 0 = nth (k + j + h) c 0) /\
    (forall p, (p < k \/ k + 2 * h <= p)%nat -> nth p l 0 = nth p c 0).
  Proof.
    intros Hk. induction J as [|J IH]; intros HJ.
    - cbn. repeat split; intros; auto; lia.
    - specialize (IH ltac:(lia)). cbv zeta in *. rewrite seq_S, fold_left_app. cbn [fold_left plus].
      set (l := fold_left _ (seq 0 J) c) in *. destruct IH as (L & D & U & O).
      destruct (U J ltac:(lia)) as [U1 U2]. rewrite U1, U2.
      set (r := bf w (nth (k + J) c 0) (nth (k + J + h) c 0)).
      split; [rewrite !upd_length; exact L |].
      assert (X : forall p, nth p (upd (k + J + h) (snd r) (upd (k + J) (fst r) l)) 0 =
                  if Nat.eqb (k + J + h) p then snd r else if Nat.eqb (k + J) p then fst r else nth p l 0).
      { intros p. rewrite nth_upd by (rewrite upd_length; lia). rewrite nth_upd by lia. reflexivity. }
      split; [| split].
      + intros j Hj. rewrite !X.
        destruct (Nat.eqb_spec (k + J + h) (k + j)); [lia |].
        destruct (Nat.eqb_spec (k + J) (k + j + h)); [lia |].
        destruct (Nat.eqb_spec (k + J) (k + j)) as [E | N]; destruct (Nat.eqb_spec (k + J + h) (k + j + h)) as [E' | N']; try lia.
        * assert (j = J) by lia. subst j. split; reflexivity.
        * destruct (D j ltac:(lia)) as [D1 D2]. split; assumption.
      + intros j Hj. rewrite !X.
        destruct (Nat.eqb_spec (k + J + h) (k + j)); [lia |].
        destruct (Nat.eqb_spec (k + J) (k + j + h)); [lia |].
        destruct (Nat.eqb_spec (k + J) (k + j)); [lia |]. destruct (Nat.eqb_spec (k + J + h) (k + j + h)); [lia |].
        apply U. lia.
      + intros p Hp. rewrite X.
        destruct (Nat.eqb_spec (k + J + h) p); [lia |]. destruct (Nat.eqb_spec (k + J) p); [lia |]. apply O. exact Hp.
  Qed.

  Lemma pass_block_spec w h k c : (k + 2 * h <= length c)%nat ->
    let l := pass_block bf w h k c in
    length l = length c /\
    (forall j, (j < h)%nat -> nth (k + j) l 0 = fst (bf w (nth (k + j) c 0) (nth (k + j + h) c 0)) /\
                              nth (k + j + h) l 0 = snd (bf w (nth (k + j) c 0) (nth (k + j + h) c 0))) /\
    (forall p, (p < k \/ k + 2 * h <= p)%nat -> nth p l 0 = nth p c 0).
  Proof.
    intros H. cbv zeta. unfold pass_block. pose proof (pass_block_prefix w h k c H h (le_n h)) as (L & D & _ & O). repeat split; auto; apply D; assumption.
  Qed.

  Lemma pass_prefix table h c i0 B : length c = (B * (2 * h))%nat -> forall J, (J <= B)%nat ->
    let s := fold_left (fun s b => (pass_block bf (nth (snd s) table 0) h (b * (2 * h)) (fst s), S (snd s))) (seq 0 J) (c, i0) in
    snd s = (i0 + J)%nat /\ length (fst s) = length c /\
    (forall b r, (b < J)%nat -> (r < h)%nat ->
       nth (b * (2 * h) + r) (fst s) 0 = fst (bf (nth (i0 + b) table 0) (nth (b * (2 * h) + r) c 0) (nth (b * (2 * h) + r + h) c 0)) /\
       nth (b * (2 * h) + r + h) (fst s) 0 = snd (bf (nth (i0 + b) table 0) (nth (b * (2 * h) + r) c 0) (nth (b * (2 * h) + r + h) c 0))) /\
    (forall p, (J * (2 * h) <= p)%nat -> nth p (fst s) 0 = nth p c 0).
  Proof.
    intros Hl. induction J as [|J IH]; intros HJ.
    - cbn. repeat split; intros; auto; lia.
    - specialize (IH ltac:(lia)). cbv zeta in *. rewrite seq_S, fold_left_app. cbn [fold_left plus].
      set (s := fold_left _ (seq 0 J) (c, i0)) in *. destruct IH as (S1 & L & D & U).
      cbn [fst snd]. rewrite S1.
      pose proof (pass_block_spec (nth (i0 + J) table 0) h (J * (2 * h)) (fst s) ltac:(rewrite L, Hl; nia)) as (L' & D' & O').
      cbv zeta in *.
      split; [lia |]. split; [rewrite L'; exact L |]. split.
      + intros b r Hb Hr. destruct (Nat.eq_dec b J) as [-> | N].
        * destruct (D' r Hr) as [D1 D2]. rewrite D1, D2. rewrite !U by nia. split; reflexivity.
        * rewrite !O' by (left; nia). apply D; lia.
      + intros p Hp. rewrite O' by (right; lia). apply U. lia.
  Qed.

  Lemma pass_spec table h c i0 B : (0 < h)%nat -> length c = (B * (2 * h))%nat ->
    let s := pass bf table h (c, i0) in
    snd s = (i0 + B)%nat /\ length (fst s) = length c /\
    (forall b r, (b < B)%nat -> (r < h)%nat ->
       nth (b * (2 * h) + r) (fst s) 0 = fst (bf (nth (i0 + b) table 0) (nth (b * (2 * h) + r) c 0) (nth (b * (2 * h) + r + h) c 0)) /\
       nth (b * (2 * h) + r + h) (fst s) 0 = snd (bf (nth (i0 + b) table 0) (nth (b * (2 * h) + r) c 0) (nth (b * (2 * h) + r + h) c 0))).
  Proof.
    intros Hh Hl. cbv zeta. unfold pass. cbn [fst].
    assert (E : ((length c + 2 * h - 1) / (2 * h) = B)%nat).
    { rewrite Hl. replace (B * (2 * h) + 2 * h - 1)%nat with ((2 * h - 1) + B * (2 * h))%nat by lia.
      rewrite Nat.div_add by lia. rewrite Nat.div_small by lia. reflexivity. }
    rewrite E. pose proof (pass_prefix table h c i0 B Hl B (le_n B)) as (S1 & L & D & _). auto.
  Qed.
End Pass.

(** positions of a list of B*2h entries *)
Lemma split_index B h p : (0 < h)%nat -> (p < B * (2 * h))%nat ->
  exists b r, (b < B)%nat /\ (r < h)%nat /\ (p = b * (2 * h) + r \/ p = b * (2 * h) + r + h)%nat.
Proof.
  intros Hh Hp. pose proof (Nat.div_mod p (2 * h) ltac:(lia)) as E. pose proof (Nat.mod_upper_bound p (2 * h) ltac:(lia)) as M.
  assert (p / (2 * h) < B)%nat by (apply Nat.div_lt_upper_bound; lia).
  destruct (Nat.lt_ge_cases (p mod (2 * h)) h).
  - exists (p / (2 * h))%nat, (p mod (2 * h))%nat. repeat split; try lia.
  - exists (p / (2 * h))%nat, (p mod (2 * h) - h)%nat. repeat split; try lia.
Qed.

(** *** The transforms *)
Section Transform.
  Variables (L : nat) (q psi psi' : Z).
  Hypothesis Hq : 1 < q.
  Hypothesis Hroot : pw psi (2 ^ L) == -1 [mod q].
  Hypothesis Hinv : psi * psi' == 1 [mod q].
  Variables (tab tab' : list Z).
  Hypothesis Htab : forall i, (i < 2 ^ L)%nat -> nth i tab 0 == pw psi (brev L i) [mod q].
  Hypothesis Htab' : forall i, (i < 2 ^ L)%nat -> nth i tab' 0 == pw psi' (S (brev L i)) [mod q].

  Definition ct_run (s : nat) (c : list Z) : list Z * nat :=
    fold_left (fun st t => pass (ct_butterfly q) tab (2 ^ (L - 1 - t)) st) (seq 0 s) (c, 1%nat).
  Definition gs_run (s : nat) (c : list Z) : list Z * nat :=
    fold_left (fun st t => pass (gs_butterfly q) tab' (2 ^ t) st) (seq 0 s) (c, 0%nat).

  Lemma ct_run_S s c : ct_run (S s) c = pass (ct_butterfly q) tab (2 ^ (L - 1 - s)) (ct_run s c).
  Proof. unfold ct_run. rewrite seq_S, fold_left_app. reflexivity. Qed.
  Lemma gs_run_S s c : gs_run (S s) c = pass (gs_butterfly q) tab' (2 ^ s) (gs_run s c).
  Proof. unfold gs_run. rewrite seq_S, fold_left_app. reflexivity. Qed.

  Lemma size_split s : (s < L)%nat -> (2 ^ L = 2 ^ s * (2 * 2 ^ (L - 1 - s)))%nat.
  Proof. intros H. rewrite <- Nat.pow_succ_r', <- Nat.pow_add_r. f_equal. lia. Qed.

  (** shape of the state after s stages, and the action of one stage *)
  Lemma ct_shape s c : length c = (2 ^ L)%nat -> (s <= L)%nat -> length (fst (ct_run s c)) = (2 ^ L)%nat /\ snd (ct_run s c) = (2 ^ s)%nat.
  Proof.
    intros Hc. induction s as [|s IH]; intros Hs; [split; [exact Hc | reflexivity] |].
    destruct (IH ltac:(lia)) as [I1 I2]. rewrite ct_run_S.
    pose proof (pow2_ge1 (L - 1 - s)) as P.
    destruct (ct_run s c) as [l i0]. cbn [fst snd] in *. subst i0.
    pose proof (pass_spec (ct_butterfly q) tab (2 ^ (L - 1 - s)) l (2 ^ s) (2 ^ s) ltac:(lia) ltac:(rewrite I1; apply size_split; lia)) as (A & B & _).
    cbv zeta in *. rewrite A, B, I1. split; [reflexivity |]. rewrite Nat.pow_succ_r'. lia.
  Qed.
  Lemma ct_step s c b r : length c = (2 ^ L)%nat -> (s < L)%nat -> (b < 2 ^ s)%nat -> (r < 2 ^ (L - 1 - s))%nat ->
    let h := (2 ^ (L - 1 - s))%nat in
    let w := nth (2 ^ s + b) tab 0 in
    let u := nth (b * (2 * h) + r) (fst (ct_run s c)) 0 in
    let v := nth (b * (2 * h) + r + h) (fst (ct_run s c)) 0 in
    nth (b * (2 * h) + r) (fst (ct_run (S s) c)) 0 = (u + v * w) mod q /\
    nth (b * (2 * h) + r + h) (fst (ct_run (S s) c)) 0 = (u - v * w) mod q.
  Proof.
    intros Hc Hs Hb Hr. cbv zeta. destruct (ct_shape s c Hc ltac:(lia)) as [I1 I2]. rewrite ct_run_S.
    pose proof (pow2_ge1 (L - 1 - s)) as P.
    destruct (ct_run s c) as [l i0]. cbn [fst snd] in *. subst i0.
    pose proof (pass_spec (ct_butterfly q) tab (2 ^ (L - 1 - s)) l (2 ^ s) (2 ^ s) ltac:(lia) ltac:(rewrite I1; apply size_split; lia)) as (_ & _ & D).
    cbv zeta in D. apply D; assumption.
  Qed.

  Lemma gs_shape s c : length c = (2 ^ L)%nat -> (s <= L)%nat -> length (fst (gs_run s c)) = (2 ^ L)%nat /\ snd (gs_run s c) = (2 ^ L - 2 ^ (L - s))%nat.
  Proof.
    intros Hc. induction s as [|s IH]; intros Hs; [split; [exact Hc |]; cbn; rewrite Nat.sub_0_r; lia |].
    destruct (IH ltac:(lia)) as [I1 I2]. rewrite gs_run_S.
    pose proof (pow2_ge1 s) as P.
    destruct (gs_run s c) as [l i0]. cbn [fst snd] in *. subst i0.
    assert (E : (2 ^ L = 2 ^ (L - 1 - s) * (2 * 2 ^ s))%nat) by (rewrite <- Nat.pow_succ_r', <- Nat.pow_add_r; f_equal; lia).
    pose proof (pass_spec (gs_butterfly q) tab' (2 ^ s) l (2 ^ L - 2 ^ (L - s)) (2 ^ (L - 1 - s)) ltac:(lia) ltac:(lia)) as (A & B & _).
    cbv zeta in *. rewrite A, B, I1. split; [reflexivity |].
    replace (L - s)%nat with (S (L - 1 - s)) by lia. rewrite Nat.pow_succ_r'.
    replace (L - S s)%nat with (L - 1 - s)%nat by lia.
    pose proof (pow2_ge1 s). nia.
  Qed.
  Lemma gs_step s c b r : length c = (2 ^ L)%nat -> (s < L)%nat -> (b < 2 ^ (L - 1 - s))%nat -> (r < 2 ^ s)%nat ->
    let h := (2 ^ s)%nat in
    let w := nth (2 ^ L - 2 ^ (L - s) + b) tab' 0 in
    let u := nth (b * (2 * h) + r) (fst (gs_run s c)) 0 in
    let v := nth (b * (2 * h) + r + h) (fst (gs_run s c)) 0 in
    nth (b * (2 * h) + r) (fst (gs_run (S s) c)) 0 = (u + v) mod q /\
    nth (b * (2 * h) + r + h) (fst (gs_run (S s) c)) 0 = ((u - v) * w) mod q.
  Proof.
    intros Hc Hs Hb Hr. cbv zeta. destruct (gs_shape s c Hc ltac:(lia)) as [I1 I2]. rewrite gs_run_S.
    pose proof (pow2_ge1 s) as P.
    destruct (gs_run s c) as [l i0]. cbn [fst snd] in *. subst i0.
    assert (E : (2 ^ L = 2 ^ (L - 1 - s) * (2 * 2 ^ s))%nat) by (rewrite <- Nat.pow_succ_r', <- Nat.pow_add_r; f_equal; lia).
    pose proof (pass_spec (gs_butterfly q) tab' (2 ^ s) l (2 ^ L - 2 ^ (L - s)) (2 ^ (L - 1 - s)) ltac:(lia) ltac:(lia)) as (_ & _ & D).
    cbv zeta in D. apply D; assumption.
  Qed.

  (** after s stages block b holds the remainder of a modulo X^(n/2^s) - psi^((2 rev(b)+1) n/2^s) *)
  Lemma ct_invariant a : length a = (2 ^ L)%nat -> forall s, (s <= L)%nat -> forall b, (b < 2 ^ s)%nat -> forall x,
    pw x (2 ^ (L - s)) == pw psi ((2 * brev s b + 1) * 2 ^ (L - s)) [mod q] ->
    evalf (2 ^ L) (fun i => nth i a 0) x ==
    evalf (2 ^ (L - s)) (fun j => nth (b * 2 ^ (L - s) + j) (fst (ct_run s a)) 0) x [mod q].
  Proof.
    intros Ha. induction s as [|s IH]; intros Hs b Hb x Hx.
    - cbn in Hb. assert (b = 0)%nat by lia. subst b. rewrite Nat.sub_0_r in *. cbn [ct_run fold_left seq fst].
      apply evalf_eqm; [intros; cbn; reflexivity | reflexivity].
    - set (h := (2 ^ (L - 1 - s))%nat) in *.
      assert (EL : (L - S s = L - 1 - s)%nat) by lia. rewrite EL in *. fold h in Hx. fold h.
      assert (EH : (2 ^ (L - s) = 2 * h)%nat) by (unfold h; rewrite <- Nat.pow_succ_r'; f_equal; lia).
      (* parent block *)
      pose proof (Nat.div_mod b 2 ltac:(lia)) as Eb. pose proof (Nat.mod_upper_bound b 2 ltac:(lia)) as Mb.
      set (b0 := (b / 2)%nat) in *. set (e := (b mod 2)%nat) in *.
      rewrite Nat.pow_succ_r' in Hb.
      assert (Hb0 : (b0 < 2 ^ s)%nat) by lia.
      set (w := nth (2 ^ s + b0) tab 0).
      assert (Hw : w == pw psi ((2 * brev s b0 + 1) * h) [mod q]).
      { unfold w. rewrite Htab.
        - rewrite brev_stage by lia. unfold h. replace (L - s - 1)%nat with (L - 1 - s)%nat by lia. reflexivity.
        - pose proof (size_split s ltac:(lia)) as SS. fold h in SS. pose proof (pow2_ge1 (L - 1 - s)). fold h in H. nia. }
      assert (Eend : brev (S s) b = (e * 2 ^ s + brev s b0)%nat).
      { rewrite Eb. rewrite brev_low by lia. reflexivity. }
      assert (Hxh : pw x h == (if (e =? 0)%nat then 1 else -1) * w [mod q]).
      { rewrite Hx, Eend, Hw.
        replace ((2 * (e * 2 ^ s + brev s b0) + 1) * h)%nat with (e * (2 ^ s * (2 * h)) + (2 * brev s b0 + 1) * h)%nat
          by (clear; generalize (2 ^ s)%nat (brev s b0) h e; intros; lia).
        rewrite pw_add. replace (2 ^ s * (2 * h))%nat with (2 ^ L)%nat by (unfold h; apply size_split; lia).
        destruct (Nat.eqb_spec e 0) as [E0 | N0].
        - rewrite E0. reflexivity.
        - assert (e = 1)%nat by lia. rewrite H. rewrite Nat.mul_1_l. rewrite Hroot. reflexivity. }
      assert (Hxp : pw x (2 ^ (L - s)) == pw psi ((2 * brev s b0 + 1) * 2 ^ (L - s)) [mod q]).
      { rewrite EH. rewrite (Nat.mul_comm 2 h). rewrite (pw_mul x h 2). rewrite Hxh.
        rewrite Nat.mul_assoc. rewrite (pw_mul psi _ 2). rewrite <- Hw.
        rewrite pw_mul_base. destruct (e =? 0)%nat; [change (pw 1 2) with 1 | change (pw (-1) 2) with 1]; apply eqm_eq; ring. }
      rewrite (IH ltac:(lia) b0 Hb0 x Hxp). rewrite EH.
      unfold evalf. replace (2 * h)%nat with (h + h)%nat by lia. rewrite zsum_split. rewrite <- zsum_add.
      apply eqm_zsum. intros j Hj.
      destruct (ct_step s a b0 j Ha ltac:(lia) Hb0 Hj) as [D1 D2]. fold h in D1, D2. fold w in D1, D2.
      replace (b0 * (h + h) + j)%nat with (b0 * (2 * h) + j)%nat by lia.
      replace (b0 * (h + h) + (h + j))%nat with (b0 * (2 * h) + j + h)%nat by lia.
      set (u := nth (b0 * (2 * h) + j) (fst (ct_run s a)) 0) in *.
      set (v := nth (b0 * (2 * h) + j + h) (fst (ct_run s a)) 0) in *.
      assert (Enew : nth (b * h + j) (fst (ct_run (S s) a)) 0 == u + (if (e =? 0)%nat then 1 else -1) * w * v [mod q]).
      { assert (Ebh : (b * h = b0 * (2 * h) + e * h)%nat) by (clear - Eb; rewrite Eb at 1; clear Eb; generalize b0 e h; intros; lia).
        destruct (Nat.eqb_spec e 0) as [E0 | N0].
        - replace (b * h + j)%nat with (b0 * (2 * h) + j)%nat by (rewrite Ebh, E0; lia). rewrite D1.
          rewrite eqm_mod. apply eqm_eq. ring.
        - replace (b * h + j)%nat with (b0 * (2 * h) + j + h)%nat by (rewrite Ebh; assert (e = 1)%nat as -> by lia; lia). rewrite D2.
          rewrite eqm_mod. apply eqm_eq. ring. }
      rewrite Enew. rewrite (pw_add x h j). rewrite Hxh. apply eqm_eq. ring.
  Qed.

  Lemma ct_reduced a s : length a = (2 ^ L)%nat -> (s < L)%nat -> forall p, (p < 2 ^ L)%nat -> 0 <= nth p (fst (ct_run (S s) a)) 0 < q.
  Proof.
    intros Ha Hs p Hp. pose proof (size_split s Hs) as SS. pose proof (pow2_ge1 (L - 1 - s)) as P.
    destruct (split_index (2 ^ s) (2 ^ (L - 1 - s)) p ltac:(lia) ltac:(lia)) as (b & r & Hb & Hr & [-> | ->]);
      destruct (ct_step s a b r Ha Hs Hb Hr) as [D1 D2]; [rewrite D1 | rewrite D2]; apply Z.mod_pos_bound; lia.
  Qed.

  (** the forward transform evaluates *)
  Lemma ct_eval a : length a = (2 ^ L)%nat -> (0 < L)%nat -> fst (ct_run L a) = transform L q psi a.
  Proof.
    intros Ha HL. unfold transform. destruct (ct_shape L a Ha (le_n L)) as [LL _].
    apply (list_ext 0); [rewrite map_length, seq_length; exact LL |].
    intros i Hi. rewrite LL in Hi. rewrite nth_map_seq by exact Hi.
    pose proof (ct_invariant a Ha L (le_n L) i Hi (pw psi (2 * brev L i + 1))) as I.
    rewrite Nat.sub_diag in I. change (2 ^ 0)%nat with 1%nat in I. rewrite !Nat.mul_1_r, pw_1 in I. specialize (I ltac:(reflexivity)).
    assert (EV : eval a (psi ^ Z.of_nat (2 * brev L i + 1)) == nth i (fst (ct_run L a)) 0 [mod q]).
    { rewrite eval_evalf, Ha. change (psi ^ Z.of_nat (2 * brev L i + 1)) with (pw psi (2 * brev L i + 1)). rewrite I.
      unfold evalf. cbn [zsum]. rewrite Nat.add_0_r, pw_0. apply eqm_eq. ring. }
    symmetry. apply eqm_small_mod; [lia | exact EV |].
    pose proof (ct_reduced a (L - 1) Ha ltac:(lia) i Hi) as R. replace (S (L - 1)) with L in R by lia. exact R.
  Qed.

  (** twiddles of corresponding stages are inverse to each other *)
  Lemma twiddle_inverse s b : (s < L)%nat -> (b < 2 ^ s)%nat ->
    nth (2 ^ s + b) tab 0 * nth (2 ^ L - 2 ^ (S s) + b) tab' 0 == 1 [mod q].
  Proof.
    intros Hs Hb. pose proof (size_split s Hs) as SS. pose proof (pow2_ge1 (L - 1 - s)) as P. pose proof (pow2_ge1 s) as P'.
    assert (2 ^ S s <= 2 ^ L)%nat by (apply Nat.pow_le_mono_r; lia). rewrite Nat.pow_succ_r' in *.
    rewrite Htab by nia. rewrite Htab' by nia.
    rewrite <- (Nat.pow_succ_r' 2 s). rewrite brev_ones_prefix by assumption.
    rewrite <- pw_mul_base. rewrite Hinv. rewrite pw_one. reflexivity.
  Qed.

  (** undoing the forward stages *)
  Lemma gs_ct a : length a = (2 ^ L)%nat -> forall s, (s <= L)%nat -> forall p, (p < 2 ^ L)%nat ->
    nth p (fst (gs_run s (fst (ct_run L a)))) 0 == 2 ^ Z.of_nat s * nth p (fst (ct_run (L - s) a)) 0 [mod q].
  Proof.
    intros Ha. destruct (ct_shape L a Ha (le_n L)) as [LL _].
    induction s as [|s IH]; intros Hs p Hp.
    - rewrite Nat.sub_0_r. cbn. apply eqm_eq. destruct (nth p (fst (ct_run L a)) 0); reflexivity.
    - set (h := (2 ^ s)%nat). pose proof (pow2_ge1 s) as P. fold h in P.
      assert (E : (2 ^ L = 2 ^ (L - 1 - s) * (2 * h))%nat) by (unfold h; rewrite <- Nat.pow_succ_r', <- Nat.pow_add_r; f_equal; lia).
      assert (EL : (L - S s = L - 1 - s)%nat) by lia. rewrite EL.
      assert (ES : (L - s = S (L - 1 - s))%nat) by lia.
      assert (Eh : (L - 1 - (L - 1 - s) = s)%nat) by lia.
      destruct (split_index (2 ^ (L - 1 - s)) h p ltac:(lia) ltac:(lia)) as (b & r & Hb & Hr & Hpp).
      destruct (gs_step s (fst (ct_run L a)) b r LL ltac:(lia) Hb Hr) as [G1 G2]. fold h in G1, G2.
      destruct (ct_step (L - 1 - s) a b r Ha ltac:(lia) Hb ltac:(rewrite Eh; exact Hr)) as [C1 C2].
      rewrite Eh in C1, C2. fold h in C1, C2. rewrite <- ES in C1, C2.
      assert (B1 : (b * (2 * h) + r < 2 ^ L)%nat) by (rewrite E; nia).
      assert (B2 : (b * (2 * h) + r + h < 2 ^ L)%nat) by (rewrite E; nia).
      pose proof (IH ltac:(lia) _ B1) as I1. pose proof (IH ltac:(lia) _ B2) as I2.
      rewrite C1 in I1. rewrite C2 in I2.
      set (u := nth (b * (2 * h) + r) (fst (ct_run (L - 1 - s) a)) 0) in *.
      set (v := nth (b * (2 * h) + r + h) (fst (ct_run (L - 1 - s) a)) 0) in *.
      pose proof (twiddle_inverse (L - 1 - s) b ltac:(lia) Hb) as TI. rewrite <- ES in TI.
      set (w := nth (2 ^ (L - 1 - s) + b) tab 0) in *. set (w' := nth (2 ^ L - 2 ^ (L - s) + b) tab' 0) in *.
      assert (EP : 2 ^ Z.of_nat (S s) = 2 * 2 ^ Z.of_nat s) by (rewrite Nat2Z.inj_succ, Z.pow_succ_r by lia; reflexivity).
      rewrite EP. rewrite eqm_mod in I1. rewrite eqm_mod in I2.
      destruct Hpp as [-> | ->].
      + rewrite G1, eqm_mod, I1, I2. apply eqm_eq. unfold u. ring.
      + rewrite G2, eqm_mod, I1, I2. fold v.
        transitivity (2 * 2 ^ Z.of_nat s * v * (w * w')); [apply eqm_eq; ring |]. rewrite TI. apply eqm_eq. ring.
  Qed.

  (** undoing the inverse stages *)
  Lemma ct_gs y k c0 : length y = (2 ^ L)%nat -> length c0 = (2 ^ L)%nat ->
    (forall p, (p < 2 ^ L)%nat -> nth p c0 0 == k * nth p (fst (gs_run L y)) 0 [mod q]) ->
    forall s, (s <= L)%nat -> forall p, (p < 2 ^ L)%nat ->
    nth p (fst (ct_run s c0)) 0 == k * 2 ^ Z.of_nat s * nth p (fst (gs_run (L - s) y)) 0 [mod q].
  Proof.
    intros Hy Hc Hk. induction s as [|s IH]; intros Hs p Hp.
    - rewrite Nat.sub_0_r. cbn [ct_run seq fold_left fst]. rewrite Hk by exact Hp. apply eqm_eq. cbn. ring.
    - set (h := (2 ^ (L - 1 - s))%nat). pose proof (pow2_ge1 (L - 1 - s)) as P. fold h in P.
      pose proof (size_split s ltac:(lia)) as E. fold h in E.
      assert (EL : (L - S s = L - 1 - s)%nat) by lia. rewrite EL.
      assert (ES : (L - s = S (L - 1 - s))%nat) by lia.
      assert (Eh : (L - 1 - (L - 1 - s) = s)%nat) by lia.
      destruct (split_index (2 ^ s) h p ltac:(lia) ltac:(lia)) as (b & r & Hb & Hr & Hpp).
      destruct (ct_step s c0 b r Hc ltac:(lia) Hb Hr) as [C1 C2]. fold h in C1, C2.
      destruct (gs_step (L - 1 - s) y b r Hy ltac:(lia) ltac:(rewrite Eh; exact Hb) Hr) as [G1 G2].
      fold h in G1, G2. rewrite <- ES in G1, G2.
      assert (B1 : (b * (2 * h) + r < 2 ^ L)%nat) by (rewrite E; nia).
      assert (B2 : (b * (2 * h) + r + h < 2 ^ L)%nat) by (rewrite E; nia).
      pose proof (IH ltac:(lia) _ B1) as I1. pose proof (IH ltac:(lia) _ B2) as I2.
      rewrite G1 in I1. rewrite G2 in I2.
      set (u := nth (b * (2 * h) + r) (fst (gs_run (L - 1 - s) y)) 0) in *.
      set (v := nth (b * (2 * h) + r + h) (fst (gs_run (L - 1 - s) y)) 0) in *.
      pose proof (twiddle_inverse s b ltac:(lia) Hb) as TI.
      replace (L - (L - 1 - s))%nat with (S s) in * by lia.
      set (w := nth (2 ^ s + b) tab 0) in *. set (w' := nth (2 ^ L - 2 ^ S s + b) tab' 0) in *.
      assert (EP : 2 ^ Z.of_nat (S s) = 2 * 2 ^ Z.of_nat s) by (rewrite Nat2Z.inj_succ, Z.pow_succ_r by lia; reflexivity).
      rewrite EP. rewrite eqm_mod in I1. rewrite eqm_mod in I2.
      assert (X : k * 2 ^ Z.of_nat s * ((u - v) * w') * w == k * 2 ^ Z.of_nat s * (u - v) [mod q]).
      { transitivity (k * 2 ^ Z.of_nat s * (u - v) * (w * w')); [apply eqm_eq; ring |]. rewrite TI. apply eqm_eq. ring. }
      destruct Hpp as [-> | ->].
      + rewrite C1, eqm_mod, I1, I2. rewrite X. fold u. apply eqm_eq. ring.
      + rewrite C2, eqm_mod, I1, I2. rewrite X. fold v. apply eqm_eq. ring.
  Qed.
End Transform.
