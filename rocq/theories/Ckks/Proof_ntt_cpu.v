From Coq Require Import ZArith Znumtheory List Bool Lia Setoid Zpow_facts.
From Verif Require Import Base.ZSum Base.Modeq Base.Lists Base.Bitrev Base.Nega Base.Powm Base.Word Base.Egcd Base.Fermat Base.Order.
From Verif Require Import Ckks.Model_rns_utils Ckks.Model_math Ckks.Model_ntt_cpu Ckks.Spec_ntt Ckks.Proof_bitrev Ckks.Proof_ntt Ckks.Proof_math Ckks.Proof_ntt_ref.
Import ListNotations.
Local Open Scope Z_scope.

Lemma map2_length {A B C} (f : A -> B -> C) : forall l l', length (map2 f l l') = Nat.min (length l) (length l').
Proof. induction l as [|x l IH]; intros [|y l']; cbn; auto. Qed.
Lemma nth_map2 {A B C} (f : A -> B -> C) dA dB dC : forall l l' i, (i < length l)%nat -> (i < length l')%nat ->
  nth i (map2 f l l') dC = f (nth i l dA) (nth i l' dB).
Proof.
  induction l as [|x l IH]; intros [|y l'] i H H'; cbn [length] in *; try lia. destruct i; [reflexivity |]. cbn. apply IH; lia.
Qed.

Lemma powers_list_spec c : forall q w curr, length (powers_list c curr w q) = c /\
  forall i, (i < c)%nat -> nth i (powers_list c curr w q) 0 == curr * pw w i [mod q].
Proof.
  induction c as [|c IH]; intros q w curr; [split; [reflexivity | intros; lia] |]. cbn [powers_list length].
  destruct (IH q w ((curr * w) mod q)) as [L N]. split; [rewrite L; reflexivity |].
  intros [|i] Hi; cbn [nth]; [rewrite pw_0; apply eqm_eq; ring |]. rewrite N by lia. rewrite eqm_mod, pw_S. apply eqm_eq. ring.
Qed.

(** a length-preserving operation on the rows of a (B, len) array *)
Lemma by_rows_spec f len B a : (0 < len)%nat -> length a = (B * len)%nat -> (forall row, length row = len -> length (f row) = len) ->
  length (by_rows f len a) = length a /\
  forall b r, (b < B)%nat -> (r < len)%nat -> exists row, length row = len /\ (forall j, (j < len)%nat -> nth j row 0 = nth (b * len + j) a 0) /\
    nth (b * len + r) (by_rows f len a) 0 = nth r (f row) 0.
Proof.
  intros Hlen Ha Hf. unfold by_rows. replace (length a / len)%nat with B by (rewrite Ha, Nat.div_mul by lia; reflexivity).
  assert (F : Forall (fun r => length r = len) (map f (rows B len a))).
  { apply Forall_map. eapply Forall_impl; [| apply (rows_Forall len B a Ha)]. intros r Hr. apply Hf. exact Hr. }
  split; [rewrite (concat_length_const _ len F), map_length, rows_length, Ha; reflexivity |].
  intros b r Hb Hr. exists (nth b (rows B len a) []). split; [apply rows_nth_length; assumption |]. split.
  - intros j Hj. apply rows_nth; assumption.
  - rewrite (concat_nth_const _ len) by (auto; rewrite map_length, rows_length; exact Hb).
    rewrite (nth_map_in f (rows B len a) [] []) by (rewrite rows_length; exact Hb). reflexivity.
Qed.

Section Stage.
  Variables (L : nat) (q w : Z).
  Hypothesis Hq : 1 < q.

  Definition dit_stage (t : nat) (a : list Z) : list Z :=
    by_rows (dit_row q (get_powers (Zpow_mod w (Z.of_nat (2 ^ L / (2 * 2 ^ t))) q) (2 ^ t) q) (2 ^ t)) (2 * 2 ^ t) a.
  Definition dif_stage (t : nat) (a : list Z) : list Z :=
    by_rows (dif_row q (get_powers (Zpow_mod w (Z.of_nat (2 ^ L / (2 * 2 ^ t))) q) (2 ^ t) q) (2 ^ t)) (2 * 2 ^ t) a.

  Lemma stage_size t : (t < L)%nat -> (2 ^ L = 2 ^ (L - 1 - t) * (2 * 2 ^ t))%nat /\ (2 ^ L / (2 * 2 ^ t) = 2 ^ (L - 1 - t))%nat.
  Proof.
    intros Ht. assert (E : (2 ^ L = 2 ^ (L - 1 - t) * (2 * 2 ^ t))%nat) by (rewrite <- Nat.pow_succ_r', <- Nat.pow_add_r; f_equal; lia).
    split; [exact E |]. rewrite E. apply Nat.div_mul. pose proof (pow2_ge1 t). lia.
  Qed.

  Definition tw (t r : nat) : Z := pw w (2 ^ (L - 1 - t) * r).

  Lemma stage_powers t : (t < L)%nat ->
    let ws := get_powers (Zpow_mod w (Z.of_nat (2 ^ L / (2 * 2 ^ t))) q) (2 ^ t) q in
    length ws = (2 ^ t)%nat /\ forall r, (r < 2 ^ t)%nat -> nth r ws 0 == tw t r [mod q].
  Proof.
    intros Ht. cbv zeta. unfold get_powers. destruct (powers_list_spec (2 ^ t) q (Zpow_mod w (Z.of_nat (2 ^ L / (2 * 2 ^ t))) q) 1) as [A B].
    split; [exact A |]. intros r Hr. rewrite B by exact Hr. rewrite Zpow_mod_pw by lia. rewrite eqm_mod, (proj2 (stage_size t Ht)), <- pw_mul.
    apply eqm_eq. unfold tw. ring.
  Qed.

  Lemma dit_stage_spec t a : (t < L)%nat -> length a = (2 ^ L)%nat -> length (dit_stage t a) = (2 ^ L)%nat /\
    forall b r, (b < 2 ^ (L - 1 - t))%nat -> (r < 2 ^ t)%nat ->
      nth (b * (2 * 2 ^ t) + r) (dit_stage t a) 0 == nth (b * (2 * 2 ^ t) + r) a 0 + nth (b * (2 * 2 ^ t) + r + 2 ^ t) a 0 * tw t r [mod q] /\
      nth (b * (2 * 2 ^ t) + r + 2 ^ t) (dit_stage t a) 0 == nth (b * (2 * 2 ^ t) + r) a 0 - nth (b * (2 * 2 ^ t) + r + 2 ^ t) a 0 * tw t r [mod q].
  Proof.
    intros Ht Ha. destruct (stage_size t Ht) as [E1 E2]. destruct (stage_powers t Ht) as [LW NW]. cbv zeta in LW, NW. unfold dit_stage.
    set (ws := get_powers _ _ _) in *. set (h := (2 ^ t)%nat) in *. pose proof (pow2_ge1 t) as P. fold h in P.
    assert (LR : forall row, length row = (2 * h)%nat -> length (dit_row q ws h row) = (2 * h)%nat).
    { intros row Hr. unfold dit_row. rewrite app_length, !map2_length, firstn_length, skipn_length, LW, Hr. lia. }
    destruct (by_rows_spec (dit_row q ws h) (2 * h) (2 ^ (L - 1 - t)) a ltac:(lia) ltac:(lia) LR) as [BL BN].
    split; [rewrite BL; exact Ha |]. intros b r Hb Hr. split.
    - destruct (BN b r Hb ltac:(lia)) as (row & R1 & R2 & R3). rewrite R3. unfold dit_row.
      rewrite app_nth1 by (rewrite !map2_length, firstn_length, skipn_length, LW, R1; lia).
      rewrite (nth_map2 _ 0 0 0) by (rewrite ?map2_length, ?firstn_length, ?skipn_length, ?LW, ?R1; lia).
      rewrite (nth_map2 _ 0 0 0) by (rewrite ?map2_length, ?firstn_length, ?skipn_length, ?LW, ?R1; lia).
      rewrite nth_firstn_lt, nth_skipn by lia. rewrite !R2 by lia. rewrite !eqm_mod, NW by exact Hr.
      replace (b * (2 * h) + r + h)%nat with (b * (2 * h) + (h + r))%nat by lia. reflexivity.
    - replace (b * (2 * h) + r + h)%nat with (b * (2 * h) + (h + r))%nat by lia.
      destruct (BN b (h + r)%nat Hb ltac:(lia)) as (row & R1 & R2 & R3). rewrite R3. unfold dit_row.
      rewrite app_nth2 by (rewrite !map2_length, firstn_length, skipn_length, LW, R1; lia).
      rewrite !map2_length, firstn_length, skipn_length, LW, R1.
      replace (h + r - Nat.min (Nat.min h (2 * h)) (Nat.min (2 * h - h) h))%nat with r by lia.
      rewrite (nth_map2 _ 0 0 0) by (rewrite ?map2_length, ?firstn_length, ?skipn_length, ?LW, ?R1; lia).
      rewrite (nth_map2 _ 0 0 0) by (rewrite ?map2_length, ?firstn_length, ?skipn_length, ?LW, ?R1; lia).
      rewrite nth_firstn_lt, nth_skipn by lia. rewrite !R2 by lia. rewrite !eqm_mod, NW by exact Hr. reflexivity.
  Qed.

  Lemma dif_stage_spec t a : (t < L)%nat -> length a = (2 ^ L)%nat -> length (dif_stage t a) = (2 ^ L)%nat /\
    forall b r, (b < 2 ^ (L - 1 - t))%nat -> (r < 2 ^ t)%nat ->
      nth (b * (2 * 2 ^ t) + r) (dif_stage t a) 0 == nth (b * (2 * 2 ^ t) + r) a 0 + nth (b * (2 * 2 ^ t) + r + 2 ^ t) a 0 [mod q] /\
      nth (b * (2 * 2 ^ t) + r + 2 ^ t) (dif_stage t a) 0 == (nth (b * (2 * 2 ^ t) + r) a 0 - nth (b * (2 * 2 ^ t) + r + 2 ^ t) a 0) * tw t r [mod q].
  Proof.
    intros Ht Ha. destruct (stage_size t Ht) as [E1 E2]. destruct (stage_powers t Ht) as [LW NW]. cbv zeta in LW, NW. unfold dif_stage.
    set (ws := get_powers _ _ _) in *. set (h := (2 ^ t)%nat) in *. pose proof (pow2_ge1 t) as P. fold h in P.
    assert (LR : forall row, length row = (2 * h)%nat -> length (dif_row q ws h row) = (2 * h)%nat).
    { intros row Hr. unfold dif_row. rewrite app_length, !map2_length, firstn_length, skipn_length, LW, Hr. lia. }
    destruct (by_rows_spec (dif_row q ws h) (2 * h) (2 ^ (L - 1 - t)) a ltac:(lia) ltac:(lia) LR) as [BL BN].
    split; [rewrite BL; exact Ha |]. intros b r Hb Hr. split.
    - destruct (BN b r Hb ltac:(lia)) as (row & R1 & R2 & R3). rewrite R3. unfold dif_row.
      rewrite app_nth1 by (rewrite !map2_length, firstn_length, skipn_length, R1; lia).
      rewrite (nth_map2 _ 0 0 0) by (rewrite ?map2_length, ?firstn_length, ?skipn_length, ?LW, ?R1; lia).
      rewrite nth_firstn_lt, nth_skipn by lia. rewrite !R2 by lia. rewrite !eqm_mod.
      replace (b * (2 * h) + r + h)%nat with (b * (2 * h) + (h + r))%nat by lia. reflexivity.
    - replace (b * (2 * h) + r + h)%nat with (b * (2 * h) + (h + r))%nat by lia.
      destruct (BN b (h + r)%nat Hb ltac:(lia)) as (row & R1 & R2 & R3). rewrite R3. unfold dif_row.
      rewrite app_nth2 by (rewrite !map2_length, firstn_length, skipn_length, R1; lia).
      rewrite !map2_length, firstn_length, skipn_length, R1.
      replace (h + r - Nat.min (Nat.min h (2 * h)) (2 * h - h))%nat with r by lia.
      rewrite (nth_map2 _ 0 0 0) by (rewrite ?map2_length, ?firstn_length, ?skipn_length, ?LW, ?R1; lia).
      rewrite (nth_map2 _ 0 0 0) by (rewrite ?map2_length, ?firstn_length, ?skipn_length, ?LW, ?R1; lia).
      rewrite nth_firstn_lt, nth_skipn by lia. rewrite !R2 by lia. rewrite !eqm_mod, NW by exact Hr. reflexivity.
  Qed.

  (** splitting indices at stage t *)
  Lemma stage_index t p : (t < L)%nat -> (p < 2 ^ L)%nat ->
    exists b r, (b < 2 ^ (L - 1 - t))%nat /\ (r < 2 ^ t)%nat /\ (p = b * (2 * 2 ^ t) + r \/ p = b * (2 * 2 ^ t) + r + 2 ^ t)%nat.
  Proof.
    intros Ht Hp. destruct (stage_size t Ht) as [E _]. pose proof (pow2_ge1 t). apply split_index; [lia |]. lia.
  Qed.

  (** proportional vectors *)
  Definition prop (k : Z) (x y : list Z) : Prop :=
    length x = (2 ^ L)%nat /\ length y = (2 ^ L)%nat /\ forall p, (p < 2 ^ L)%nat -> nth p x 0 == k * nth p y 0 [mod q].

  Lemma stage_bounds t b r : (t < L)%nat -> (b < 2 ^ (L - 1 - t))%nat -> (r < 2 ^ t)%nat ->
    (b * (2 * 2 ^ t) + r < 2 ^ L /\ b * (2 * 2 ^ t) + r + 2 ^ t < 2 ^ L)%nat.
  Proof. intros Ht Hb Hr. destruct (stage_size t Ht) as [E _]. rewrite E. nia. Qed.

  Lemma dit_stage_prop t k x y : (t < L)%nat -> prop k x y -> prop k (dit_stage t x) (dit_stage t y).
  Proof.
    intros Ht (Lx & Ly & H). destruct (dit_stage_spec t x Ht Lx) as [X1 X2]. destruct (dit_stage_spec t y Ht Ly) as [Y1 Y2].
    split; [exact X1 |]. split; [exact Y1 |]. intros p Hp. destruct (stage_index t p Ht Hp) as (b & r & Hb & Hr & Hpp).
    destruct (stage_bounds t b r Ht Hb Hr) as [B1 B2]. destruct (X2 b r Hb Hr) as [XA XB]. destruct (Y2 b r Hb Hr) as [YA YB].
    destruct Hpp as [-> | ->]; [rewrite XA, YA | rewrite XB, YB]; rewrite (H _ B1), (H _ B2); apply eqm_eq; ring.
  Qed.
  Lemma dif_stage_prop t k x y : (t < L)%nat -> prop k x y -> prop k (dif_stage t x) (dif_stage t y).
  Proof.
    intros Ht (Lx & Ly & H). destruct (dif_stage_spec t x Ht Lx) as [X1 X2]. destruct (dif_stage_spec t y Ht Ly) as [Y1 Y2].
    split; [exact X1 |]. split; [exact Y1 |]. intros p Hp. destruct (stage_index t p Ht Hp) as (b & r & Hb & Hr & Hpp).
    destruct (stage_bounds t b r Ht Hb Hr) as [B1 B2]. destruct (X2 b r Hb Hr) as [XA XB]. destruct (Y2 b r Hb Hr) as [YA YB].
    destruct Hpp as [-> | ->]; [rewrite XA, YA | rewrite XB, YB]; rewrite (H _ B1), (H _ B2); apply eqm_eq; ring.
  Qed.

  Definition dit_run (s : nat) (a : list Z) : list Z := fold_left (fun a t => dit_stage t a) (seq 0 s) a.
  Definition dif_run (s : nat) (a : list Z) : list Z := fold_left (fun a t => dif_stage t a) (rev (seq 0 s)) a.
  Lemma dit_run_S s a : dit_run (S s) a = dit_stage s (dit_run s a).
  Proof. unfold dit_run. rewrite seq_S, fold_left_app. reflexivity. Qed.
  Lemma dif_run_S s a : dif_run (S s) a = dif_run s (dif_stage s a).
  Proof. unfold dif_run. rewrite seq_S, rev_app_distr. reflexivity. Qed.

  Lemma dit_run_prop s : forall k x y, (s <= L)%nat -> prop k x y -> prop k (dit_run s x) (dit_run s y).
  Proof. induction s as [|s IH]; intros k x y Hs H; [exact H |]. rewrite !dit_run_S. apply dit_stage_prop; [lia |]. apply IH; [lia | exact H]. Qed.
  Lemma dif_run_prop s : forall k x y, (s <= L)%nat -> prop k x y -> prop k (dif_run s x) (dif_run s y).
  Proof. induction s as [|s IH]; intros k x y Hs H; [exact H |]. rewrite !dif_run_S. apply IH; [lia |]. apply dif_stage_prop; [lia | exact H]. Qed.

  Lemma prop_refl x : length x = (2 ^ L)%nat -> prop 1 x x.
  Proof. intros H. split; [exact H |]. split; [exact H |]. intros p _. apply eqm_eq. ring. Qed.
  Lemma prop_trans k l x y z : prop k x y -> prop l y z -> prop (k * l) x z.
  Proof.
    intros (A & B & C) (D & E & F). split; [exact A |]. split; [exact E |]. intros p Hp. rewrite (C p Hp), (F p Hp). apply eqm_eq. ring.
  Qed.
End Stage.

(** stages with inverse twiddles undo each other up to a factor 2 *)
Section Inverse.
  Variables (L : nat) (q w w' : Z).
  Hypothesis Hq : 1 < q.
  Hypothesis Hw : w * w' == 1 [mod q].

  Lemma tw_inverse t r : tw L w t r * tw L w' t r == 1 [mod q].
  Proof. unfold tw. rewrite <- pw_mul_base, Hw, pw_one. reflexivity. Qed.

  Lemma dif_dit t x : (t < L)%nat -> length x = (2 ^ L)%nat -> prop L q 2 (dif_stage L q w' t (dit_stage L q w t x)) x.
  Proof.
    intros Ht Hx. destruct (dit_stage_spec L q w Hq t x Ht Hx) as [X1 X2]. destruct (dif_stage_spec L q w' Hq t _ Ht X1) as [Y1 Y2].
    split; [exact Y1 |]. split; [exact Hx |]. intros p Hp. destruct (stage_index L t p Ht Hp) as (b & r & Hb & Hr & Hpp).
    destruct (X2 b r Hb Hr) as [XA XB]. destruct (Y2 b r Hb Hr) as [YA YB].
    destruct Hpp as [-> | ->]; [rewrite YA | rewrite YB]; rewrite XA, XB.
    - apply eqm_eq. ring.
    - set (v := nth (b * (2 * 2 ^ t) + r + 2 ^ t) x 0). transitivity (2 * v * (tw L w t r * tw L w' t r)); [apply eqm_eq; ring |].
      rewrite tw_inverse. apply eqm_eq. ring.
  Qed.
  Lemma dit_dif t x : (t < L)%nat -> length x = (2 ^ L)%nat -> prop L q 2 (dit_stage L q w t (dif_stage L q w' t x)) x.
  Proof.
    intros Ht Hx. destruct (dif_stage_spec L q w' Hq t x Ht Hx) as [X1 X2]. destruct (dit_stage_spec L q w Hq t _ Ht X1) as [Y1 Y2].
    split; [exact Y1 |]. split; [exact Hx |]. intros p Hp. destruct (stage_index L t p Ht Hp) as (b & r & Hb & Hr & Hpp).
    destruct (X2 b r Hb Hr) as [XA XB]. destruct (Y2 b r Hb Hr) as [YA YB].
    set (u := nth (b * (2 * 2 ^ t) + r) x 0) in *. set (v := nth (b * (2 * 2 ^ t) + r + 2 ^ t) x 0) in *.
    assert (T : (u - v) * tw L w' t r * tw L w t r == u - v [mod q]).
    { transitivity ((u - v) * (tw L w t r * tw L w' t r)); [apply eqm_eq; ring |]. rewrite tw_inverse. apply eqm_eq. ring. }
    destruct Hpp as [-> | ->]; [rewrite YA | rewrite YB]; rewrite XA, XB, T; [fold u | fold v]; apply eqm_eq; ring.
  Qed.

  Lemma dif_dit_run s : forall x, (s <= L)%nat -> length x = (2 ^ L)%nat -> prop L q (2 ^ Z.of_nat s) (dif_run L q w' s (dit_run L q w s x)) x.
  Proof.
    induction s as [|s IH]; intros x Hs Hx; [apply prop_refl; exact Hx |].
    rewrite dit_run_S, dif_run_S. rewrite Nat2Z.inj_succ, Z.pow_succ_r by lia.
    eapply prop_trans; [| apply IH; [lia | exact Hx]].
    apply (dif_run_prop L q w' Hq s 2); [lia |]. apply dif_dit; [lia |].
    pose proof (dit_run_prop L q w Hq s 1 x x ltac:(lia) (prop_refl L q x Hx)) as (A & _ & _). exact A.
  Qed.
  Lemma dit_dif_run s : forall x, (s <= L)%nat -> length x = (2 ^ L)%nat -> prop L q (2 ^ Z.of_nat s) (dit_run L q w s (dif_run L q w' s x)) x.
  Proof.
    induction s as [|s IH]; intros x Hs Hx; [apply prop_refl; exact Hx |].
    rewrite dit_run_S, dif_run_S. rewrite Nat2Z.inj_succ, Z.pow_succ_r by lia. rewrite (Z.mul_comm 2).
    destruct (dif_stage_spec L q w' Hq s x ltac:(lia) Hx) as [X1 _].
    eapply prop_trans; [| apply (dit_dif s x); [lia | exact Hx]].
    apply (dit_stage_prop L q w Hq s); [lia |]. apply IH; [lia | exact X1].
  Qed.
End Inverse.

(** the value computed by the forward stages *)
Section Forward.
  Variables (L : nat) (q w : Z) (a : list Z).
  Hypothesis Hq : 1 < q.
  Hypothesis Ha : length a = (2 ^ L)%nat.
  Hypothesis Hw : (0 < L)%nat -> pw w (2 ^ (L - 1)) == -1 [mod q].
  Let x0 := map (fun p => nth (brev L p) a 0) (seq 0 (2 ^ L)).

  Lemma dit_invariant t : (t <= L)%nat -> length (dit_run L q w t x0) = (2 ^ L)%nat /\
    forall b r, (b < 2 ^ (L - t))%nat -> (r < 2 ^ t)%nat ->
      nth (b * 2 ^ t + r) (dit_run L q w t x0) 0 ==
      zsum (2 ^ t) (fun i => nth (i * 2 ^ (L - t) + brev (L - t) b) a 0 * pw w (2 ^ (L - t) * (i * r))) [mod q].
  Proof.
    induction t as [|t IH]; intros Ht.
    - cbn [dit_run seq fold_left]. unfold x0. split; [rewrite map_length, seq_length; reflexivity |].
      intros b r Hb Hr. rewrite Nat.sub_0_r in *. cbn in Hr. assert (r = 0)%nat by lia. subst r.
      replace (b * 2 ^ 0 + 0)%nat with b by (cbn; lia). rewrite nth_map_seq by exact Hb.
      change (2 ^ 0)%nat with 1%nat. cbn [zsum]. rewrite Nat.mul_0_l, !Nat.mul_0_r, pw_0. apply eqm_eq. cbn [Nat.add]. ring.
    - destruct (IH ltac:(lia)) as [LR IV]. rewrite dit_run_S.
      destruct (dit_stage_spec L q w Hq t _ ltac:(lia) LR) as [LS SV]. split; [exact LS |].
      set (h := (2 ^ t)%nat) in *. set (m := (2 ^ (L - 1 - t))%nat) in *.
      assert (EH : (2 ^ S t = 2 * h)%nat) by apply Nat.pow_succ_r'.
      assert (EM : (2 ^ (L - t) = 2 * m)%nat) by (unfold m; rewrite <- Nat.pow_succ_r'; f_equal; lia).
      assert (ES : (L - S t = L - 1 - t)%nat) by lia. rewrite ES. fold m. rewrite EH.
      assert (HMH : (m * h = 2 ^ (L - 1))%nat) by (unfold m, h; rewrite <- Nat.pow_add_r; f_equal; lia).
      specialize (Hw ltac:(lia)).
      assert (CORE : forall b r, (b < m)%nat -> (r < h)%nat ->
        nth (b * (2 * h) + r) (dit_run L q w t x0) 0 ==
          zsum h (fun i => nth ((2 * i) * m + brev (L - 1 - t) b) a 0 * pw w (m * ((2 * i) * r))) [mod q] /\
        nth (b * (2 * h) + r + h) (dit_run L q w t x0) 0 * tw L w t r ==
          zsum h (fun i => nth ((2 * i + 1) * m + brev (L - 1 - t) b) a 0 * pw w (m * ((2 * i + 1) * r))) [mod q]).
      { intros b r Hb Hr. split.
        - replace (b * (2 * h) + r)%nat with ((2 * b) * h + r)%nat by lia. rewrite IV by (rewrite ?EM; lia).
          apply eqm_eq. apply zsum_ext. intros i Hi. rewrite EM.
          replace (brev (L - t) (2 * b)) with (brev (L - 1 - t) b).
          2: { replace (L - t)%nat with (S (L - 1 - t)) by lia. replace (2 * b)%nat with (2 * b + 0)%nat by lia. rewrite brev_low by lia. lia. }
          replace (i * (2 * m))%nat with (2 * i * m)%nat by lia. replace (2 * m * (i * r))%nat with (m * (2 * i * r))%nat by lia. reflexivity.
        - replace (b * (2 * h) + r + h)%nat with ((2 * b + 1) * h + r)%nat by lia. rewrite IV by (rewrite ?EM; lia).
          rewrite <- zsum_mul_r. apply eqm_eq. apply zsum_ext. intros i Hi. rewrite EM.
          replace (brev (L - t) (2 * b + 1)) with (m + brev (L - 1 - t) b)%nat.
          2: { replace (L - t)%nat with (S (L - 1 - t)) by lia. rewrite brev_low by lia. fold m. lia. }
          replace (i * (2 * m) + (m + brev (L - 1 - t) b))%nat with ((2 * i + 1) * m + brev (L - 1 - t) b)%nat by lia.
          unfold tw. fold m. rewrite <- Z.mul_assoc, <- pw_add.
          replace (2 * m * (i * r) + m * r)%nat with (m * ((2 * i + 1) * r))%nat by lia. reflexivity. }
      assert (PAIR : forall f : nat -> Z, zsum (2 * h) f = zsum h (fun i => f (2 * i)%nat) + zsum h (fun i => f (2 * i + 1)%nat)).
      { intros f. clear. induction h as [|k IHk]; [reflexivity |]. replace (2 * S k)%nat with (S (S (2 * k))) by lia. cbn [zsum].
        rewrite IHk. replace (2 * k + 1)%nat with (S (2 * k)) by lia. ring. }
      intros b r' Hb Hr'. rewrite PAIR.
      destruct (Nat.lt_ge_cases r' h) as [Hlt | Hge].
      + destruct (SV b r' Hb Hlt) as [S1 _]. rewrite S1. destruct (CORE b r' Hb Hlt) as [C1 C2]. rewrite C1, C2. reflexivity.
      + set (r := (r' - h)%nat). assert (Er : r' = (r + h)%nat) by lia. assert (Hr : (r < h)%nat) by lia.
        rewrite Er. replace (b * (2 * h) + (r + h))%nat with (b * (2 * h) + r + h)%nat by lia.
        destruct (SV b r Hb Hr) as [_ S2]. rewrite S2. destruct (CORE b r Hb Hr) as [C1 C2]. rewrite C1, C2.
        rewrite <- zsum_sub, <- zsum_add. apply eqm_zsum. intros i Hi.
        replace (m * (2 * i * (r + h)))%nat with (m * (2 * i * r) + (m * h) * (2 * i))%nat by lia.
        replace (m * ((2 * i + 1) * (r + h)))%nat with (m * ((2 * i + 1) * r) + (m * h) * (2 * i + 1))%nat by lia.
        rewrite !(pw_add w (m * _)), !(pw_mul w (m * h)), HMH, Hw.
        rewrite (pw_neg1_even q (2 * i)) by (rewrite Nat.even_mul; reflexivity).
        rewrite (pw_neg1_odd q (2 * i + 1)) by (rewrite Nat.odd_add, Nat.odd_mul; reflexivity).
        apply eqm_eq. ring.
  Qed.

  Lemma dit_value r : (r < 2 ^ L)%nat -> nth r (dit_run L q w L x0) 0 == zsum (2 ^ L) (fun i => nth i a 0 * pw w (i * r)) [mod q].
  Proof.
    intros Hr. destruct (dit_invariant L (le_n L)) as [_ IV]. specialize (IV 0%nat r). rewrite Nat.sub_diag in IV.
    cbn [Nat.mul Nat.add] in IV. rewrite IV; [| cbn; lia | exact Hr]. apply eqm_eq. apply zsum_ext. intros i Hi.
    change (2 ^ 0)%nat with 1%nat. cbn [brev]. rewrite !Nat.mul_1_r, Nat.add_0_r, Nat.mul_1_l. reflexivity.
  Qed.
End Forward.

(** *** The columns *)
Lemma cyclic_is_run L q w a : length a = (2 ^ L)%nat -> (L <= 32)%nat ->
  ntt_cyclic_bit_reverse a q w = dit_run L q w L (map (fun p => nth (brev L p) a 0) (seq 0 (2 ^ L))).
Proof. intros Ha HL. unfold ntt_cyclic_bit_reverse, dit_run, dit_stage. rewrite Ha, log2_pow2, permute_brev by assumption. reflexivity. Qed.

Lemma icyclic_is_run L q w w' n' a : length a = (2 ^ L)%nat -> (L <= 32)%nat -> inverse w q = Some w' -> inverse (2 ^ Z.of_nat L) q = Some n' -> 1 < q ->
  intt_cyclic_bit_reverse a q w =
  Some (map (fun p => (nth (brev L p) (dif_run L q w' L a) 0 * n') mod q) (seq 0 (2 ^ L))).
Proof.
  intros Ha HL Hw Hn Q. unfold intt_cyclic_bit_reverse. rewrite Ha. replace (Z.of_nat (2 ^ L)) with (2 ^ Z.of_nat L) by (rewrite Nat2Z.inj_pow; reflexivity).
  rewrite Hw, Hn, log2_pow2. f_equal.
  change (fold_left _ (rev (seq 0 L)) a) with (dif_run L q w' L a).
  assert (LD : length (dif_run L q w' L a) = (2 ^ L)%nat).
  { pose proof (dif_run_prop L q w' Q L 1 a a (le_n L) (prop_refl L q a Ha)) as (A & _). exact A. }
  rewrite (permute_brev L _ LD HL), map_map. reflexivity.
Qed.

Lemma get_powers_nth w n q i : (i < n)%nat -> nth i (get_powers w n q) 0 == pw w i [mod q].
Proof. intros Hi. unfold get_powers. destruct (powers_list_spec n q w 1) as [_ N]. rewrite N by exact Hi. apply eqm_eq. ring. Qed.
Lemma get_powers_length w n q : length (get_powers w n q) = n.
Proof. apply powers_list_spec. Qed.

Section Column.
  Variables (L : nat) (q psi : Z).
  Hypothesis HL : (L <= 32)%nat.
  Hypothesis Hq : 1 < q.
  Hypothesis Hroot : pw psi (2 ^ L) == -1 [mod q].

  Lemma omega_root : (0 < L)%nat -> pw (Zpow_mod psi 2 q) (2 ^ (L - 1)) == -1 [mod q].
  Proof.
    intros H0. change 2 with (Z.of_nat 2) at 1. rewrite Zpow_mod_pw by lia. rewrite eqm_mod, <- pw_mul, <- Nat.pow_succ_r'.
    replace (S (L - 1)) with L by lia. exact Hroot.
  Qed.

  Lemma negacyclic_value a : length a = (2 ^ L)%nat ->
    length (ntt_negacyclic_bit_reverse a q psi) = (2 ^ L)%nat /\
    forall r, (r < 2 ^ L)%nat -> nth r (ntt_negacyclic_bit_reverse a q psi) 0 == eval a (psi ^ Z.of_nat (2 * r + 1)) [mod q].
  Proof.
    intros Ha. unfold ntt_negacyclic_bit_reverse. set (at_ := map2 _ a _).
    assert (Lt : length at_ = (2 ^ L)%nat) by (unfold at_; rewrite map2_length, get_powers_length, Ha; lia).
    rewrite (cyclic_is_run L) by assumption.
    destruct (dit_invariant L q (Zpow_mod psi 2 q) at_ Hq Lt omega_root L (le_n L)) as [LI _].
    split; [exact LI |]. intros r Hr. rewrite (dit_value L q _ at_ Hq Lt omega_root r Hr).
    rewrite eval_evalf, Ha. unfold evalf. apply eqm_zsum. intros i Hi. unfold at_.
    rewrite (nth_map2 _ 0 0 0) by (rewrite ?get_powers_length; lia). rewrite eqm_mod, get_powers_nth by lia.
    change 2 with (Z.of_nat 2) at 1. rewrite Zpow_mod_pw by lia. rewrite eqm_mod, <- pw_mul.
    change (psi ^ Z.of_nat (2 * r + 1)) with (pw psi (2 * r + 1)). rewrite <- pw_mul.
    rewrite <- Z.mul_assoc, <- pw_add. replace (i + 2 * (i * r))%nat with ((2 * r + 1) * i)%nat by lia. reflexivity.
  Qed.

  Lemma permuted_transform a : length a = (2 ^ L)%nat ->
    map (fun x => x mod q) (permute (get_bit_reversal_perm (2 ^ L)) (ntt_negacyclic_bit_reverse a q psi)) = transform L q psi a.
  Proof.
    intros Ha. destruct (negacyclic_value a Ha) as [LN V]. rewrite (permute_brev L _ LN HL), map_map. unfold transform.
    apply map_ext_in. intros j Hj. apply in_seq in Hj. apply eqm_mod_iff; [lia |]. apply V. apply brev_lt.
  Qed.

  Variables (psi' n' : Z).
  Hypothesis Hpsi' : inverse psi q = Some psi'.
  Hypothesis Hn' : inverse (2 ^ Z.of_nat L) q = Some n'.

  Lemma inv_facts : psi * psi' == 1 [mod q] /\ 2 ^ Z.of_nat L * n' == 1 [mod q].
  Proof. split; [apply (inverse_some psi q psi') | apply (inverse_some (2 ^ Z.of_nat L) q n')]; auto; lia. Qed.

  Lemma omega_inverse : exists w', inverse (Zpow_mod psi 2 q) q = Some w' /\ Zpow_mod psi 2 q * w' == 1 [mod q].
  Proof.
    destruct inv_facts as [I _]. destruct (inverse_total (Zpow_mod psi 2 q) q ltac:(lia)) as [w' Hw'].
    - apply Zgcd_1_rel_prime. apply bezout_rel_prime.
      assert (E : Zpow_mod psi 2 q * (psi' * psi') == 1 [mod q]).
      { change 2 with (Z.of_nat 2). rewrite Zpow_mod_pw by lia. rewrite eqm_mod. unfold pw. rewrite Z.pow_2_r.
        transitivity ((psi * psi') * (psi * psi')); [apply eqm_eq; ring |]. rewrite I. reflexivity. }
      apply eqm_ex in E. destruct E as [k E]. apply (Bezout_intro _ _ _ (psi' * psi') (- k)). lia.
    - exists w'. split; [exact Hw' |]. apply (inverse_some (Zpow_mod psi 2 q) q w'); [lia | exact Hw'].
  Qed.

  (** the inverse column applied to a forward column *)
  Lemma intt_value y w' : inverse (Zpow_mod psi 2 q) q = Some w' -> length y = (2 ^ L)%nat ->
    intt_negacyclic_bit_reverse y q psi =
    Some (map (fun i => ((nth (brev L i) (dif_run L q w' L y) 0 * n') mod q * nth i (get_powers psi' (2 ^ L) q) 0) mod q) (seq 0 (2 ^ L))).
  Proof.
    intros Hw' Hy. unfold intt_negacyclic_bit_reverse. rewrite (icyclic_is_run L q _ w' n' y Hy HL Hw' Hn' Hq), Hpsi'. f_equal.
    apply (list_ext 0); [rewrite map2_length, !map_length, seq_length, get_powers_length, Hy; lia |].
    intros i Hi. rewrite map2_length, map_length, seq_length, get_powers_length, Hy, Nat.min_id in Hi.
    rewrite (nth_map2 _ 0 0 0) by (rewrite ?map_length, ?seq_length, ?get_powers_length, ?Hy; exact Hi).
    rewrite !nth_map_seq by exact Hi. rewrite Hy. reflexivity.
  Qed.

  Lemma intt_ntt a : length a = (2 ^ L)%nat ->
    intt_negacyclic_bit_reverse (permute (get_bit_reversal_perm (2 ^ L)) (transform L q psi a)) q psi = Some (map (fun x => x mod q) a).
  Proof.
    intros Ha. destruct omega_inverse as (w' & Hw' & IW). destruct inv_facts as [IP IN].
    set (w := Zpow_mod psi 2 q) in *.
    assert (LT : length (transform L q psi a) = (2 ^ L)%nat) by (unfold transform; rewrite map_length, seq_length; reflexivity).
    rewrite (permute_brev L _ LT HL). set (y := map _ (seq 0 (2 ^ L))).
    assert (Ly : length y = (2 ^ L)%nat) by (unfold y; rewrite map_length, seq_length; reflexivity).
    rewrite (intt_value y w' Hw' Ly). f_equal.
    apply (list_ext 0); [rewrite !map_length, seq_length; lia |].
    intros i Hi. rewrite map_length, seq_length in Hi. rewrite nth_map_seq by exact Hi. rewrite (nth_map_in _ a 0 0) by lia.
    apply eqm_mod_iff; [lia |]. rewrite eqm_mod, get_powers_nth by exact Hi.
    (* y is congruent to the forward stages applied to the permuted twisted vector *)
    set (at_ := map2 (fun x w0 => (x * w0) mod q) a (get_powers psi (length a) q)).
    assert (Lt : length at_ = (2 ^ L)%nat) by (unfold at_; rewrite map2_length, get_powers_length, Ha; lia).
    set (x0 := map (fun p => nth (brev L p) at_ 0) (seq 0 (2 ^ L))).
    assert (Lx : length x0 = (2 ^ L)%nat) by (unfold x0; rewrite map_length, seq_length; reflexivity).
    assert (PY : prop L q 1 y (dit_run L q w L x0)).
    { destruct (negacyclic_value a Ha) as [LN V]. unfold ntt_negacyclic_bit_reverse in LN, V. fold at_ w in LN, V.
      rewrite (cyclic_is_run L q w at_ Lt HL) in LN, V. fold x0 in LN, V.
      split; [exact Ly |]. split; [exact LN |]. intros p Hp. unfold y. rewrite nth_map_seq by exact Hp.
      unfold transform. rewrite nth_map_seq by apply brev_lt. rewrite brev_involutive by exact Hp. rewrite eqm_mod, (V p Hp). apply eqm_eq. ring. }
    pose proof (dif_run_prop L q w' Hq L 1 _ _ (le_n L) PY) as P1.
    pose proof (dif_dit_run L q w w' Hq IW L x0 (le_n L) Lx) as P2.
    pose proof (prop_trans L q _ _ _ _ _ P1 P2) as (_ & _ & P3).
    rewrite (P3 (brev L i) (brev_lt L i)). unfold x0. rewrite nth_map_seq by apply brev_lt. rewrite brev_involutive by exact Hi.
    unfold at_. rewrite (nth_map2 _ 0 0 0) by (rewrite ?get_powers_length; lia). rewrite eqm_mod, get_powers_nth by lia.
    transitivity ((2 ^ Z.of_nat L * n') * (nth i a 0) * (pw psi i * pw psi' i)); [apply eqm_eq; ring |].
    rewrite IN, <- pw_mul_base, IP, pw_one. apply eqm_eq. ring.
  Qed.

  Lemma ntt_intt y x : length y = (2 ^ L)%nat -> intt_negacyclic_bit_reverse (permute (get_bit_reversal_perm (2 ^ L)) y) q psi = Some x ->
    length x = (2 ^ L)%nat /\ transform L q psi x = map (fun v => v mod q) y.
  Proof.
    intros Hy HX. destruct omega_inverse as (w' & Hw' & IW). destruct inv_facts as [IP IN]. set (w := Zpow_mod psi 2 q) in *.
    rewrite (permute_brev L _ Hy HL) in HX. set (yp := map _ (seq 0 (2 ^ L))) in HX.
    assert (Lyp : length yp = (2 ^ L)%nat) by (unfold yp; rewrite map_length, seq_length; reflexivity).
    rewrite (intt_value yp w' Hw' Lyp) in HX.
    assert (EX : x = map (fun i => ((nth (brev L i) (dif_run L q w' L yp) 0 * n') mod q * nth i (get_powers psi' (2 ^ L) q) 0) mod q) (seq 0 (2 ^ L))) by congruence.
    assert (Lx : length x = (2 ^ L)%nat) by (rewrite EX, map_length, seq_length; reflexivity).
    split; [exact Lx |]. rewrite <- permuted_transform by exact Lx.
    destruct (negacyclic_value x Lx) as [LN _]. rewrite (permute_brev L _ LN HL).
    apply (list_ext 0); [rewrite !map_length, seq_length; lia |].
    intros j Hj. rewrite !map_length, seq_length in Hj. rewrite map_map, nth_map_seq by exact Hj. rewrite (nth_map_in _ y 0 0) by lia.
    apply eqm_mod_iff; [lia |].
    unfold ntt_negacyclic_bit_reverse. fold w. set (at_ := map2 (fun x0 w0 => (x0 * w0) mod q) x (get_powers psi (length x) q)).
    assert (Lt : length at_ = (2 ^ L)%nat) by (unfold at_; rewrite map2_length, get_powers_length, Lx; lia).
    rewrite (cyclic_is_run L q w at_ Lt HL). set (x0 := map (fun p => nth (brev L p) at_ 0) (seq 0 (2 ^ L))).
    assert (PX : prop L q n' x0 (dif_run L q w' L yp)).
    { pose proof (dif_run_prop L q w' Hq L 1 yp yp (le_n L) (prop_refl L q yp Lyp)) as (LD & _).
      split; [unfold x0; rewrite map_length, seq_length; reflexivity |]. split; [exact LD |].
      intros p Hp. unfold x0. rewrite nth_map_seq by exact Hp. pose proof (brev_lt L p) as Bp.
      unfold at_. rewrite (nth_map2 _ 0 0 0) by (rewrite ?get_powers_length; lia). rewrite eqm_mod, get_powers_nth by lia.
      rewrite EX, nth_map_seq by exact Bp. rewrite brev_involutive by exact Hp. rewrite !eqm_mod, get_powers_nth by exact Bp.
      transitivity (n' * nth p (dif_run L q w' L yp) 0 * (pw psi (brev L p) * pw psi' (brev L p))); [apply eqm_eq; ring |].
      rewrite <- pw_mul_base, IP, pw_one. apply eqm_eq. ring. }
    pose proof (dit_run_prop L q w Hq L n' _ _ (le_n L) PX) as P1.
    pose proof (dit_dif_run L q w w' Hq IW L yp (le_n L) Lyp) as P2.
    pose proof (prop_trans L q _ _ _ _ _ P1 P2) as (_ & _ & P3).
    rewrite (P3 (brev L j) (brev_lt L j)). unfold yp. rewrite nth_map_seq by apply brev_lt. rewrite brev_involutive by exact Hj.
    transitivity ((2 ^ Z.of_nat L * n') * nth j y 0); [apply eqm_eq; ring |]. rewrite IN. apply eqm_eq. ring.
  Qed.
End Column.

(** primes with a root *)
Lemma cpu_root L q : prime q -> (2 * 2 ^ Z.of_nat L | q - 1) ->
  exists psi psi' n', root_of_unity (2 * Z.of_nat (2 ^ L)) q = Some psi /\ 0 <= psi < q /\ pw psi (2 ^ L) == -1 [mod q] /\
    inverse psi q = Some psi' /\ inverse (2 ^ Z.of_nat L) q = Some n'.
Proof.
  intros Hq Hd. assert (Q : 1 < q) by (destruct Hq; lia). assert (P : 0 < 2 ^ Z.of_nat L) by (apply Z.pow_pos_nonneg; lia).
  destruct (root_of_unity_spec (2 * 2 ^ Z.of_nat L) q Hq ltac:(lia) Hd) as (psi & E & B & O & _).
  assert (EN : Z.to_nat (2 * 2 ^ Z.of_nat L) = (2 ^ L * 2)%nat).
  { apply Nat2Z.inj. rewrite Z2Nat.id by lia. rewrite Nat2Z.inj_mul, Nat2Z.inj_pow. change (Z.of_nat 2) with 2. lia. }
  rewrite EN in O. pose proof (pow2_ge1 L) as P1.
  assert (R : pw psi (2 ^ L) == -1 [mod q]).
  { destruct O as [O1 O2]. rewrite pw_mul in O1. unfold pw at 1 in O1. change (Z.of_nat 2) with 2 in O1. rewrite Z.pow_2_r in O1.
    destruct (square_one q _ Hq O1) as [F | F]; [| exact F]. exfalso. apply O2 in F. apply Nat.divide_pos_le in F; lia. }
  assert (NZ : psi mod q <> 0).
  { intros F. apply (ord_nz q psi (2 ^ L * 2)); [lia | lia | exact O |]. rewrite <- (eqm_mod q psi), F. reflexivity. }
  destruct (inverse_prime psi q Hq NZ) as [psi' Hp'].
  assert (NZ2 : 2 ^ Z.of_nat L mod q <> 0). { apply Z.divide_pos_le in Hd; [| lia]. rewrite Z.mod_small by lia. lia. }
  destruct (inverse_prime _ q Hq NZ2) as [n' Hn'].
  exists psi, psi', n'. replace (Z.of_nat (2 ^ L)) with (2 ^ Z.of_nat L) by (rewrite Nat2Z.inj_pow; reflexivity). auto.
Qed.
