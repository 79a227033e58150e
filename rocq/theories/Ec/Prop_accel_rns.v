(** C53: the batched point operations in residue form compute, lane by lane, the reference formulas on the residues of the
    coordinates, and keep every coordinate in the range the next operation needs; where they do not. *)
From Coq Require Import ZArith List Bool Lia.
From Verif Require Import Base.Word Base.Modeq Base.Crt Base.Fermat Base.Fp.
From Verif Require Import Ckks.Model_rns_utils Ckks.Prop_crt Ec.Model_util Ec.Model_field Ec.Model_field_rns Ec.Spec_rns377 Ec.Prop_util Ec.Proof_rns377 Ec.Prop_rns377 Ec.Prop_rnsadd Ec.Prop_rnsneg.
From Verif Require Import Ec.Model_reffield Ec.Model_curve Ec.Spec_curve Ec.Proof_curve Ec.Prop_xyzz Ec.Prop_edwards Ec.Model_accel Ec.Spec_accel Ec.Proof_accel Ec.Model_accel_rns Ec.Spec_accel_rns Ec.Proof_accel_rns.
Import ListNotations.
Local Open Scope Z_scope.
Add Ring FR : (Fp_ring p377).

Ltac residues_tac := unfold lane_int_point; cbn [lx ly lz lt]; repeat match goal with |- context [FE (?z mod MODULUS_377_INT)] => change (z mod MODULUS_377_INT) with (val (@of_Z p377 z)) end.
(** the formulas with the field operations as parameters *)
Section Formulas.
Variable n : nat.
Variable mul : batch -> batch -> option batch.
Variable sum : list batch -> option batch.
Variable neg negz : batch -> batch.
Variable td : list Z.
Definition padd_twisted_with (p1 p2 : coords) : option coords :=
  let '(x1, y1, z1, t1) := p1 in let '(x2, y2, z2, t2) := p2 in
  do o <- mul (vstack [x1; y1; z1; t1]) (vstack [x2; y2; z2; t2]);
  do o <- vsplit 4 o;
  match o with
  | [a; b; d; c] =>
    do e1 <- sum [x1; y1];
    do e2 <- sum [x2; y2];
    do o <- mul (vstack [e1; c]) (vstack [e2; broadcast c td]);
    do o <- vsplit 2 o;
    match o with
    | [e3; c] =>
      do e <- sum [e3; negz a; negz b];
      do f <- sum [d; negz c];
      do g <- sum [d; c];
      do h <- sum [a; b];
      do o <- mul (vstack [e; g; f; e]) (vstack [f; h; g; h]);
      do o <- vsplit 4 o;
      match o with [x3; y3; z3; t3] => Some (x3, y3, z3, t3) | _ => None end
    | _ => None
    end
  | _ => None
  end.
Definition pdul_twisted_with (p1 : coords) : option coords :=
  let '(x1, y1, z1, t1) := p1 in
  do et <- sum [x1; y1];
  do o <- mul (vstack [x1; y1; z1; et]) (vstack [x1; y1; z1; et]);
  do o <- vsplit 4 o;
  match o with
  | [a; b; ct; et2] =>
    do e <- sum [et2; neg a; neg b];
    do g <- sum [b; neg a];
    do f <- sum [g; neg ct; neg ct];
    do h <- sum [neg a; neg b];
    do o <- mul (vstack [e; g; f; e]) (vstack [f; h; g; h]);
    do o <- vsplit 4 o;
    match o with [x3; y3; z3; t3] => Some (x3, y3, z3, t3) | _ => None end
  | _ => None
  end.
Definition pdul_xyzz_with (p1 : coords) : option coords :=
  let '(x1, y1, zz1, zzz1) := p1 in
  do u <- sum [y1; y1];
  do v <- mul u u;
  do o <- mul (vstack [x1; u; x1]) (vstack [x1; v; v]);
  do o <- vsplit 3 o;
  match o with
  | [x1x1; w; s] =>
    do m <- sum [x1x1; x1x1; x1x1];
    do o <- mul (vstack [m; w; v; w]) (vstack [m; y1; zz1; zzz1]);
    do o <- vsplit 4 o;
    match o with
    | [mm; w_y1; zz3; zzz3] =>
      do x3 <- sum [mm; neg s; neg s];
      do s_x3 <- sum [s; neg mm; s; s];
      do m_s_x3 <- mul m s_x3;
      do y3 <- sum [m_s_x3; neg w_y1];
      Some (x3, y3, zz3, zzz3)
    | _ => None
    end
  | _ => None
  end.
Definition padd_xyzz_with (p1 p2 : coords) : option coords :=
  let '(x1, y1, zz1, zzz1) := p1 in let '(x2, y2, zz2, zzz2) := p2 in
  do o <- mul (vstack [x1; y1; zz1; zzz1; zz1; zzz1]) (vstack [zz2; zzz2; zz2; zzz2; x2; y2]);
  do o <- vsplit 6 o;
  match o with
  | [u1; s1; zz1_zz2; zzz1_zzz2; u2; s2] =>
    do p <- sum [u2; neg u1];
    do r <- sum [s2; neg s1];
    do pp <- mul p p;
    do rr <- mul r r;
    do o <- mul (vstack [p; u1; zz1_zz2]) (vstack [pp; pp; pp]);
    do o <- vsplit 3 o;
    match o with
    | [ppp; q; zz3] =>
      do x3 <- sum [rr; neg ppp; neg q; neg q];
      do q_x3 <- sum [q; neg x3];
      do o <- mul (vstack [s1; zzz1_zzz2; r]) (vstack [ppp; ppp; q_x3]);
      do o <- vsplit 3 o;
      match o with
      | [s1_ppp; zzz3; r_q_x3] => do y3 <- sum [r_q_x3; neg s1_ppp]; Some (x3, y3, zz3, zzz3)
      | _ => None
      end
    | _ => None
    end
  | _ => None
  end.

Hypothesis Hmul : forall f g a b, stands_for n (468000 * pp) f a -> stands_for n (468000 * pp) g b ->
  exists c h, mul a b = Some c /\ stands_for n (51000 * pp) h c /\ clean n h c /\ forall i, (i < n)%nat -> @of_Z p377 (h i) = f_mul (of_Z (f i)) (of_Z (g i)) /\ (f i <> 0 -> g i <> 0 -> h i <> 0) /\ (Forall (fun w => w = 0) (nth i a []) -> h i = 0).
Hypothesis Hstack : forall la lb lc, muls mul n la lb lc -> mul (vstack la) (vstack lb) = Some (vstack lc).
Hypothesis Hsum2 : forall B w1 w2 f g a b, opn n w1 f a -> opn n w2 g b -> 1 <= w1 <= 2 -> 1 <= w2 <= 2 -> (forall i, (i < n)%nat -> 0 <= f i + g i < B) ->
  exists c, sum [a; b] = Some c /\ stands_for n B (fun i => f i + g i) c.
Hypothesis Hsum3 : forall B w1 w2 w3 f g h a b d, opn n w1 f a -> opn n w2 g b -> opn n w3 h d -> 1 <= w1 <= 2 -> 1 <= w2 <= 2 -> 1 <= w3 <= 2 -> (forall i, (i < n)%nat -> 0 <= f i + g i + h i < B) ->
  exists c, sum [a; b; d] = Some c /\ stands_for n B (fun i => f i + g i + h i) c.
Hypothesis Hsum4 : forall B w1 w2 w3 w4 f g h k a b d e, opn n w1 f a -> opn n w2 g b -> opn n w3 h d -> opn n w4 k e -> 1 <= w1 <= 2 -> 1 <= w2 <= 2 -> 1 <= w3 <= 2 -> 1 <= w4 <= 2 -> (forall i, (i < n)%nat -> 0 <= f i + g i + h i + k i < B) ->
  exists c, sum [a; b; d; e] = Some c /\ stands_for n B (fun i => f i + g i + h i + k i) c.
Hypothesis Hneg : forall B f a, stands_for n B f a -> clean n f a -> opn n 2 (fun i => neg_val (f i)) (neg a).
Hypothesis Hnegz : forall B f a, stands_for n B f a -> clean n f a -> safe_rows a -> opn n 2 (fun i => neg_zc_val (f i)) (negz a).
Hypothesis Htd : represents MODULI TWIST_D_INT td /\ words16 td.

Hypothesis Hmulneg : forall f g a b, rns_batch MODULI (mapn n f) a -> rns_batch MODULI (mapn n g) b -> (forall i, (i < n)%nat -> - M377 <= f i * g i < 0) ->
  exists c h, mul a b = Some c /\ stands_for n (51000 * pp) h c /\ forall i, (i < n)%nat -> @of_Z p377 (h i) = f_mul (of_Z (f i)) (of_Z (g i)) \/ @of_Z p377 (h i) = f_add (f_mul (of_Z (f i)) (of_Z (g i))) (of_Z M377).
Hypothesis Hsum2r : forall w1 w2 f g a b, opn n w1 f a -> opn n w2 g b -> 1 <= w1 <= 2 -> 1 <= w2 <= 2 -> exists c, sum [a; b] = Some c /\ rns_batch MODULI (mapn n (fun i => f i + g i)) c.
Hypothesis Hnonzero : forall w1 w3 w4 B f g h k a b d e c, opn n w1 f a -> stands_for n B g b -> clean n g b -> (forall i, (i < n)%nat -> g i <> 0) -> opn n w3 h d -> opn n w4 k e -> w1 <= 2 -> w3 <= 2 -> w4 <= 2 ->
  sum [a; neg b; d; e] = Some c -> forall i, (i < n)%nat -> no_zero_word RNS_MODULI_T (nth i c []).

Ltac st H := eapply stands_mono; [| exact H]; lia.
Ltac lens := solve [eapply stands_length; eassumption].
Ltac muls_tac := repeat (apply muls_cons; [lens | lens | lens | assumption |]); apply muls_nil.
Ltac stack la lb lc := let M := fresh "M" in let Sp := fresh "Sp" in assert (M : muls mul n la lb lc) by muls_tac; pose proof (muls_split mul n la lb lc M ltac:(discriminate)) as Sp; cbn [length] in Sp; rewrite (Hstack la lb lc M); cbn [bind]; rewrite Sp; cbn [bind]; clear M Sp.
Ltac op1 S := exact (opn_stands _ _ _ _ S).
Ltac bnd := let i := fresh "i" in let Hi := fresh "Hi" in intros i Hi; repeat match goal with S : stands_for _ _ _ _ |- _ => destruct S as [_ S]; specialize (S i Hi) | R : forall j, (j < n)%nat -> _ <= neg_val _ <= _ |- _ => specialize (R i Hi) | R : forall j, (j < n)%nat -> _ <= neg_zc_val _ <= _ |- _ => specialize (R i Hi) | V : forall j, (j < n)%nat -> _ /\ _ |- _ => clear V end; lia.
Ltac residues := residues_tac.

(** addition: the zero checks inside the three negations do not meet a zero word of the modulus 2^16 in a non-zero row *)
Definition zero_checks_with (p1 p2 : coords) : Prop :=
  let '(x1, y1, z1, t1) := p1 in let '(x2, y2, z2, t2) := p2 in
  (forall a, mul x1 x2 = Some a -> safe_rows a) /\ (forall b, mul y1 y2 = Some b -> safe_rows b) /\
  (forall t c, mul t1 t2 = Some t -> mul t (broadcast t td) = Some c -> safe_rows c).
Lemma twist_small : 0 <= TWIST_D_INT < 51000 * pp. Proof. split; [discriminate | reflexivity]. Qed.
Lemma padd_twisted_value v1 v2 p1 p2 : packed_rns n (234000 * pp) (234000 * pp) v1 p1 -> packed_rns n (234000 * pp) (234000 * pp) v2 p2 -> zero_checks_with p1 p2 ->
  exists v3 p3, padd_twisted_with p1 p2 = Some p3 /\ packed_rns n (51000 * pp) (51000 * pp) v3 p3 /\
    forall s a alpha sc ma mb t, tcs_new pp a TWIST_D_INT alpha sc ma mb t = Some s -> forall i, (i < n)%nat ->
      twisted_point_add s (lane_int_point PROJECTIVE v1 i) (lane_int_point PROJECTIVE v2 i) = Some (lane_int_point PROJECTIVE v3 i).
Proof.
  revert p1 p2. intros [[[x1 y1] z1] t1] [[[x2 y2] z2] t2] (X1 & Y1 & Z1 & T1) (X2 & Y2 & Z2 & T2) (K1 & K2 & K3). pose proof pp_pos as P0. pose proof B377_eq as BE.
  destruct (Hmul _ _ x1 x2 ltac:(st X1) ltac:(st X2)) as (a & fa & Ea & Sa & Ca & Va).
  destruct (Hmul _ _ y1 y2 ltac:(st Y1) ltac:(st Y2)) as (b & fb & Eb & Sb & Cb & Vb).
  destruct (Hmul _ _ z1 z2 ltac:(st Z1) ltac:(st Z2)) as (d & fd & Ed & Sd & Cd & Vd).
  destruct (Hmul _ _ t1 t2 ltac:(st T1) ltac:(st T2)) as (c0 & fc0 & Ec0 & Sc0 & Cc0 & Vc0).
  unfold padd_twisted_with. stack [x1; y1; z1; t1] [x2; y2; z2; t2] [a; b; d; c0].
  destruct (Hsum2 (468000 * pp) 1 1 _ _ x1 y1 ltac:(op1 X1) ltac:(op1 Y1) ltac:(lia) ltac:(lia) ltac:(bnd)) as (e1 & Ee1 & Se1). rewrite Ee1. cbn [bind].
  destruct (Hsum2 (468000 * pp) 1 1 _ _ x2 y2 ltac:(op1 X2) ltac:(op1 Y2) ltac:(lia) ltac:(lia) ltac:(bnd)) as (e2 & Ee2 & Se2). rewrite Ee2. cbn [bind].
  pose proof (broadcast_stands n c0 td TWIST_D_INT (stands_length _ _ _ _ Sc0) (proj1 Htd) (proj2 Htd) twist_small) as TD.
  destruct (Hmul _ _ e1 e2 Se1 Se2) as (e3 & fe3 & Ee3 & Se3 & Ce3 & Ve3).
  destruct (Hmul _ _ c0 (broadcast c0 td) ltac:(st Sc0) ltac:(st TD)) as (c & fc & Ec & Sc & Cc & Vc).
  stack [e1; c0] [e2; broadcast c0 td] [e3; c].
  pose proof (Hnegz _ _ a Sa Ca (K1 a Ea)) as Na. pose proof (Hnegz _ _ b Sb Cb (K2 b Eb)) as Nb. pose proof (Hnegz _ _ c Sc Cc (K3 c0 c Ec0 Ec)) as Nc.
  assert (Ra : forall i, (i < n)%nat -> 0 <= neg_zc_val (fa i) <= B377) by (intros i Hi; apply neg_zc_range; apply Sa; exact Hi).
  assert (Rb : forall i, (i < n)%nat -> 0 <= neg_zc_val (fb i) <= B377) by (intros i Hi; apply neg_zc_range; apply Sb; exact Hi).
  assert (Rc : forall i, (i < n)%nat -> 0 <= neg_zc_val (fc i) <= B377) by (intros i Hi; apply neg_zc_range; apply Sc; exact Hi).
  destruct (Hsum3 (468000 * pp) 1 2 2 _ _ _ e3 _ _ ltac:(op1 Se3) Na Nb ltac:(lia) ltac:(lia) ltac:(lia) ltac:(bnd)) as (e & Ee & Se). rewrite Ee. cbn [bind].
  destruct (Hsum2 (468000 * pp) 1 2 _ _ d _ ltac:(op1 Sd) Nc ltac:(lia) ltac:(lia) ltac:(bnd)) as (f & Ef & Sf). rewrite Ef. cbn [bind].
  destruct (Hsum2 (468000 * pp) 1 1 _ _ d c ltac:(op1 Sd) ltac:(op1 Sc) ltac:(lia) ltac:(lia) ltac:(bnd)) as (g & Eg & Sg). rewrite Eg. cbn [bind].
  destruct (Hsum2 (468000 * pp) 1 1 _ _ a b ltac:(op1 Sa) ltac:(op1 Sb) ltac:(lia) ltac:(lia) ltac:(bnd)) as (h & Eh & Sh). rewrite Eh. cbn [bind].
  destruct (Hmul _ _ e f Se Sf) as (x3 & fx3 & Ex3 & Sx3 & _ & Vx3). destruct (Hmul _ _ g h Sg Sh) as (y3 & fy3 & Ey3 & Sy3 & _ & Vy3). destruct (Hmul _ _ f g Sf Sg) as (z3 & fz3 & Ez3 & Sz3 & _ & Vz3). destruct (Hmul _ _ e h Se Sh) as (t3 & ft3 & Et3 & St3 & _ & Vt3).
  stack [e; g; f; e] [f; h; g; h] [x3; y3; z3; t3].
  exists (Lanes fx3 fy3 fz3 ft3). eexists. split; [reflexivity |]. split; [split; [exact Sx3 | split; [exact Sy3 | split; [exact Sz3 | exact St3]]] |].
  intros s ca alpha sc ma mb t Hs i Hi. rewrite <- p377_val in Hs. destruct (tcs_shape _ _ _ _ _ _ _ _ _ Hs) as (k & ->). residues.
  destruct (Vx3 i Hi) as [-> _], (Vy3 i Hi) as [-> _], (Vz3 i Hi) as [-> _], (Vt3 i Hi) as [-> _]. rewrite <- !of_Z_add. rewrite !neg_zc_opp. destruct (Ve3 i Hi) as [-> _], (Vc i Hi) as [-> _], (Va i Hi) as [-> _], (Vb i Hi) as [-> _], (Vd i Hi) as [-> _], (Vc0 i Hi) as [-> _]. rewrite <- !of_Z_add.
  unfold twisted_point_add. cbn [pt_coords t_d]. rewrite <- p377_val. fsteps. rewrite new_twisted_el.
  generalize (@of_Z p377 (lx v1 i)), (@of_Z p377 (ly v1 i)), (@of_Z p377 (lz v1 i)), (@of_Z p377 (lt v1 i)), (@of_Z p377 (lx v2 i)), (@of_Z p377 (ly v2 i)), (@of_Z p377 (lz v2 i)), (@of_Z p377 (lt v2 i)), (@of_Z p377 TWIST_D_INT).
  intros. apply pt4_eq; ring.
Qed.
Lemma pdul_twisted_value v1 p1 : packed_rns n (234000 * pp) (234000 * pp) v1 p1 ->
  exists v3 p3, pdul_twisted_with p1 = Some p3 /\ packed_rns n (51000 * pp) (51000 * pp) v3 p3 /\
    forall i, (i < n)%nat -> exists na nb nc : F377, let x := of_Z (lx v1 i) in let y := of_Z (ly v1 i) in let z := of_Z (lz v1 i) in
      (lx v1 i <> 0 -> na = f_opp (f_mul x x)) /\ (ly v1 i <> 0 -> nb = f_opp (f_mul y y)) /\ (lz v1 i <> 0 -> nc = f_opp (f_mul z z)) /\ (Forall (fun w => w = 0) (nth i (fst (fst (fst p1))) []) -> na = of_Z (- 65536)) /\
      let e := f_add (f_add (f_mul (f_add x y) (f_add x y)) na) nb in let g := f_add (f_mul y y) na in let f := f_add (f_add g nc) nc in let h := f_add na nb in
      of_Z (lx v3 i) = f_mul e f /\ of_Z (ly v3 i) = f_mul g h /\ of_Z (lz v3 i) = f_mul f g /\ of_Z (lt v3 i) = f_mul e h.
Proof.
  revert p1. intros [[[x1 y1] z1] t1] (X1 & Y1 & Z1 & T1). pose proof pp_pos as P0. pose proof B377_eq as BE. unfold pdul_twisted_with.
  destruct (Hsum2 (468000 * pp) 1 1 _ _ x1 y1 ltac:(op1 X1) ltac:(op1 Y1) ltac:(lia) ltac:(lia) ltac:(bnd)) as (et & Eet & Set'). rewrite Eet. cbn [bind].
  destruct (Hmul _ _ x1 x1 ltac:(st X1) ltac:(st X1)) as (a & fa & Ea & Sa & Ca & Va).
  destruct (Hmul _ _ y1 y1 ltac:(st Y1) ltac:(st Y1)) as (b & fb & Eb & Sb & Cb & Vb).
  destruct (Hmul _ _ z1 z1 ltac:(st Z1) ltac:(st Z1)) as (ct & fct & Ect & Sct & Cct & Vct).
  destruct (Hmul _ _ et et Set' Set') as (et2 & fet2 & Eet2 & Set2 & Cet2 & Vet2).
  stack [x1; y1; z1; et] [x1; y1; z1; et] [a; b; ct; et2].
  pose proof (Hneg _ _ a Sa Ca) as Na. pose proof (Hneg _ _ b Sb Cb) as Nb. pose proof (Hneg _ _ ct Sct Cct) as Nc.
  assert (Ra : forall i, (i < n)%nat -> 51000 * pp <= neg_val (fa i) <= B377) by (intros i Hi; apply neg_val_range; apply Sa; exact Hi).
  assert (Rb : forall i, (i < n)%nat -> 51000 * pp <= neg_val (fb i) <= B377) by (intros i Hi; apply neg_val_range; apply Sb; exact Hi).
  assert (Rc : forall i, (i < n)%nat -> 51000 * pp <= neg_val (fct i) <= B377) by (intros i Hi; apply neg_val_range; apply Sct; exact Hi).
  destruct (Hsum3 (468000 * pp) 1 2 2 _ _ _ et2 _ _ ltac:(op1 Set2) Na Nb ltac:(lia) ltac:(lia) ltac:(lia) ltac:(bnd)) as (e & Ee & Se). rewrite Ee. cbn [bind].
  destruct (Hsum2 (153401 * pp) 1 2 _ _ b _ ltac:(op1 Sb) Na ltac:(lia) ltac:(lia) ltac:(bnd)) as (g & Eg & Sg). rewrite Eg. cbn [bind].
  destruct (Hsum3 (468000 * pp) 1 2 2 _ _ _ g _ _ ltac:(op1 Sg) Nc Nc ltac:(lia) ltac:(lia) ltac:(lia) ltac:(bnd)) as (f & Ef & Sf). rewrite Ef. cbn [bind].
  destruct (Hsum2 (468000 * pp) 2 2 _ _ _ _ Na Nb ltac:(lia) ltac:(lia) ltac:(bnd)) as (h & Eh & Sh). rewrite Eh. cbn [bind].
  assert (Sg' : stands_for n (468000 * pp) (fun i => fb i + neg_val (fa i)) g) by st Sg.
  destruct (Hmul _ _ e f Se Sf) as (x3 & fx3 & Ex3 & Sx3 & _ & Vx3). destruct (Hmul _ _ g h Sg' Sh) as (y3 & fy3 & Ey3 & Sy3 & _ & Vy3). destruct (Hmul _ _ f g Sf Sg') as (z3 & fz3 & Ez3 & Sz3 & _ & Vz3). destruct (Hmul _ _ e h Se Sh) as (t3 & ft3 & Et3 & St3 & _ & Vt3).
  stack [e; g; f; e] [f; h; g; h] [x3; y3; z3; t3].
  exists (Lanes fx3 fy3 fz3 ft3). eexists. split; [reflexivity |]. split; [split; [exact Sx3 | split; [exact Sy3 | split; [exact Sz3 | exact St3]]] |].
  intros i Hi. exists (of_Z (neg_val (fa i))), (of_Z (neg_val (fb i))), (of_Z (neg_val (fct i))). cbv zeta. cbn [fst snd lx ly lz lt].
  destruct (Va i Hi) as (VA & NA & ZA), (Vb i Hi) as (VB & NB & _), (Vct i Hi) as (VC & NC & _).
  split; [intros H; rewrite neg_val_opp, VA by (apply NA; exact H); reflexivity |]. split; [intros H; rewrite neg_val_opp, VB by (apply NB; exact H); reflexivity |]. split; [intros H; rewrite neg_val_opp, VC by (apply NC; exact H); reflexivity |].
  split; [intros H; rewrite (ZA H); unfold neg_val; rewrite Z.eqb_refl; replace (B377 - 0 - 2 ^ 16) with (B377 + - 65536) by (change (2 ^ 16) with 65536; lia); rewrite <- of_Z_add, B377_zero; ring |].
  destruct (Vx3 i Hi) as [-> _], (Vy3 i Hi) as [-> _], (Vz3 i Hi) as [-> _], (Vt3 i Hi) as [-> _]. rewrite <- !of_Z_add. destruct (Vet2 i Hi) as [-> _]. rewrite VB. rewrite <- !of_Z_add. repeat split; reflexivity.
Qed.
Lemma pdul_xyzz_value v1 p1 : packed_rns n (468000 * pp) (234000 * pp) v1 p1 -> (forall i, (i < n)%nat -> lx v1 i <> 0 /\ ly v1 i <> 0) ->
  exists v3 p3, pdul_xyzz_with p1 = Some p3 /\ packed_rns n (255800 * pp) (153401 * pp) v3 p3 /\
    forall s b, wcs_new pp 0 b = Some s -> forall i, (i < n)%nat -> xyzz_double_general s (lane_int_point XYZZ v1 i) = Some (lane_int_point XYZZ v3 i).
Proof.
  revert p1. intros [[[x1 y1] zz1] zzz1] (X1 & Y1 & Z1 & T1) NZ. pose proof pp_pos as P0. pose proof B377_eq as BE. unfold pdul_xyzz_with.
  destruct (Hsum2 (468000 * pp) 1 1 _ _ y1 y1 ltac:(op1 Y1) ltac:(op1 Y1) ltac:(lia) ltac:(lia) ltac:(bnd)) as (u & Eu & Su). rewrite Eu. cbn [bind].
  destruct (Hmul _ _ u u Su Su) as (v & fv & Ev & Sv & Cv & Vv). rewrite Ev. cbn [bind].
  destruct (Hmul _ _ x1 x1 ltac:(st X1) ltac:(st X1)) as (xx & fxx & Exx & Sxx & Cxx & Vxx).
  destruct (Hmul _ _ u v Su ltac:(st Sv)) as (w & fw & Ew & Sw & Cw & Vw).
  destruct (Hmul _ _ x1 v ltac:(st X1) ltac:(st Sv)) as (s & fs & Es & Ss & Cs & Vs).
  stack [x1; u; x1] [x1; v; v] [xx; w; s].
  destruct (Hsum3 (468000 * pp) 1 1 1 _ _ _ xx xx xx ltac:(op1 Sxx) ltac:(op1 Sxx) ltac:(op1 Sxx) ltac:(lia) ltac:(lia) ltac:(lia) ltac:(bnd)) as (m & Em & Sm). rewrite Em. cbn [bind].
  destruct (Hmul _ _ m m Sm Sm) as (mm & fmm & Emm & Smm & Cmm & Vmm).
  destruct (Hmul _ _ w y1 ltac:(st Sw) ltac:(st Y1)) as (wy & fwy & Ewy & Swy & Cwy & Vwy).
  destruct (Hmul _ _ v zz1 ltac:(st Sv) ltac:(st Z1)) as (zz3 & fzz3 & Ezz3 & Szz3 & _ & Vzz3).
  destruct (Hmul _ _ w zzz1 ltac:(st Sw) ltac:(st T1)) as (zzz3 & fzzz3 & Ezzz3 & Szzz3 & _ & Vzzz3).
  stack [m; w; v; w] [m; y1; zz1; zzz1] [mm; wy; zz3; zzz3].
  pose proof (Hneg _ _ s Ss Cs) as Ns. pose proof (Hneg _ _ mm Smm Cmm) as Nm. pose proof (Hneg _ _ wy Swy Cwy) as Nw.
  assert (Rs : forall i, (i < n)%nat -> 51000 * pp <= neg_val (fs i) <= B377) by (intros i Hi; apply neg_val_range; apply Ss; exact Hi).
  assert (Rm : forall i, (i < n)%nat -> 51000 * pp <= neg_val (fmm i) <= B377) by (intros i Hi; apply neg_val_range; apply Smm; exact Hi).
  assert (Rw : forall i, (i < n)%nat -> 51000 * pp <= neg_val (fwy i) <= B377) by (intros i Hi; apply neg_val_range; apply Swy; exact Hi).
  destruct (Hsum3 (255800 * pp) 1 2 2 _ _ _ mm _ _ ltac:(op1 Smm) Ns Ns ltac:(lia) ltac:(lia) ltac:(lia) ltac:(bnd)) as (x3 & Ex3 & Sx3). rewrite Ex3. cbn [bind].
  destruct (Hsum4 (468000 * pp) 1 2 1 1 _ _ _ _ s _ s s ltac:(op1 Ss) Nm ltac:(op1 Ss) ltac:(op1 Ss) ltac:(lia) ltac:(lia) ltac:(lia) ltac:(lia) ltac:(bnd)) as (sx & Esx & Ssx). rewrite Esx. cbn [bind].
  destruct (Hmul _ _ m sx Sm Ssx) as (msx & fmsx & Emsx & Smsx & _ & Vmsx). rewrite Emsx. cbn [bind].
  destruct (Hsum2 (153401 * pp) 1 2 _ _ msx _ ltac:(op1 Smsx) Nw ltac:(lia) ltac:(lia) ltac:(bnd)) as (y3 & Ey3 & Sy3). rewrite Ey3. cbn [bind].
  exists (Lanes (fun i => fmm i + neg_val (fs i) + neg_val (fs i)) (fun i => fmsx i + neg_val (fwy i)) fzz3 fzzz3). eexists. split; [reflexivity |]. split; [split; [exact Sx3 | split; [exact Sy3 | split; [st Szz3 | st Szzz3]]] |].
  intros cs b Hs i Hi. destruct (NZ i Hi) as [NX NY]. rewrite <- p377_val in Hs. rewrite (wcs_shape _ _ _ _ Hs).
  assert (U0 : ly v1 i + ly v1 i <> 0) by lia. destruct (Vv i Hi) as (VV & NV & _). specialize (NV U0 U0). destruct (Vw i Hi) as (VW & NW & _). specialize (NW U0 NV). destruct (Vs i Hi) as (VS & NS & _). specialize (NS NX NV). destruct (Vxx i Hi) as (VXX & NXX & _). specialize (NXX NX NX).
  assert (M0 : fxx i + fxx i + fxx i <> 0) by lia. destruct (Vmm i Hi) as (VMM & NMM & _). specialize (NMM M0 M0). destruct (Vwy i Hi) as (VWY & NWY & _). specialize (NWY NW NY).
  residues. rewrite <- !of_Z_add. rewrite !neg_val_opp by assumption. destruct (Vmsx i Hi) as [-> _], (Vzz3 i Hi) as [-> _], (Vzzz3 i Hi) as [-> _]. rewrite <- !of_Z_add. rewrite neg_val_opp by assumption. rewrite VMM, VWY, VS, VW, VV. rewrite <- !of_Z_add. rewrite VXX.
  unfold xyzz_double_general. cbn [pt_coords w_a]. rewrite <- p377_val. fsteps. unfold new_xyzz, formal_xyzz. cbn [length Nat.eqb orb negb formal map].
  generalize (@of_Z p377 (lx v1 i)), (@of_Z p377 (ly v1 i)), (@of_Z p377 (lz v1 i)), (@of_Z p377 (lt v1 i)).
  intros. apply pt4_eq; ring.
Qed.
(** addition in XYZZ coordinates; the last product is taken with a negative representative of q - x3 *)
Lemma M_big : 153401 * pp * (255801 * pp) <= M377.
Proof. pose proof pp_pos as P0. destruct pp_M377 as [H _]. nia. Qed.
Lemma padd_xyzz_value v1 v2 p1 p2 : packed_rns n (468000 * pp) (468000 * pp) v1 p1 -> packed_rns n (468000 * pp) (468000 * pp) v2 p2 -> (forall i, (i < n)%nat -> lx v1 i <> 0 /\ ly v1 i <> 0 /\ lz v2 i <> 0 /\ lt v2 i <> 0) ->
  exists v3 p3, padd_xyzz_with p1 p2 = Some p3 /\ packed_rns n (358200 * pp) (153401 * pp) v3 p3 /\
    forall i, (i < n)%nat -> exists k, (k = 0 \/ k = 1) /\ forall s a b, wcs_new pp a b = Some s ->
      xyzz_add_general s (lane_int_point XYZZ v1 i) (lane_int_point XYZZ v2 i) = Some (lane_int_point XYZZ (Lanes (lx v3) (fun j => ly v3 j - k * M377) (lz v3) (lt v3)) i).
Proof.
  revert p1 p2. intros [[[x1 y1] zz1] zzz1] [[[x2 y2] zz2] zzz2] (X1 & Y1 & Z1 & T1) (X2 & Y2 & Z2 & T2) NZ. pose proof pp_pos as P0. pose proof B377_eq as BE. pose proof M_big as MB.
  destruct (Hmul _ _ x1 zz2 ltac:(st X1) ltac:(st Z2)) as (u1 & fu1 & Eu1 & Su1 & Cu1 & Vu1).
  destruct (Hmul _ _ y1 zzz2 ltac:(st Y1) ltac:(st T2)) as (s1 & fs1 & Es1 & Ss1 & Cs1 & Vs1).
  destruct (Hmul _ _ zz1 zz2 ltac:(st Z1) ltac:(st Z2)) as (zz & fzz & Ezz & Szz & _ & Vzz).
  destruct (Hmul _ _ zzz1 zzz2 ltac:(st T1) ltac:(st T2)) as (zzz & fzzz & Ezzz & Szzz & _ & Vzzz).
  destruct (Hmul _ _ zz1 x2 ltac:(st Z1) ltac:(st X2)) as (u2 & fu2 & Eu2 & Su2 & _ & Vu2).
  destruct (Hmul _ _ zzz1 y2 ltac:(st T1) ltac:(st Y2)) as (s2 & fs2 & Es2 & Ss2 & _ & Vs2).
  unfold padd_xyzz_with. stack [x1; y1; zz1; zzz1; zz1; zzz1] [zz2; zzz2; zz2; zzz2; x2; y2] [u1; s1; zz; zzz; u2; s2].
  assert (NU : forall i, (i < n)%nat -> fu1 i <> 0 /\ fs1 i <> 0). { intros i Hi. destruct (NZ i Hi) as (N1 & N2 & N3 & N4), (Vu1 i Hi) as (_ & H1 & _), (Vs1 i Hi) as (_ & H2 & _). split; [apply H1; assumption | apply H2; assumption]. }
  pose proof (Hneg _ _ u1 Su1 Cu1) as Nu. pose proof (Hneg _ _ s1 Ss1 Cs1) as Ns.
  assert (Ru : forall i, (i < n)%nat -> 51000 * pp <= neg_val (fu1 i) <= B377) by (intros i Hi; apply neg_val_range; apply Su1; exact Hi).
  assert (Rs : forall i, (i < n)%nat -> 51000 * pp <= neg_val (fs1 i) <= B377) by (intros i Hi; apply neg_val_range; apply Ss1; exact Hi).
  destruct (Hsum2 (153401 * pp) 1 2 _ _ u2 _ ltac:(op1 Su2) Nu ltac:(lia) ltac:(lia) ltac:(clear NZ NU; bnd)) as (p & Ep & Sp). rewrite Ep. cbn [bind].
  destruct (Hsum2 (153401 * pp) 1 2 _ _ s2 _ ltac:(op1 Ss2) Ns ltac:(lia) ltac:(lia) ltac:(clear NZ NU; bnd)) as (r & Er & Sr). rewrite Er. cbn [bind].
  assert (PP : forall i, (i < n)%nat -> 0 < fu2 i + neg_val (fu1 i)) by (clear NZ NU; bnd).
  assert (PR : forall i, (i < n)%nat -> 0 < fs2 i + neg_val (fs1 i)) by (clear NZ NU PP; bnd).
  destruct (Hmul _ _ p p ltac:(st Sp) ltac:(st Sp)) as (pq & fpq & Epq & Spq & _ & Vpq). rewrite Epq. cbn [bind].
  destruct (Hmul _ _ r r ltac:(st Sr) ltac:(st Sr)) as (rr & frr & Err & Srr & _ & Vrr). rewrite Err. cbn [bind].
  destruct (Hmul _ _ p pq ltac:(st Sp) ltac:(st Spq)) as (ppp & fppp & Eppp & Sppp & Cppp & Vppp).
  destruct (Hmul _ _ u1 pq ltac:(st Su1) ltac:(st Spq)) as (q & fq & Eq & Sq & Cq & Vq).
  destruct (Hmul _ _ zz pq ltac:(st Szz) ltac:(st Spq)) as (zz3 & fzz3 & Ezz3 & Szz3 & _ & Vzz3).
  stack [p; u1; zz] [pq; pq; pq] [ppp; q; zz3].
  assert (NP : forall i, (i < n)%nat -> fpq i <> 0 /\ fppp i <> 0 /\ fq i <> 0). { intros i Hi. specialize (PP i Hi). destruct (NU i Hi) as [N1 _], (Vpq i Hi) as (_ & H1 & _), (Vppp i Hi) as (_ & H2 & _), (Vq i Hi) as (_ & H3 & _). assert (A1 : fpq i <> 0) by (apply H1; lia). split; [exact A1 |]. split; [apply H2; [lia | exact A1] | apply H3; assumption]. }
  pose proof (Hneg _ _ ppp Sppp Cppp) as Nppp. pose proof (Hneg _ _ q Sq Cq) as Nq.
  assert (Rppp : forall i, (i < n)%nat -> 51000 * pp <= neg_val (fppp i) <= B377) by (intros i Hi; apply neg_val_range; apply Sppp; exact Hi).
  assert (Rq : forall i, (i < n)%nat -> 51000 * pp <= neg_val (fq i) <= B377) by (intros i Hi; apply neg_val_range; apply Sq; exact Hi).
  destruct (Hsum4 (358200 * pp) 1 2 2 2 _ _ _ _ rr _ _ _ ltac:(op1 Srr) Nppp Nq Nq ltac:(lia) ltac:(lia) ltac:(lia) ltac:(lia) ltac:(clear NZ NU PP PR NP; bnd)) as (x3 & Ex3 & Sx3). rewrite Ex3. cbn [bind].
  assert (Cx3 : clean n (fun i => frr i + neg_val (fppp i) + neg_val (fq i) + neg_val (fq i)) x3).
  { intros i Hi. right. split; [specialize (Rppp i Hi); specialize (Rq i Hi); destruct Srr as [_ H]; specialize (H i Hi); lia |]. apply (Hnonzero 1 2 2 _ _ _ _ _ rr ppp (neg q) (neg q) x3 ltac:(op1 Srr) Sppp Cppp ltac:(intros j Hj; apply NP; exact Hj) Nq Nq ltac:(lia) ltac:(lia) ltac:(lia) Ex3 i Hi). }
  pose proof (Hneg _ _ x3 Sx3 Cx3) as Nx3.
  assert (NX : forall i, (i < n)%nat -> frr i + neg_val (fppp i) + neg_val (fq i) + neg_val (fq i) <> 0). { intros i Hi. specialize (Rppp i Hi). specialize (Rq i Hi). destruct Srr as [_ H]. specialize (H i Hi). lia. }
  destruct (Hsum2r 1 2 _ _ q _ ltac:(op1 Sq) Nx3 ltac:(lia) ltac:(lia)) as (qx & Eqx & Rqx). rewrite Eqx. cbn [bind].
  destruct (Hmul _ _ s1 ppp ltac:(st Ss1) ltac:(st Sppp)) as (sp & fsp & Esp & Ssp & Csp & Vsp).
  destruct (Hmul _ _ zzz ppp ltac:(st Szzz) ltac:(st Sppp)) as (zzz3 & fzzz3 & Ezzz3 & Szzz3 & _ & Vzzz3).
  destruct (Hmulneg _ _ r qx (stands_rep _ _ _ _ Sr) Rqx) as (rq & frq & Erq & Srq & Vrq).
  { intros i Hi. destruct (NP i Hi) as (_ & N1 & N2). pose proof (NX i Hi) as N3. specialize (PR i Hi). destruct Sr as [_ Sr]. specialize (Sr i Hi). cbn beta in Sr. destruct Srr as [_ H1], Sppp as [_ H2], Sq as [_ H3]. specialize (H1 i Hi). specialize (H2 i Hi). specialize (H3 i Hi).
    assert (EX : neg_val (frr i + neg_val (fppp i) + neg_val (fq i) + neg_val (fq i)) = B377 - (frr i + (B377 - fppp i) + (B377 - fq i) + (B377 - fq i))). { unfold neg_val at 1. rewrite (proj2 (Z.eqb_neq _ 0) N3), Z.sub_0_r. unfold neg_val. rewrite (proj2 (Z.eqb_neq (fppp i) 0) N1), (proj2 (Z.eqb_neq (fq i) 0) N2). ring. }
    rewrite EX. set (R := fs2 i + neg_val (fs1 i)) in *. set (Q := fq i + _). assert (QB : - (255801 * pp) <= Q < 0) by (unfold Q; lia). clear - PR Sr QB MB P0. split; [| nia]. assert (R * (- Q) <= 153401 * pp * (255801 * pp)) by (apply Z.mul_le_mono_nonneg; lia). lia. }
  assert (Lqx : length qx = n) by (apply Forall2_length in Rqx; rewrite mapn_length in Rqx; lia).
  assert (M : muls mul n [s1; zzz; r] [ppp; ppp; qx] [sp; zzz3; rq]). { apply muls_cons; [lens | lens | lens | assumption |]. apply muls_cons; [lens | lens | lens | assumption |]. apply muls_cons; [lens | exact Lqx | lens | assumption |]. apply muls_nil. }
  pose proof (muls_split mul n _ _ _ M ltac:(discriminate)) as Sx. cbn [length] in Sx. rewrite (Hstack _ _ _ M). cbn [bind]. rewrite Sx. cbn [bind]. clear M Sx.
  pose proof (Hneg _ _ sp Ssp Csp) as Nsp. assert (Rsp : forall i, (i < n)%nat -> 51000 * pp <= neg_val (fsp i) <= B377) by (intros i Hi; apply neg_val_range; apply Ssp; exact Hi).
  destruct (Hsum2 (153401 * pp) 1 2 _ _ rq _ ltac:(op1 Srq) Nsp ltac:(lia) ltac:(lia) ltac:(clear NZ NU PP PR NP NX Vrq; bnd)) as (y3 & Ey3 & Sy3). rewrite Ey3. cbn [bind].
  exists (Lanes (fun i => frr i + neg_val (fppp i) + neg_val (fq i) + neg_val (fq i)) (fun i => frq i + neg_val (fsp i)) fzz3 fzzz3). eexists. split; [reflexivity |]. split; [split; [exact Sx3 | split; [exact Sy3 | split; [st Szz3 | st Szzz3]]] |].
  intros i Hi. destruct (NU i Hi) as (NU1 & NS1), (NP i Hi) as (NPQ & NPPP & NQ). pose proof (NX i Hi) as NX3. destruct (Vsp i Hi) as (VSP & NSP & _). specialize (NSP NS1 NPPP).
  assert (XE : @of_Z p377 (frr i + neg_val (fppp i) + neg_val (fq i) + neg_val (fq i)) = f_sub (f_sub (f_sub (of_Z (frr i)) (of_Z (fppp i))) (of_Z (fq i))) (of_Z (fq i))) by (rewrite <- !of_Z_add, !neg_val_opp by assumption; ring).
  assert (QE : @of_Z p377 (fq i + neg_val (frr i + neg_val (fppp i) + neg_val (fq i) + neg_val (fq i))) = f_sub (of_Z (fq i)) (f_sub (f_sub (f_sub (of_Z (frr i)) (of_Z (fppp i))) (of_Z (fq i))) (of_Z (fq i)))) by (rewrite <- (of_Z_add (fq i)), (neg_val_opp (_ + _)) by assumption; rewrite XE; ring).
  assert (PE : @of_Z p377 (fu2 i + neg_val (fu1 i)) = f_sub (of_Z (fu2 i)) (of_Z (fu1 i))) by (rewrite <- !of_Z_add, neg_val_opp by assumption; ring).
  assert (RE : @of_Z p377 (fs2 i + neg_val (fs1 i)) = f_sub (of_Z (fs2 i)) (of_Z (fs1 i))) by (rewrite <- !of_Z_add, neg_val_opp by assumption; ring).
  specialize (Vrq i Hi). assert (KE : exists k, (k = 0 \/ k = 1) /\ @of_Z p377 (frq i + neg_val (fsp i) - k * M377) = f_sub (f_mul (of_Z (fs2 i + neg_val (fs1 i))) (of_Z (fq i + neg_val (frr i + neg_val (fppp i) + neg_val (fq i) + neg_val (fq i))))) (of_Z (fsp i))).
  { destruct Vrq as [V | V]; [exists 0 | exists 1]; (split; [auto |]); rewrite <- of_Z_sub, <- of_Z_add, neg_val_opp, V by assumption; [rewrite Z.mul_0_l | rewrite Z.mul_1_l]; ring. }
  clear Vrq. destruct KE as (k & Hk & KE). exists k. split; [exact Hk |]. intros s a b Hs. rewrite <- p377_val in Hs. rewrite (wcs_shape _ _ _ _ Hs).
  residues. rewrite KE, XE, QE, RE, VSP. destruct (Vzz3 i Hi) as [-> _], (Vzzz3 i Hi) as [-> _], (Vrr i Hi) as [VRR _], (Vppp i Hi) as [VPPP _], (Vq i Hi) as [VQ _], (Vpq i Hi) as [VPQ _]. rewrite RE in VRR. rewrite PE in VPPP, VPQ. rewrite VPPP, VQ, VRR, VPQ.
  destruct (Vu1 i Hi) as [VU1 _], (Vs1 i Hi) as [VS1 _], (Vu2 i Hi) as [VU2 _], (Vs2 i Hi) as [VS2 _], (Vzz i Hi) as [VZZ _], (Vzzz i Hi) as [VZZZ _]. rewrite VU1, VS1, VU2, VS2, VZZ, VZZZ. clear.
  unfold xyzz_add_general. cbn [pt_coords]. rewrite <- p377_val. fsteps. unfold new_xyzz, formal_xyzz. cbn [length Nat.eqb orb negb formal map].
  generalize (@of_Z p377 (lx v1 i)), (@of_Z p377 (ly v1 i)), (@of_Z p377 (lz v1 i)), (@of_Z p377 (lt v1 i)), (@of_Z p377 (lx v2 i)), (@of_Z p377 (ly v2 i)), (@of_Z p377 (lz v2 i)), (@of_Z p377 (lt v2 i)). intros.
  apply pt4_eq; ring.
Qed.
End Formulas.
Lemma padd_twisted_rns_eq p1 p2 : padd_rns_twisted p1 p2 = padd_twisted_with mod_mul_rns_377 sum_rns neg_rns_zc TWIST_D_RNS p1 p2. Proof. reflexivity. Qed.
Definition zero_checks_apply : coords -> coords -> Prop := zero_checks_with mod_mul_rns_377 TWIST_D_RNS.
(** addition on the twisted Edwards curve: batches in which the zero checks apply to the three negated products.
    Missing because false of the code: the other batches, see C53_padd_rns_twisted_refuted *)
Theorem C53_padd_rns_twisted_partial : forall n v1 v2 p1 p2, packed_rns n (234000 * MODULUS_377_INT) (234000 * MODULUS_377_INT) v1 p1 -> packed_rns n (234000 * MODULUS_377_INT) (234000 * MODULUS_377_INT) v2 p2 -> zero_checks_apply p1 p2 ->
  exists v3 p3, padd_rns_twisted p1 p2 = Some p3 /\ packed_rns n (51000 * MODULUS_377_INT) (51000 * MODULUS_377_INT) v3 p3 /\
    forall s a alpha sc ma mb t, tcs_new MODULUS_377_INT a TWIST_D_INT alpha sc ma mb t = Some s -> forall i, (i < n)%nat ->
      twisted_point_add s (lane_int_point PROJECTIVE v1 i) (lane_int_point PROJECTIVE v2 i) = Some (lane_int_point PROJECTIVE v3 i).
Proof. intros n v1 v2 p1 p2 H1 H2 H3. rewrite padd_twisted_rns_eq. apply padd_twisted_value; try assumption; [apply mul_step | apply muls_stack | apply sum2_step | apply sum3_step | apply neg_zc_step | apply twist_rns]. Qed.
Print Assumptions C53_padd_rns_twisted_partial.

(** doubling on the twisted Edwards curve: lanes whose coordinates x, y, z are non-zero integers *)
Lemma pdul_twisted_rns_eq p1 : pdul_rns_twisted p1 = pdul_twisted_with mod_mul_rns_377 sum_rns neg_rns p1. Proof. reflexivity. Qed.
Lemma pdul_twisted_lanes n v1 p1 : packed_rns n (234000 * pp) (234000 * pp) v1 p1 ->
  exists v3 p3, pdul_rns_twisted p1 = Some p3 /\ packed_rns n (51000 * pp) (51000 * pp) v3 p3 /\
    forall i, (i < n)%nat -> exists na nb nc : F377, let x := of_Z (lx v1 i) in let y := of_Z (ly v1 i) in let z := of_Z (lz v1 i) in
      (lx v1 i <> 0 -> na = f_opp (f_mul x x)) /\ (ly v1 i <> 0 -> nb = f_opp (f_mul y y)) /\ (lz v1 i <> 0 -> nc = f_opp (f_mul z z)) /\ (Forall (fun w => w = 0) (nth i (fst (fst (fst p1))) []) -> na = of_Z (- 65536)) /\
      let e := f_add (f_add (f_mul (f_add x y) (f_add x y)) na) nb in let g := f_add (f_mul y y) na in let f := f_add (f_add g nc) nc in let h := f_add na nb in
      of_Z (lx v3 i) = f_mul e f /\ of_Z (ly v3 i) = f_mul g h /\ of_Z (lz v3 i) = f_mul f g /\ of_Z (lt v3 i) = f_mul e h.
Proof. intros H. rewrite pdul_twisted_rns_eq. apply pdul_twisted_value; try assumption; [apply mul_step | apply muls_stack | apply sum2_step | apply sum3_step | apply neg_step]. Qed.
Theorem C53_pdul_rns_twisted_partial : forall n v1 p1, packed_rns n (234000 * MODULUS_377_INT) (234000 * MODULUS_377_INT) v1 p1 ->
  exists v3 p3, pdul_rns_twisted p1 = Some p3 /\ packed_rns n (51000 * MODULUS_377_INT) (51000 * MODULUS_377_INT) v3 p3 /\
    forall s a d alpha sc ma mb t, tcs_new MODULUS_377_INT a d alpha sc ma mb t = Some s -> forall i, (i < n)%nat -> lx v1 i <> 0 -> ly v1 i <> 0 -> lz v1 i <> 0 ->
      twisted_double_general s (lane_int_point PROJECTIVE v1 i) = Some (lane_int_point PROJECTIVE v3 i).
Proof.
  intros n v1 p1 H1. destruct (pdul_twisted_lanes n v1 p1 H1) as (v3 & p3 & E & P & L). exists v3, p3. split; [exact E |]. split; [exact P |].
  intros s a d alpha sc ma mb t Hs i Hi NX NY NZ. destruct (L i Hi) as (na & nb & nc & A & B & C & _ & Ex & Ey & Ez & Et). specialize (A NX). specialize (B NY). specialize (C NZ). subst na nb nc.
  rewrite <- p377_val in Hs. destruct (tcs_shape _ _ _ _ _ _ _ _ _ Hs) as (k & ->). residues_tac. rewrite Ex, Ey, Ez, Et. unfold twisted_double_general. cbn [pt_coords t_d t_zero]. rewrite <- p377_val. fsteps. rewrite new_twisted_el.
  generalize (@of_Z p377 (lx v1 i)), (@of_Z p377 (ly v1 i)), (@of_Z p377 (lz v1 i)), (@of_Z p377 (lt v1 i)).
  intros. apply pt4_eq; ring.
Qed.
Print Assumptions C53_pdul_rns_twisted_partial.

(** doubling in XYZZ coordinates on a curve with a = 0: lanes whose x and y are non-zero integers *)
Lemma pdul_xyzz_rns_eq p1 : pdul_rns_xyzz p1 = pdul_xyzz_with mod_mul_rns_377 sum_rns neg_rns p1. Proof. reflexivity. Qed.
Theorem C53_pdul_rns_xyzz_partial : forall n v1 p1, packed_rns n (468000 * MODULUS_377_INT) (234000 * MODULUS_377_INT) v1 p1 -> (forall i, (i < n)%nat -> lx v1 i <> 0 /\ ly v1 i <> 0) ->
  exists v3 p3, pdul_rns_xyzz p1 = Some p3 /\ packed_rns n (255800 * MODULUS_377_INT) (153401 * MODULUS_377_INT) v3 p3 /\
    forall s b, wcs_new MODULUS_377_INT 0 b = Some s -> forall i, (i < n)%nat -> xyzz_double_general s (lane_int_point XYZZ v1 i) = Some (lane_int_point XYZZ v3 i).
Proof. intros n v1 p1 H1 H2. rewrite pdul_xyzz_rns_eq. apply pdul_xyzz_value; try assumption; [apply mul_step | apply muls_stack | apply sum2_step | apply sum3_step | apply sum4_step | apply neg_step]. Qed.
Print Assumptions C53_pdul_rns_xyzz_partial.

(** addition in XYZZ coordinates: the product r * (q - x3) is taken with a negative representative of q - x3, so its quotient estimate is
    right only because it rounds up: the y coordinate is the right one, or too large by the product of the moduli *)
Lemma padd_xyzz_rns_eq p1 p2 : padd_rns_xyzz p1 p2 = padd_xyzz_with mod_mul_rns_377 sum_rns neg_rns p1 p2. Proof. reflexivity. Qed.
Theorem C53_padd_rns_xyzz_partial : forall n v1 v2 p1 p2, packed_rns n (468000 * MODULUS_377_INT) (468000 * MODULUS_377_INT) v1 p1 -> packed_rns n (468000 * MODULUS_377_INT) (468000 * MODULUS_377_INT) v2 p2 ->
  (forall i, (i < n)%nat -> lx v1 i <> 0 /\ ly v1 i <> 0 /\ lz v2 i <> 0 /\ lt v2 i <> 0) ->
  exists v3 p3, padd_rns_xyzz p1 p2 = Some p3 /\ packed_rns n (358200 * MODULUS_377_INT) (153401 * MODULUS_377_INT) v3 p3 /\
    forall i, (i < n)%nat -> exists k, (k = 0 \/ k = 1) /\ forall s a b, wcs_new MODULUS_377_INT a b = Some s ->
      xyzz_add_general s (lane_int_point XYZZ v1 i) (lane_int_point XYZZ v2 i) = Some (lane_int_point XYZZ (Lanes (lx v3) (fun j => ly v3 j - k * M377) (lz v3) (lt v3)) i).
Proof. intros n v1 v2 p1 p2 H1 H2 H3. rewrite padd_xyzz_rns_eq. apply padd_xyzz_value; try assumption; [apply mul_step | apply muls_stack | apply sum2_step | apply sum4_step | apply neg_step | apply mul_neg_step | apply sum2_rep | apply sum4_nonzero]. Qed.
Print Assumptions C53_padd_rns_xyzz_partial.

Lemma small_row c : 0 <= c < 234000 * pp -> c < 2 ^ 14 -> stands_for 1 (234000 * pp) (fun _ => c) [repeat c 50].
Proof.
  intros H1 H2. split; [| intros; exact H1]. cbn [seq map]. constructor; [| constructor]. split; [split; [rewrite repeat_length; symmetry; apply length_377 |] | apply Forall_forall; intros w Hw; apply repeat_spec in Hw; change (2 ^ 14) with 16384 in H2; change (2 ^ 16) with 65536; lia].
  intros j Hj. rewrite length_377 in Hj. rewrite (nth_indep _ 0 c) by (rewrite repeat_length; lia). rewrite nth_repeat. reflexivity.
Qed.
Lemma identity_packed : packed_rns 1 (234000 * pp) (234000 * pp) (Lanes (fun _ => 0) (fun _ => 1) (fun _ => 1) (fun _ => 0)) ([repeat 0 50], [repeat 1 50], [repeat 1 50], [repeat 0 50]).
Proof. pose proof pp_pos as P0. assert (P : 16384 < pp) by reflexivity. unfold packed_rns. cbn [lx ly lz lt]. repeat match goal with |- _ /\ _ => split end; apply small_row; change (2 ^ 14) with 16384; lia. Qed.

(** FINDING. Doubling the identity as the module builds it (an exact zero in x) does not give the identity: the negation of the zero row is
    -65536, and x becomes 65536 * 65537. *)
Theorem C53_pdul_rns_twisted_refuted : exists z0 v3 p3, rns_twist_zero = Some z0 /\ packed_rns 1 (234000 * MODULUS_377_INT) (234000 * MODULUS_377_INT) (Lanes (fun _ => 0) (fun _ => 1) (fun _ => 1) (fun _ => 0)) z0 /\
  pdul_rns_twisted z0 = Some p3 /\ packed_rns 1 (51000 * MODULUS_377_INT) (51000 * MODULUS_377_INT) v3 p3 /\ lx v3 0%nat mod MODULUS_377_INT = 65536 * 65537 /\
  forall s a d alpha sc ma mb t, tcs_new MODULUS_377_INT a d alpha sc ma mb t = Some s ->
    twisted_double_general s (lane_int_point PROJECTIVE (Lanes (fun _ => 0) (fun _ => 1) (fun _ => 1) (fun _ => 0)) 0) <> Some (lane_int_point PROJECTIVE v3 0).
Proof.
  destruct (pdul_twisted_lanes 1 _ _ identity_packed) as (v3 & p3 & E & P & L). exists ([repeat 0 50], [repeat 1 50], [repeat 1 50], [repeat 0 50]), v3, p3. split; [reflexivity |]. split; [exact identity_packed |]. split; [exact E |]. split; [exact P |].
  destruct (L 0%nat ltac:(lia)) as (na & nb & nc & _ & HB & HC & HA & Ex & _). cbn [lx ly lz lt] in *. specialize (HB ltac:(lia)). specialize (HC ltac:(lia)).
  assert (ZR : Forall (fun w => w = 0) (repeat 0 50)) by (apply Forall_forall; intros w Hw; apply repeat_spec in Hw; exact Hw). specialize (HA ZR). subst na nb nc.
  assert (X : lx v3 0%nat mod pp = 65536 * 65537). { change (lx v3 0%nat mod pp) with (val (@of_Z p377 (lx v3 0%nat))). rewrite Ex. vm_compute. reflexivity. }
  split; [exact X |]. intros s a d alpha sc ma mb t Hs HE. rewrite <- p377_val in Hs. destruct (tcs_shape _ _ _ _ _ _ _ _ _ Hs) as (k & ->). revert HE. unfold lane_int_point. cbn [lx ly lz lt]. rewrite X. generalize (ly v3 0%nat mod pp), (lz v3 0%nat mod pp), (lt v3 0%nat mod pp). intros y z w.
  change (0 mod pp) with (val (@of_Z p377 0)). change (1 mod pp) with (val (@of_Z p377 1)). unfold twisted_double_general. cbn [pt_coords t_d t_zero]. rewrite <- p377_val. fsteps. rewrite new_twisted_el. intros HE. apply (f_equal (fun o => match o with Some q => match pt_coords q with Some (FE x _ :: _) => x | _ => 0 end | _ => 0 end)) in HE. vm_compute in HE. discriminate HE.
Qed.
Print Assumptions C53_pdul_rns_twisted_refuted.

(** the hypotheses are met: adding the lane (2, 3, 5, 7) to the exact identity (0, 1, 1, 0); the products with a zero row are zero rows, and
    the word modulo 2^16 of the reduced product 1 * 3 is not zero *)
Definition lane1 (x : Z) : batch := [residues MODULI x].
Lemma lane1_stands x B : 0 <= x < B -> stands_for 1 B (fun _ => x) (lane1 x).
Proof. intros H. split; [exact (residues_batch [x]) | intros; exact H]. Qed.
Lemma lane1_packed x y z t : 0 <= x < 2 ^ 100 -> 0 <= y < 2 ^ 100 -> 0 <= z < 2 ^ 100 -> 0 <= t < 2 ^ 100 -> forall bx b, pp <= bx -> pp <= b -> packed_rns 1 bx b (Lanes (fun _ => x) (fun _ => y) (fun _ => z) (fun _ => t)) (lane1 x, lane1 y, lane1 z, lane1 t).
Proof. intros. assert (2 ^ 100 < pp) by reflexivity. unfold packed_rns. cbn [lx ly lz lt]. split; [apply lane1_stands; lia |]. split; [apply lane1_stands; lia |]. split; apply lane1_stands; lia. Qed.
Lemma residues_zero ms : Forall (fun w => w = 0) (residues ms 0).
Proof. induction ms as [|m ms IH]; [constructor |]. cbn [residues map]. constructor; [apply Zmod_0_l | exact IH]. Qed.
Lemma lane1_zero : Forall (fun w => w = 0) (nth 0 (lane1 0) []).
Proof. exact (residues_zero MODULI). Qed.
Lemma zero_product_safe f g a b c : stands_for 1 (468000 * pp) f a -> stands_for 1 (468000 * pp) g b -> Forall (fun w => w = 0) (nth 0 a []) -> mod_mul_rns_377 a b = Some c -> Forall (fun w => w = 0) (nth 0 c []) /\ safe_rows c.
Proof.
  intros Sa Sb Z E. destruct (mul_step 1 f g a b Sa Sb) as (c' & h & E' & Sc & C & H). rewrite E in E'. injection E' as <-. destruct (H 0%nat (le_n 1)) as (_ & _ & H0). specialize (H0 Z). destruct (C 0%nat (le_n 1)) as [[_ Z0] | [P _]]; [| lia].
  split; [exact Z0 |]. pose proof (stands_length _ _ _ _ Sc) as L. destruct c as [|r [|r2 c]]; try discriminate L. constructor; [left; exact Z0 | constructor].
Qed.
Lemma sample_product b : mod_mul_rns_377 (lane1 1) (lane1 3) = Some b -> safe_rows b.
Proof.
  intros E. pose proof (residues_batch [1]) as R1. pose proof (residues_batch [3]) as R2. cbn [map] in R1, R2. fold (residues MODULI 1) in R1. fold (residues MODULI 3) in R2.
  destruct (mul_batch [1] [3] _ _ R1 R2 eq_refl) as (c & Ec & Rc). assert (Ecc : c = [product_row MODULI RNS_MODULI_T 1 3]) by (unfold mul_unreduced_rns_2u16, moduli_rns_red_internal_2u16 in Ec; rewrite (offsets_u8_ok MODULI RNS_MODULI_T offsets_377) in Ec; cbn [bind map2 map] in Ec; injection Ec as <-; reflexivity).
  destruct range_377 as [G1 G2]. rewrite <- M377_literal in G1, G2. destruct (matrix_377 MODULUS_377_INT (conj eq_refl G2)) as (mat & cor & _ & EM & _).
  destruct (mod_red_batch MODULUS_377_INT mat cor _ c (conj eq_refl G2) EM Rc) as (b' & zs' & E' & F1' & F2' & _ & V). { cbn [map2]. constructor; [| constructor]. split; [lia |]. assert (P0 : 0 < MODULUS_377_INT) by reflexivity. change (2 ^ 16) with 65536 in *. nia. }
  assert (EB : b' = b). { unfold mod_mul_rns_377, RNS_MAT in E. rewrite EM in E. cbn [bind] in E. unfold mod_mul_rns_2u16, lane1 in E. rewrite Ec in E. cbn [bind] in E. rewrite E' in E. injection E as E. exact E. }
  subst b' c. cbn [map2] in V, F2'. change (1 * 3) with 3 in *. pose proof (proj2 witness_values) as WV. revert WV V. generalize (red_value MODULUS_377_INT (product_row MODULI RNS_MODULI_T 1 3) 3) as z'. intros z' WV V. subst zs'. clear E' Ec Rc. inversion F1' as [|? row ? rows [Rr Wr] Fn]; subst. inversion Fn; subst. clear Fn.
  constructor; [right | constructor]. apply rep_iff in Rr; [| apply coprime_positive]. rewrite moduli_cons in Rr. inversion Rr as [|? w ? row' E0 _]; subst. cbn [nth]. intros W0. rewrite W0 in E0. apply WV. apply eqm_mod_iff in E0; [| lia]. rewrite <- E0. reflexivity.
Qed.
Example C53_zero_checks_sample : zero_checks_apply (lane1 0, lane1 1, lane1 1, lane1 0) (lane1 2, lane1 3, lane1 5, lane1 7).
Proof.
  assert (P : 2 ^ 100 < pp) by reflexivity. assert (S : forall x, 0 <= x < 2 ^ 100 -> stands_for 1 (468000 * pp) (fun _ => x) (lane1 x)) by (intros x Hx; apply lane1_stands; lia). unfold zero_checks_apply, zero_checks_with. split; [| split; [exact sample_product |]].
  - intros a Ha. exact (proj2 (zero_product_safe _ _ _ _ _ (S 0 ltac:(lia)) (S 2 ltac:(lia)) lane1_zero Ha)).
  - intros t c Ht Hc. destruct (zero_product_safe _ _ _ _ _ (S 0 ltac:(lia)) (S 7 ltac:(lia)) lane1_zero Ht) as [Zt _].
    destruct (mul_step 1 _ _ _ _ (S 0 ltac:(lia)) (S 7 ltac:(lia))) as (t' & h & E' & St & _ & _). rewrite Ht in E'. injection E' as <-.
    assert (St' : stands_for 1 (468000 * pp) h t) by (apply (stands_mono 1 (51000 * pp)); [lia | exact St]).
    assert (Sd : stands_for 1 (468000 * pp) (fun _ => TWIST_D_INT) (broadcast t TWIST_D_RNS)). { apply (stands_mono 1 (51000 * pp)); [lia |]. apply broadcast_stands; [exact (stands_length _ _ _ _ St) | exact (proj1 twist_rns) | exact (proj2 twist_rns) | exact twist_small]. }
    exact (proj2 (zero_product_safe _ _ _ _ _ St' Sd Zt Hc)).
Qed.
Example C53_rns_sample : (exists p3, padd_rns_twisted (lane1 0, lane1 1, lane1 1, lane1 0) (lane1 2, lane1 3, lane1 5, lane1 7) = Some p3) /\ (exists p3, pdul_rns_twisted (lane1 2, lane1 3, lane1 5, lane1 7) = Some p3) /\ (exists p3, pdul_rns_xyzz (lane1 2, lane1 3, lane1 5, lane1 7) = Some p3) /\ (exists p3, padd_rns_xyzz (lane1 2, lane1 3, lane1 5, lane1 7) (lane1 7, lane1 3, lane1 2, lane1 1) = Some p3).
Proof.
  assert (P0 : 0 < pp) by reflexivity. assert (B : forall x, 0 <= x < 8 -> 0 <= x < 2 ^ 100) by (intros; change (2 ^ 100) with 1267650600228229401496703205376; lia).
  split; [| split; [| split]].
  - destruct (C53_padd_rns_twisted_partial 1 _ _ _ _ (lane1_packed 0 1 1 0 ltac:(apply B; lia) ltac:(apply B; lia) ltac:(apply B; lia) ltac:(apply B; lia) (234000 * pp) (234000 * pp) ltac:(lia) ltac:(lia)) (lane1_packed 2 3 5 7 ltac:(apply B; lia) ltac:(apply B; lia) ltac:(apply B; lia) ltac:(apply B; lia) (234000 * pp) (234000 * pp) ltac:(lia) ltac:(lia)) C53_zero_checks_sample) as (v3 & p3 & E & _). exists p3. exact E.
  - destruct (C53_pdul_rns_twisted_partial 1 _ _ (lane1_packed 2 3 5 7 ltac:(apply B; lia) ltac:(apply B; lia) ltac:(apply B; lia) ltac:(apply B; lia) (234000 * pp) (234000 * pp) ltac:(lia) ltac:(lia))) as (v3 & p3 & E & _). exists p3. exact E.
  - destruct (C53_pdul_rns_xyzz_partial 1 _ _ (lane1_packed 2 3 5 7 ltac:(apply B; lia) ltac:(apply B; lia) ltac:(apply B; lia) ltac:(apply B; lia) (468000 * pp) (234000 * pp) ltac:(lia) ltac:(lia))) as (v3 & p3 & E & _); [intros; cbn [lx ly]; lia |]. exists p3. exact E.
  - destruct (C53_padd_rns_xyzz_partial 1 _ _ _ _ (lane1_packed 2 3 5 7 ltac:(apply B; lia) ltac:(apply B; lia) ltac:(apply B; lia) ltac:(apply B; lia) (468000 * pp) (468000 * pp) ltac:(lia) ltac:(lia)) (lane1_packed 7 3 2 1 ltac:(apply B; lia) ltac:(apply B; lia) ltac:(apply B; lia) ltac:(apply B; lia) (468000 * pp) (468000 * pp) ltac:(lia) ltac:(lia))) as (v3 & p3 & E & _); [intros; cbn [lx ly lz lt]; lia |]. exists p3. exact E.
Qed.
