(** C54 for the XYZZ bucket method, whose addition is only valid on two different, non-opposite, non-zero points. *)
From Coq Require Import ZArith List Bool Lia.
From Verif Require Import Base.Word Base.Lists Ec.Model_pippenger Ec.Spec_pippenger Ec.Proof_pippenger Ec.Prop_pippenger.
Import ListNotations.
Local Open Scope Z_scope.

(** ** specification: what incomplete point operations must do; the blank, and its doubles, stand for nothing *)
Record partly_implements {g : abelian_group} {pnt : Type} (rep : pnt -> g -> Prop) (padd : pnt -> pnt -> pnt) (pdul : pnt -> pnt) (beq : pnt -> pnt -> bool) (blank : pnt) (addable : g -> g -> bool) (dublable : g -> bool) : Prop := {
  part_fun : forall a x y, rep a x -> rep a y -> x = y;
  part_add : forall a b x y, addable x y = true -> rep a x -> rep b y -> rep (padd a b) (gadd x y);
  part_dul : forall a x, dublable x = true -> rep a x -> rep (pdul a) (gadd x x);
  part_beq : forall a b, beq a b = true -> a = b;
  part_blank : forall n a x, rep a x -> beq (Nat.iter n pdul blank) a = false
}.
(** points that carry the group element they stand for; nothing is left of a point once an addition was not valid *)
Section Guarded.
Context {g : abelian_group} {pnt : Type}.
Variable padd : pnt -> pnt -> pnt.
Variable pdul : pnt -> pnt.
Variable beq : pnt -> pnt -> bool.
Variable addable : g -> g -> bool.
Variable dublable : g -> bool.
Notation guarded := (option (pnt * g)).
Definition guarded_add (p q : guarded) : guarded :=
  match p, q with Some (a, x), Some (b, y) => if addable x y then Some (padd a b, gadd x y) else None | _, _ => None end.
Definition guarded_dul (p : guarded) : guarded := match p with Some (a, x) => if dublable x then Some (pdul a, gadd x x) else None | None => None end.
Definition guarded_beq (p q : guarded) : bool := match p, q with Some (a, _), Some (b, _) => beq a b | _, _ => false end.
End Guarded.

Section Run.
Context {g : abelian_group} {pnt : Type}.
Variable rep : pnt -> g -> Prop.
Variable padd : pnt -> pnt -> pnt.
Variable pdul : pnt -> pnt.
Variable beq : pnt -> pnt -> bool.
Variable blank : pnt.
Variable addable : g -> g -> bool.
Variable dublable : g -> bool.
Hypothesis I : partly_implements rep padd pdul beq blank addable dublable.
Notation cell := (option (pnt * g)).
Notation cadd := (guarded_add padd addable).
Notation cdul := (guarded_dul pdul dublable).
Notation cbeq := (guarded_beq beq).
Notation vadd := (map2 (@gadd g)).

(** a point r, the guarded point q and the group element x it should stand for *)
Definition good (r : pnt) (q : cell) (x : g) : Prop := forall a y, q = Some (a, y) -> r = a /\ rep a y /\ y = x.
Definition junk (r : pnt) (q : cell) (x : g) : Prop := (exists n, r = Nat.iter n pdul blank) /\ q = None /\ x = gzero.
Definition cell_ok (z : Z) (r : pnt) (q : cell) (x : g) : Prop := (z = 1 /\ junk r q x) \/ (z = 0 /\ good r q x).
Inductive lane_ok : list Z -> list pnt -> list cell -> list g -> Prop :=
| lane_nil : lane_ok [] [] [] []
| lane_cons z r q x zs rs qs xs : cell_ok z r q x -> lane_ok zs rs qs xs -> lane_ok (z :: zs) (r :: rs) (q :: qs) (x :: xs).
Lemma cadd_good a p x b q y : good a p x -> good b q y -> good (padd a b) (cadd p q) (gadd x y).
Proof.
  intros A B v w E. destruct p as [[a' x'] |]; [| discriminate]. destruct q as [[b' y'] |]; [| discriminate]. cbn [guarded_add] in E. destruct (A _ _ eq_refl) as (<- & RA & ->), (B _ _ eq_refl) as (<- & RB & ->). destruct (addable x y) eqn:O; [| discriminate]. injection E as <- <-. repeat split. apply (part_add _ _ _ _ _ _ _ I); assumption.
Qed.
Lemma cdul_good a p x : good a p x -> good (pdul a) (cdul p) (gadd x x).
Proof.
  intros A v w E. destruct p as [[a' x'] |]; [| discriminate]. cbn [guarded_dul] in E. destruct (A _ _ eq_refl) as (<- & RA & ->). destruct (dublable x) eqn:O; [| discriminate]. injection E as <- <-. repeat split. apply (part_dul _ _ _ _ _ _ _ I); assumption.
Qed.
Lemma lane_lengths zs rs qs xs : lane_ok zs rs qs xs -> length rs = length zs /\ length qs = length zs /\ length xs = length zs.
Proof. induction 1; cbn; lia. Qed.
Lemma lane_nth : forall zs rs qs xs, lane_ok zs rs qs xs -> forall i, (i < length zs)%nat -> cell_ok (nth i zs 0) (nth i rs blank) (nth i qs None) (nth i xs gzero).
Proof. induction 1; intros [| i] Hi; cbn in *; try lia; [assumption | apply IHlane_ok; lia]. Qed.
Lemma lane_upd : forall zs rs qs xs, lane_ok zs rs qs xs -> forall i z r q x, cell_ok z r q x -> lane_ok (upd i z zs) (upd i r rs) (upd i q qs) (upd i x xs).
Proof. induction 1; intros [| i] z' r' q' x' H'; cbn; constructor; auto. Qed.
Lemma lane_rev zs rs qs xs : lane_ok zs rs qs xs -> lane_ok (rev zs) (rev rs) (rev qs) (rev xs).
Proof.
  assert (A : forall zs rs qs xs, lane_ok zs rs qs xs -> forall zs' rs' qs' xs', lane_ok zs' rs' qs' xs' -> lane_ok (zs ++ zs') (rs ++ rs') (qs ++ qs') (xs ++ xs')) by (induction 1; intros; cbn; [assumption | constructor; auto]).
  induction 1; cbn; [constructor |]. apply A; [assumption | constructor; [assumption | constructor]].
Qed.
(** one point into one lane *)
Lemma accumulate_lane zs rs qs xs i r q x : lane_ok zs rs qs xs -> 0 <= i < Z.of_nat (length zs) -> good r q x ->
  lane_ok (upd (Z.to_nat i) 0 zs) (scatter rs i (padd_with_zero_alter pnt padd (gather blank rs i) r (gather 0 zs i))) (scatter qs i (padd_with_zero_alter cell cadd (gather None qs i) q (gather 0 zs i)))
    (upd (Z.to_nat i) (gadd (nth (Z.to_nat i) xs gzero) x) xs).
Proof.
  intros L Hi Q. destruct (lane_lengths _ _ _ _ L) as (L1 & L2 & L3). unfold scatter, gather. rewrite L1, L2. destruct (Z.ltb_spec i (Z.of_nat (length zs))); [| lia]. rewrite !Z.min_l by lia. apply lane_upd; [exact L |]. right. split; [reflexivity |].
  pose proof (lane_nth _ _ _ _ L (Z.to_nat i) ltac:(lia)) as K. set (z := nth (Z.to_nat i) zs 0) in *. set (b := nth (Z.to_nat i) qs None) in *. set (y := nth (Z.to_nat i) xs gzero) in *. unfold padd_with_zero_alter. destruct K as [(-> & _ & N & ->) | (-> & K)].
  - rewrite Z.eqb_refl, gadd_zero. exact Q.
  - change (0 =? 1) with false. cbv iota. exact (cadd_good _ _ _ _ _ _ K Q).
Qed.
(** the lanes: zero states, points, guarded points, and the weighted sums they stand for *)
Inductive lanes_ok (n : nat) : list (list Z) -> list (list pnt) -> list (list cell) -> list g -> Prop :=
| lanes_nil : lanes_ok n [] [] [] []
| lanes_cons zs rs qs xs v zss rss qss vs : lane_ok zs rs qs xs -> length zs = n -> wsum 0 xs = v -> lanes_ok n zss rss qss vs -> lanes_ok n (zs :: zss) (rs :: rss) (qs :: qss) (v :: vs).
Lemma body_ok n c r q x s : good r q x -> (forall w, 0 <= slice_digit c s w < Z.of_nat n) -> forall zss rss qss vs, lanes_ok n zss rss qss vs -> forall k,
  lanes_ok n (map2 (fun z w => upd (Z.to_nat (slice_digit c s w)) 0 z) zss (seq k (length zss)))
    (map3 (fun bs i z => scatter bs i (padd_with_zero_alter pnt padd (gather blank bs i) r (gather 0 z i))) rss (map (fun w => slice_digit c s w) (seq k (length zss))) zss)
    (map3 (fun bs i z => scatter bs i (padd_with_zero_alter cell cadd (gather None bs i) q (gather 0 z i))) qss (map (fun w => slice_digit c s w) (seq k (length zss))) zss)
    (map2 gadd vs (contrib (map (slice_digit c s) (seq k (length zss))) x)).
Proof.
  intros Q D zss rss qss vs H. induction H as [| zs rs qs xs v zss rss qss vs L N V H IH]; intros k; [constructor |]. cbn [length seq map map2 map3 contrib]. fold (contrib (map (slice_digit c s) (seq (S k) (length zss))) x). specialize (D k). apply lanes_cons with (upd (Z.to_nat (slice_digit c s k)) (gadd (nth (Z.to_nat (slice_digit c s k)) xs gzero) x) xs).
  - apply accumulate_lane; [exact L | rewrite N; exact D | exact Q].
  - rewrite upd_length. exact N.
  - destruct (lane_lengths _ _ _ _ L) as (? & ? & ?). rewrite wsum_upd by lia. rewrite V. do 2 f_equal. lia.
  - apply IH.
Qed.
Inductive points_ok : list pnt -> list cell -> list g -> Prop :=
| points_nil : points_ok [] [] []
| points_cons r q x rs qs xs : good r q x -> points_ok rs qs xs -> points_ok (r :: rs) (q :: qs) (x :: xs).
Lemma accumulate_ok c n : (forall s w, 0 <= slice_digit c s w < Z.of_nat n) -> forall ss rs qs xs, length rs = length ss -> points_ok rs qs xs -> forall zss rss qss vs, lanes_ok n zss rss qss vs -> length zss = window_num c -> length vs = window_num c ->
  lanes_ok n (last (zero_states_list c zss ss) []) (bucket_accumulation_index pnt padd blank rss rs (map (selection_index_of c) ss) (firstn (length ss) (zero_states_list c zss ss)))
    (bucket_accumulation_index cell cadd None qss qs (map (selection_index_of c) ss) (firstn (length ss) (zero_states_list c zss ss))) (vadd vs (colsum (window_num c) (map2 (fun s x => contrib (digits c s (window_num c)) x) ss xs))).
Proof.
  intros D. unfold bucket_accumulation_index. induction ss as [| s ss IH]; intros rs qs xs L Q zss rss qss vs H LZ LV.
  - destruct Q; [| discriminate]. cbn [map2 zero_states_list last firstn length combine map fold_left colsum fold_right]. rewrite vadd_comm, vadd_zero by exact LV. exact H.
  - destruct Q as [| r q x rs qs xs Hq Q]; [discriminate |]. cbn [length] in L. cbn [zero_states_list length firstn map combine fold_left map2 colsum fold_right]. fold (colsum (window_num c) (map2 (fun s x => contrib (digits c s (window_num c)) x) ss xs)).
    pose proof (body_ok n c r q x s Hq (D s) _ _ _ _ H 0%nat) as B. rewrite LZ in B.
    assert (LC : length (contrib (digits c s (window_num c)) x) = window_num c) by (unfold contrib, digits; rewrite !map_length, seq_length; reflexivity).
    rewrite vadd_assoc. assert (Lst : last (zss :: zero_states_list c (zero_states_step c zss s) ss) [] = last (zero_states_list c (zero_states_step c zss s) ss) []) by (destruct ss; reflexivity). rewrite Lst.
    apply IH; [lia | exact Q | | unfold zero_states_step; rewrite map2_length, seq_length; lia | apply vadd_length; assumption]. unfold zero_states_step, ba_index_body, selection_index_of. exact B.
Qed.
(** the running sums of one lane *)
Fixpoint run_sum (l : list g) (T V : g) : g := match l with [] => V | x :: r => run_sum r (gadd T x) (gadd V (gadd T x)) end.
Lemma run_sum_spec : forall l T V, run_sum l T V = gadd (gadd V (gmul (Z.of_nat (length l)) T)) (vsum l).
Proof.
  induction l as [| x l IH]; intros T V; [cbn; rewrite !gzero_r; reflexivity |]. cbn [run_sum]. rewrite IH. cbn [vsum length]. rewrite Nat2Z.inj_succ, !gmul_succ, gmul_add_r, <- !gadd_assoc. f_equal. f_equal. rewrite !gadd_assoc. do 2 f_equal. rewrite (gadd_comm _ x). reflexivity.
Qed.
Lemma with_zero_ok t a p x z b q y : cell_ok t a p x -> cell_ok z b q y -> cell_ok (Z.land t z) (padd_with_zero pnt padd a b t z) (padd_with_zero cell cadd p q t z) (gadd x y).
Proof.
  intros A B. unfold padd_with_zero. destruct A as [(-> & JA) | (-> & A)], B as [(-> & JB) | (-> & B)]; cbn [Z.land Pos.land Z.eqb Pos.eqb orb]; try (rewrite (proj2 (proj2 JA)), gadd_zero); try (rewrite (proj2 (proj2 JB)), gzero_r).
  - left. split; [reflexivity |]. destruct JA as (? & ? & ->), JB as (_ & _ & ->). repeat split; assumption.
  - right. auto.
  - right. auto.
  - right. split; [reflexivity |]. apply cadd_good; assumption.
Qed.
Lemma check_ok t a p x t' b q y : cell_ok t a p x -> cell_ok t' b q y -> (t = 0 -> t' = 0) ->
  cell_ok (Z.land t t') (padd_with_zero_and_pdul_check pnt padd pdul beq a b t t') (padd_with_zero_and_pdul_check cell cadd cdul cbeq p q t t') (gadd x y).
Proof.
  intros A B T. unfold padd_with_zero_and_pdul_check. fold (padd_with_zero pnt padd a b t t') (padd_with_zero cell cadd p q t t'). pose proof (with_zero_ok _ _ _ _ _ _ _ _ A B) as W. destruct A as [(Et & (na & JA) & NA & ZA) | (Et & A)].
  - assert (EB : cbeq p q = false) by (rewrite NA; reflexivity). rewrite EB. destruct B as [(Et' & (nb & JB) & NB & ZB) | (Et' & B)].
    + destruct (beq a b); [| exact W]. destruct W as [(_ & _ & W2 & W3) | (W & _)]; [| rewrite Et, Et' in W; discriminate]. left. rewrite Et, Et' in *. split; [reflexivity |]. split; [exists (S na); rewrite JA; reflexivity |]. auto.
    + destruct (beq a b) eqn:E; [| exact W]. right. split; [rewrite Et, Et'; reflexivity |]. unfold padd_with_zero. rewrite Et, Et'. cbn [Z.eqb Pos.eqb orb]. intros b' y' Eq. destruct (B _ _ Eq) as (-> & R & _). rewrite JA, (part_blank _ _ _ _ _ _ _ I na _ _ R) in E. discriminate.
  - specialize (T Et). destruct B as [(Et' & _) | (Et' & B)]; [congruence |]. rewrite Et, Et' in *. right. split; [reflexivity |]. destruct W as [(W & _) | (_ & W)]; [discriminate |]. intros v w E. destruct p as [[a' x'] |]; [| discriminate]. destruct q as [[b' y'] |]; [| discriminate]. cbn [guarded_beq] in E. destruct (A _ _ eq_refl) as (Ea & RA & Ex), (B _ _ eq_refl) as (Eb & RB & Ey). subst a' b'. destruct (beq a b) eqn:Q; [| apply W; exact E].
    apply (part_beq _ _ _ _ _ _ _ I) in Q. subst b. pose proof (part_fun _ _ _ _ _ _ _ I _ _ _ RA RB) as EE. subst x' y' y. apply (cdul_good a (Some (a, x)) x A). exact E.
Qed.
Lemma reduce_ok : forall zs rs qs xs, lane_ok zs rs qs xs -> forall t a p x a' p' x', cell_ok t a p x -> cell_ok t a' p' x' -> forall st0 st1, st0 = map fst (br_states t t zs) -> st1 = br_states t t zs ->
  exists t', cell_ok t' (snd (fold_left (br_zero_body pnt padd pdul beq) (combine (combine (combine rs zs) st1) (tl st0)) (a, a')))
    (snd (fold_left (br_zero_body cell cadd cdul cbeq) (combine (combine (combine qs zs) st1) (tl st0)) (p, p'))) (run_sum xs x x').
Proof.
  induction 1 as [| z r q y zs rs qs xs C L IH]; intros t a p x a' p' x' HA HA' st0 st1 -> ->; [exists t; exact HA' |]. cbn [br_states map tl combine]. assert (Tz : exists s, br_states (Z.land t z) (Z.land t (Z.land t z)) zs = (Z.land t z, Z.land t (Z.land t z)) :: s) by (destruct zs; eexists; reflexivity). destruct Tz as [s Es].
  assert (LL : Z.land t (Z.land t z) = Z.land t z) by (rewrite Z.land_assoc, Z.land_diag; reflexivity). rewrite LL in *. rewrite Es. cbn [map fst combine fold_left br_zero_body run_sum].
  pose proof (with_zero_ok _ _ _ _ _ _ _ _ HA C) as W. pose proof (check_ok _ _ _ _ _ _ _ _ HA' W) as K. rewrite LL in K. specialize (K ltac:(intros ->; apply Z.land_0_l)).
  specialize (IH _ _ _ _ _ _ _ W K _ _ eq_refl eq_refl). rewrite Es in IH. cbn [map fst tl] in IH. exact IH.
Qed.
Lemma firstn_combine {A B} : forall n (l : list A) (l' : list B), firstn n (combine l l') = combine (firstn n l) (firstn n l').
Proof. induction n as [| n IH]; intros [| x l] [| y l']; cbn [firstn combine]; rewrite ?IH, ?combine_nil; reflexivity. Qed.
Lemma states_firstn : forall n t w l, firstn (S n) (br_states t w l) = br_states t w (firstn n l).
Proof. induction n as [| n IH]; intros t w [| z l]; try reflexivity. cbn [br_states firstn]. f_equal. rewrite <- IH. reflexivity. Qed.
Lemma states_length t w l : length (br_states t w l) = S (length l).
Proof. revert t w. induction l as [| z l IH]; intros t w; [reflexivity |]. cbn [br_states length]. rewrite IH. reflexivity. Qed.
Lemma lane_firstn : forall zs rs qs xs, lane_ok zs rs qs xs -> forall n, lane_ok (firstn n zs) (firstn n rs) (firstn n qs) (firstn n xs).
Proof. induction 1; intros [| n]; cbn; constructor; auto. Qed.
Lemma wsum_rev_firstn (x : g) xs : vsum (firstn (length xs) (rev (x :: xs))) = wsum 0 (x :: xs).
Proof. cbn [rev wsum]. rewrite firstn_app, rev_length, Nat.sub_diag, firstn_O, app_nil_r, firstn_all2 by (rewrite rev_length; lia). rewrite vsum_rev. cbn [gmul]. rewrite gadd_zero. reflexivity. Qed.
Lemma combine_cut {A B} : forall n (l : list A) (l' : list B), length l = n -> combine l (firstn n l') = combine l l'.
Proof. induction n as [| n IH]; intros [| x l] [| y l'] E; try discriminate; try reflexivity. injection E as E. cbn. rewrite IH by exact E. reflexivity. Qed.
Lemma lane_reduction n zs rs qs xs : lane_ok zs rs qs xs -> length zs = S n ->
  exists t, cell_ok t (br_zero_lane pnt padd pdul beq blank (S n) rs zs) (br_zero_lane cell cadd cdul cbeq None (S n) qs zs) (wsum 0 xs).
Proof.
  intros L N. destruct (lane_lengths _ _ _ _ L) as (L1 & L2 & L3). pose proof (lane_firstn _ _ _ _ (lane_rev _ _ _ _ L) n) as LF. unfold br_zero_lane. replace (S n - 1)%nat with n by lia. rewrite states_firstn, !firstn_combine. set (zr := firstn n (rev zs)) in *.
  assert (LZ : length zr = n) by (unfold zr; rewrite firstn_length, rev_length; lia). assert (LB : length (br_states 1 1 zr) = S n) by (rewrite states_length, LZ; reflexivity).
  destruct (lane_lengths _ _ _ _ LF) as (M1 & M2 & M3). assert (C : forall A (l : list A), length l = n -> combine (combine (combine l zr) (firstn n (br_states 1 1 zr))) (firstn n (map fst (tl (br_states 1 1 zr)))) = combine (combine (combine l zr) (br_states 1 1 zr)) (tl (map fst (br_states 1 1 zr)))).
  { intros A l E. rewrite (combine_cut n (combine l zr)) by (rewrite combine_length; lia). rewrite combine_cut by (rewrite !combine_length; lia). f_equal. destruct (br_states 1 1 zr); reflexivity. }
  rewrite !C by lia. assert (J : cell_ok 1 blank None gzero) by (left; split; [reflexivity |]; split; [exists 0%nat; reflexivity | auto]).
  destruct (reduce_ok _ _ _ _ LF 1 blank None gzero blank None gzero J J _ _ eq_refl eq_refl) as [t T]. exists t. rewrite run_sum_spec, gmul_zero, !gadd_zero in T. destruct xs as [| x xs]; [cbn in L3; lia |]. assert (Ex : length xs = n) by (cbn in L3; lia). assert (Ew : vsum (firstn n (rev (x :: xs))) = wsum 0 (x :: xs)) by (rewrite <- Ex; apply wsum_rev_firstn). rewrite Ew in T. exact T.
Qed.
Lemma reduction_ok n zss rss qss vs : lanes_ok (S n) zss rss qss vs -> points_ok (bucket_reduction_zero pnt padd pdul beq blank (S n) rss zss) (bucket_reduction_zero cell cadd cdul cbeq None (S n) qss zss) vs.
Proof.
  unfold bucket_reduction_zero. induction 1 as [| zs rs qs xs v zss rss qss vs L N V H IH]; cbn [map2]; constructor; [| exact IH]. destruct (lane_reduction n _ _ _ _ L N) as [t [(_ & _ & E & _) | (_ & K)]]; [intros a y E'; congruence | rewrite V in K; exact K].
Qed.
Lemma points_rev : forall rs qs xs, points_ok rs qs xs -> points_ok (rev rs) (rev qs) (rev xs).
Proof.
  assert (A : forall rs qs xs, points_ok rs qs xs -> forall rs' qs' xs', points_ok rs' qs' xs' -> points_ok (rs ++ rs') (qs ++ qs') (xs ++ xs')) by (induction 1; intros; cbn; [assumption | constructor; auto]).
  induction 1; cbn; [constructor |]. apply A; [assumption | constructor; [assumption | constructor]].
Qed.
Lemma merge_ok c rs qs xs : 0 <= c -> points_ok rs qs xs -> xs <> [] -> good (window_merge pnt padd pdul blank c rs) (window_merge cell cadd cdul None c qs) (horner c xs).
Proof.
  intros Hc H N. rewrite <- (horner_fold c Hc xs N). unfold window_merge.
  assert (Hl : good (last rs blank) (last qs None) (last xs gzero)). { clear N. induction H as [| r q x rs qs xs R H IH]; [intros a y E; discriminate |]. destruct H; [exact R | exact IH]. }
  assert (Hr : points_ok (rev (removelast rs)) (rev (removelast qs)) (rev (removelast xs))). { apply points_rev. clear N Hl. induction H as [| r q x rs qs xs R H IH]; [constructor |]. destruct H; [constructor |]. cbn [removelast] in *. constructor; assumption. }
  assert (Hd : forall n a p x, good a p x -> good (Nat.iter n pdul a) (Nat.iter n cdul p) (Nat.iter n (fun y => gadd y y) x)). { induction n as [| n IH]; intros a p x Ha; [exact Ha |]. change (good (pdul (Nat.iter n pdul a)) (cdul (Nat.iter n cdul p)) (gadd (Nat.iter n (fun y => gadd y y) x) (Nat.iter n (fun y => gadd y y) x))). apply cdul_good. apply IH. exact Ha. }
  revert Hl. generalize (last rs blank) (last qs None) (last xs gzero). induction Hr as [| r q x rs' qs' xs' R H' IH]; intros a p v Ha; [exact Ha |]. cbn [fold_left]. apply IH. apply cadd_good; [apply Hd; exact Ha | assumption].
Qed.
Lemma points_pure rs xs : Forall2 rep rs xs -> points_ok rs (map2 (fun r x => Some (r, x)) rs xs) xs.
Proof. induction 1; cbn; constructor; auto. intros a b E. injection E as <- <-. auto. Qed.
Lemma new_lanes c : lanes_ok (Z.to_nat (2 ^ c)) (zero_states_init c) (new_buckets_xyzz pnt blank c) (new_buckets_xyzz cell None c) (repeat gzero (window_num c)).
Proof.
  unfold zero_states_init, new_buckets_xyzz. induction (window_num c) as [| w IH]; cbn [repeat]; [constructor |]. apply lanes_cons with (repeat gzero (Z.to_nat (2 ^ c))); [| apply repeat_length | apply wsum_repeat | exact IH].
  clear IH. induction (Z.to_nat (2 ^ c)); cbn [repeat]; [constructor |]. apply lane_cons; [| assumption]. left. split; [reflexivity |]. split; [exists 0%nat; reflexivity | auto].
Qed.
(** missing: nothing is said when the guarded run ends with nothing, that is, when some addition of the run was not valid *)
Theorem C54_xyzz_partial : forall c ss ps (xs : list g), 0 < c -> ss <> [] -> length ps = length ss -> Forall2 rep ps xs -> Forall (fun s => 0 <= s < 2 ^ 254) ss ->
  exists bss r bss' q, msm_xyzz pnt padd pdul beq blank c ss ps (new_buckets_xyzz pnt blank c) = Some (bss, r) /\
    msm_xyzz cell cadd cdul cbeq None c ss (map2 (fun r x => Some (r, x)) ps xs) (new_buckets_xyzz cell None c) = Some (bss', q) /\
    (q <> None -> q = Some (r, msm ss xs) /\ rep r (msm ss xs)).
Proof.
  intros c ss ps xs Hc Hs Lp P HS. pose proof (Forall2_length _ _ _ P) as Lx. pose proof (window_num_spec c Hc) as HW. assert (P0 : 0 < 2 ^ c) by (apply Z.pow_pos_nonneg; lia).
  assert (G : forall (A B : Type) (X : A) (ps' : list B) n, length ps' = n -> n = length ss -> (if (c <=? 0) || (length ss =? 0)%nat || negb (length ps' =? length ss)%nat then None else Some X) = Some X). { intros A B X ps' n E1 E2. destruct (Z.leb_spec c 0); [lia |]. destruct (Nat.eqb_spec (length ss) 0); [destruct ss; [congruence | discriminate] |]. rewrite E1, E2, Nat.eqb_refl. reflexivity. }
  assert (LR : length (repeat (@gzero g) (window_num c)) = window_num c) by apply repeat_length.
  assert (D : forall s w, 0 <= slice_digit c s w < Z.of_nat (Z.to_nat (2 ^ c))) by (intros s w; rewrite Z2Nat.id by lia; apply slice_digit_range; exact Hc).
  pose proof (accumulate_ok c _ D ss ps _ xs Lp (points_pure _ _ P) _ _ _ _ (new_lanes c) (repeat_length _ _) LR) as A. set (W := window_num c) in *.
  assert (CW : length (colsum W (map2 (fun s x => contrib (digits c s W) x) ss xs)) = W) by (apply colsum_length; apply contribs_wide; intros s; unfold digits; rewrite map_length, seq_length; reflexivity).
  rewrite vadd_zero in A by exact CW. destruct (Z.to_nat (2 ^ c)) as [| n] eqn:En; [lia |]. apply reduction_ok in A. apply (merge_ok c) in A; [| lia | intros Z; rewrite Z in CW; cbn in CW; lia]. rewrite (horner_msm c W (fun s => digits c s W)) in A by (intros s; unfold digits; rewrite map_length, seq_length; reflexivity).
  assert (M : map (fun s => evaluate c (digits c s W)) ss = ss). { assert (2 ^ 254 <= 2 ^ (c * Z.of_nat W)) by (apply Z.pow_le_mono_r; lia). clear - HS H Hc. induction HS; cbn [map]; [reflexivity |]. f_equal; [unfold W in *; rewrite evaluate_digits by exact Hc; apply Z.mod_small; lia | assumption]. }
  rewrite M in A.
  do 4 eexists. split; [unfold msm_xyzz; cbv zeta; rewrite En; apply (G _ _ _ ps (length ps)); [reflexivity | exact Lp] |]. split; [unfold msm_xyzz; cbv zeta; rewrite En; apply (G _ _ _ _ (length ss)); [rewrite map2_length; lia | reflexivity] |].
  intros NQ. match goal with |- ?q = _ /\ _ => destruct q as [[a y] |] eqn:Eq; [| congruence] end. destruct (A _ _ eq_refl) as (E1 & R & ->). rewrite E1. auto.
Qed.
End Run.
Print Assumptions C54_xyzz_partial.

(** ** where the method fails: a null point is one that stands for nothing and spoils every sum it enters *)
Section Null.
Context {pnt : Type}.
Variable padd : pnt -> pnt -> pnt.
Variable pdul : pnt -> pnt.
Variable beq : pnt -> pnt -> bool.
Variable blank : pnt.
Variable null : pnt -> Prop.
Hypothesis null_blank : null blank.
Hypothesis null_add_l : forall a b, null a -> null (padd a b).
Hypothesis null_add_r : forall a b, null b -> null (padd a b).
Hypothesis null_dul : forall a, null a -> null (pdul a).
Lemma merge_null c ws : Exists null ws -> null (window_merge pnt padd pdul blank c ws).
Proof.
  intros H. unfold window_merge. assert (D : forall n a, null a -> null (Nat.iter n pdul a)) by (induction n as [| n IH]; intros a A; [exact A | change (null (pdul (Nat.iter n pdul a))); auto]).
  assert (F : forall l a, null a \/ Exists null l -> null (fold_left (fun r w => padd (Nat.iter (Z.to_nat c) pdul r) w) l a)). { induction l as [| w l IH]; intros a [A | E]; cbn [fold_left]; [exact A | inversion E | apply IH; left; auto |]. apply IH. inversion E; subst; auto. }
  apply F. assert (K : null (last ws blank) \/ Exists null (removelast ws)). { clear F. induction ws as [| w ws IH]; [inversion H |]. destruct ws as [| w' ws]; [inversion H as [? ? E | ? ? E]; subst; [left; exact E | inversion E] |]. change (last (w :: w' :: ws) blank) with (last (w' :: ws) blank). change (removelast (w :: w' :: ws)) with (w :: removelast (w' :: ws)). inversion H as [? ? E | ? ? E]; subst; [right; constructor; exact E |]. destruct (IH E) as [L | R]; [left; exact L | right; apply Exists_cons_tl; exact R]. }
  destruct K as [K | K]; [left; exact K | right]. apply Exists_exists in K. destruct K as (x & Hx & Nx). apply Exists_exists. exists x. split; [apply in_rev in Hx; exact Hx | exact Nx].
Qed.
(** a lane all of whose used buckets are null reduces to a null point *)
Lemma null_lane n rs zs : length zs = S n -> length rs = S n -> Forall (fun y => snd y = 1 \/ null (fst y)) (combine (tl rs) (tl zs)) -> null (br_zero_lane pnt padd pdul beq blank (S n) rs zs).
Proof.
  intros LZ LR H. unfold br_zero_lane. replace (S n - 1)%nat with n by lia. generalize (firstn (S n) (br_states 1 1 (rev zs))). intros st.
  assert (F : forall l a b, Forall (fun y : pnt * Z * (Z * Z) * Z => snd (fst (fst y)) = 1 \/ null (fst (fst (fst y)))) l -> null a -> null b -> null (snd (fold_left (br_zero_body pnt padd pdul beq) l (a, b)))).
  { induction l as [| [[[r z] [t w]] t1] l IH]; intros a b Hl A B; [exact B |]. pose proof (Forall_inv Hl) as H1. cbn [fst snd] in H1. apply Forall_inv_tail in Hl. cbn [fold_left br_zero_body].
    assert (A' : null (padd_with_zero pnt padd a r t z)). { unfold padd_with_zero. destruct (Z.eqb_spec z 1); [exact A |]. destruct (t =? 1); cbn [orb]; [| auto]. destruct H1 as [-> | H1]; [congruence | exact H1]. }
    apply IH; [exact Hl | exact A' |]. unfold padd_with_zero_and_pdul_check. set (a' := padd_with_zero pnt padd a r t z) in *. destruct (beq b a'); [auto |]. destruct (t1 =? 1), (w =? 1); cbn [orb]; auto. }
  apply F; [| exact null_blank | exact null_blank]. rewrite !firstn_combine.
  assert (C : forall A B (Q : A -> Prop) (l : list A) (l' : list B), Forall Q l -> Forall (fun y => Q (fst y)) (combine l l')) by (clear; intros A B Q l l' H; revert l'; induction H; intros [| y l']; cbn; constructor; auto).
  apply (C _ _ (fun y : pnt * Z * (Z * Z) => snd (fst y) = 1 \/ null (fst (fst y)))). apply (C _ _ (fun y : pnt * Z => snd y = 1 \/ null (fst y))). rewrite <- firstn_combine.
  destruct zs as [| z zs]; [discriminate |]. destruct rs as [| r rs]; [discriminate |]. injection LZ as LZ. injection LR as LR. cbn [tl] in H.
  assert (R : forall (l : list pnt) (l' : list Z), length l = length l' -> combine (rev l) (rev l') = rev (combine l l')). { clear. induction l as [| x l IH]; intros [| y l'] E; try discriminate; [reflexivity |]. injection E as E. cbn [rev combine]. rewrite <- IH by exact E. assert (L : length (rev l) = length (rev l')) by (rewrite !rev_length; exact E). revert L. generalize (rev l) (rev l'). clear. induction l as [| a l IH]; intros [| b l'] L; try discriminate; [reflexivity |]. injection L as L. cbn. rewrite IH by exact L. reflexivity. }
  rewrite R by (cbn; lia). cbn [combine rev]. rewrite firstn_app, firstn_all2 by (rewrite rev_length, combine_length; lia). rewrite rev_length, combine_length, LZ, LR, Nat.min_id, Nat.sub_diag, firstn_O, app_nil_r. apply Forall_rev. exact H.
Qed.
Lemma accumulation_length c n : forall ss ps rss zss, length rss = window_num c -> Forall (fun r => length r = n) rss -> length zss = window_num c ->
  let bss := bucket_accumulation_index pnt padd blank rss ps (map (selection_index_of c) ss) (firstn (length ss) (zero_states_list c zss ss)) in length bss = window_num c /\ Forall (fun r => length r = n) bss.
Proof.
  unfold bucket_accumulation_index. induction ss as [| s ss IH]; intros [| q ps] rss zss L F LZ; cbn [zero_states_list length firstn map combine fold_left]; try (split; assumption). apply IH.
  - unfold ba_index_body, selection_index_of. assert (M : forall A B C D (f : A -> B -> C -> D) k a b e, length a = k -> length b = k -> length e = k -> length (map3 f a b e) = k) by (clear; intros A B C D f; induction k as [| k IH]; intros [| x a] [| y b] [| z e] E1 E2 E3; try discriminate; [reflexivity |]; cbn in *; f_equal; apply IH; lia). apply M; [exact L | rewrite map_length, seq_length; reflexivity | exact LZ].
  - unfold ba_index_body. assert (U : forall rss is zs, Forall (fun r : list pnt => length r = n) rss -> Forall (fun r => length r = n) (map3 (fun bs i z => scatter bs i (padd_with_zero_alter pnt padd (gather blank bs i) q (gather 0 z i))) rss is zs)). { clear. induction rss as [| bs rss IH]; intros [| i is] [| z zs] F; try constructor. - unfold scatter. destruct (i <? _); [rewrite upd_length |]; exact (Forall_inv F). - apply IH. exact (Forall_inv_tail F). } apply U. exact F.
  - unfold zero_states_step. rewrite map2_length, seq_length. lia.
Qed.
Lemma states_unused c w : 0 < c -> forall ss zss, length zss = window_num c -> (w < window_num c)%nat -> Forall (fun s => slice_digit c s w = 0) ss ->
  length (last (zero_states_list c zss ss) []) = window_num c /\ tl (nth w (last (zero_states_list c zss ss) []) []) = tl (nth w zss []) /\ length (nth w (last (zero_states_list c zss ss) []) []) = length (nth w zss []).
Proof.
  intros Hc. induction ss as [| s ss IH]; intros zss L Hw F; [cbn; auto |]. cbn [zero_states_list]. assert (Lst : last (zss :: zero_states_list c (zero_states_step c zss s) ss) [] = last (zero_states_list c (zero_states_step c zss s) ss) []) by (destruct ss; reflexivity). rewrite Lst.
  assert (L' : length (zero_states_step c zss s) = window_num c) by (unfold zero_states_step; rewrite map2_length, seq_length; lia). destruct (IH _ L' Hw (Forall_inv_tail F)) as (A & B & C). rewrite A, B, C. split; [reflexivity |]. unfold zero_states_step. rewrite (nth_map2 _ _ _ w [] 0%nat []) by (rewrite ?seq_length; lia). rewrite seq_nth by lia. cbn [Nat.add]. pose proof (Forall_inv F) as D. cbv beta in D. rewrite D. change (Z.to_nat 0) with 0%nat. destruct (nth w zss []) as [| z l]; split; reflexivity.
Qed.
(** FINDING: when the slices of some window are zero in every scalar the result is null. That is every input whose scalars are all
    below the top window, 2^(c (W - 1)). *)
Theorem C54_xyzz_zero_window_refuted : forall c ss ps w, 0 < c -> ss <> [] -> length ps = length ss -> (w < window_num c)%nat -> Forall (fun s => slice_digit c s w = 0) ss ->
  exists bss r, msm_xyzz pnt padd pdul beq blank c ss ps (new_buckets_xyzz pnt blank c) = Some (bss, r) /\ null r.
Proof.
  intros c ss ps w Hc Hs L Hw F. assert (P0 : 0 < 2 ^ c) by (apply Z.pow_pos_nonneg; lia). unfold msm_xyzz. destruct (Z.leb_spec c 0); [lia |]. destruct (Nat.eqb_spec (length ss) 0) as [Z0 | _]; [destruct ss; [congruence | discriminate] |]. rewrite L, Nat.eqb_refl. cbn [orb negb]. do 2 eexists. split; [reflexivity |]. apply merge_null.
  assert (F0 : Forall (fun r => length r = Z.to_nat (2 ^ c)) (new_buckets_xyzz pnt blank c)) by (unfold new_buckets_xyzz; apply Forall_forall; intros r Hr; apply repeat_spec in Hr; subst r; apply repeat_length).
  destruct (accumulation_length c _ ss ps (new_buckets_xyzz pnt blank c) (zero_states_init c) (repeat_length _ _) F0 (repeat_length _ _)) as [LB FB]. destruct (states_unused c w Hc ss (zero_states_init c) (repeat_length _ _) Hw F) as (LZ & TZ & NZ).
  set (bss := bucket_accumulation_index _ _ _ _ _ _ _) in *. set (zss := last (zero_states_list c (zero_states_init c) ss) []) in *. unfold bucket_reduction_zero. apply Exists_exists. exists (nth w (map2 (br_zero_lane pnt padd pdul beq blank (Z.to_nat (2 ^ c))) bss zss) blank). split; [apply nth_In; rewrite map2_length; lia |].
  rewrite (nth_map2 _ _ _ w [] [] blank) by lia. destruct (Z.to_nat (2 ^ c)) as [| n] eqn:En; [lia |]. unfold zero_states_init in TZ, NZ. rewrite nth_repeat_lt' in TZ, NZ by exact Hw. rewrite En in TZ, NZ. apply null_lane.
  - rewrite NZ. apply repeat_length.
  - rewrite Forall_forall in FB. apply FB. apply nth_In. lia.
  - rewrite TZ. cbn [repeat tl]. generalize (tl (nth w bss [])). clear. induction n as [| n IH]; intros [| x l]; cbn; constructor; auto.
Qed.
(** FINDING: the same point twice with the same scalar gives a null result, for every scalar *)
Theorem C54_xyzz_repeated_point_refuted : forall c s P, 0 < c -> null (padd P P) -> exists bss r, msm_xyzz pnt padd pdul beq blank c [s; s] [P; P] (new_buckets_xyzz pnt blank c) = Some (bss, r) /\ null r.
Proof.
  intros c s P Hc NP. assert (P0 : 0 < 2 ^ c) by (apply Z.pow_pos_nonneg; lia). pose proof (window_num_spec c Hc) as HW. unfold msm_xyzz. destruct (Z.leb_spec c 0); [lia |]. cbn [length Nat.eqb orb negb]. do 2 eexists. split; [reflexivity |]. apply merge_null.
  assert (F0 : Forall (fun r => length r = Z.to_nat (2 ^ c)) (new_buckets_xyzz pnt blank c)) by (unfold new_buckets_xyzz; apply Forall_forall; intros r Hr; apply repeat_spec in Hr; subst r; apply repeat_length).
  destruct (accumulation_length c _ [s; s] [P; P] (new_buckets_xyzz pnt blank c) (zero_states_init c) (repeat_length _ _) F0 (repeat_length _ _)) as [LB FB]. cbn [length] in LB, FB.
  destruct (window_num c) as [| W] eqn:EW; [lia |]. destruct (Z.to_nat (2 ^ c)) as [| n] eqn:En; [lia |].
  assert (Ez : exists zs zss, last (zero_states_list c (zero_states_init c) [s; s]) [] = zs :: zss /\ length zs = S n). { cbn [zero_states_list last]. unfold zero_states_step, zero_states_init. rewrite EW, En. cbn [repeat seq map2]. do 2 eexists. split; [reflexivity |]. rewrite !upd_length. cbn. rewrite repeat_length. reflexivity. }
  destruct Ez as (zs & zss & -> & LZ). set (bss := bucket_accumulation_index _ _ _ _ _ _ _) in *.
  assert (Eb : exists rs rss, bss = rs :: rss /\ Forall null rs). { unfold bss, bucket_accumulation_index. cbn [map length zero_states_list firstn combine fold_left]. unfold ba_index_body, new_buckets_xyzz, selection_index_of, zero_states_step, zero_states_init. rewrite EW, En. cbn [repeat seq map map2 map3]. do 2 eexists. split; [reflexivity |]. set (d := slice_digit c s 0). pose proof (slice_digit_range c s 0 Hc) as D. fold d in D. assert (Hn : 0 <= d < Z.of_nat (S n)) by lia. change (1 :: repeat 1 n) with (repeat 1 (S n)). change (blank :: repeat blank n) with (repeat blank (S n)).
    unfold scatter, gather, padd_with_zero_alter. rewrite !repeat_length. destruct (Z.ltb_spec d (Z.of_nat (S n))); [| lia]. rewrite !upd_length, !repeat_length. destruct (Z.ltb_spec d (Z.of_nat (S n))); [| lia]. rewrite !Z.min_l by lia. rewrite !nth_upd_eq by (rewrite repeat_length; lia). rewrite nth_repeat_lt' by lia. cbn [Z.eqb Pos.eqb].
    assert (U : forall k (l : list pnt) x y, Forall null l -> null x -> Forall null (upd k x (upd k y l))) by (clear; induction k as [| k IH]; intros [| a l] x y F N; cbn; try constructor; try (apply Forall_inv in F; assumption); try apply Forall_inv_tail in F; auto). apply U; [| exact NP]. apply Forall_forall. intros x Hx. apply repeat_spec in Hx. subst x. exact null_blank. }
  destruct Eb as (rs & rss & Eb & NR). rewrite Eb in *. unfold bucket_reduction_zero. cbn [map2]. apply Exists_cons_hd. apply null_lane; [exact LZ | exact (Forall_inv FB) |].
  assert (NT : Forall null (tl rs)) by (destruct NR; [constructor | assumption]). revert NT. generalize (tl rs) (tl zs). clear. intros l l' F. revert l'. induction F; intros [| y l']; cbn; constructor; auto.
Qed.
End Null.
Print Assumptions C54_xyzz_zero_window_refuted. Print Assumptions C54_xyzz_repeated_point_refuted.

(** ** a concrete case: the integers, with a blank that stands for nothing and an addition that fails like the chord formula *)
Definition zadd (a b : option Z) : option Z := match a, b with Some x, Some y => if (x =? y) || (x =? - y) || (x =? 0) || (y =? 0) then None else Some (x + y) | _, _ => None end.
Definition zdul (a : option Z) : option Z := match a with Some x => if x =? 0 then None else Some (x + x) | None => None end.
Definition zbeq (a b : option Z) : bool := match a, b with Some x, Some y => x =? y | None, None => true | _, _ => false end.
Definition zaddable (x y : Z) : bool := negb ((x =? y) || (x =? - y) || (x =? 0) || (y =? 0)).
Lemma integers_partly : partly_implements (g := integers) (pnt := option Z) (fun a x => a = @Some Z x) zadd zdul zbeq None zaddable (fun x => negb (x =? 0)).
Proof.
  constructor.
  - intros a x y -> E. congruence.
  - intros a b x y O -> ->. unfold zaddable in O. unfold zadd. destruct (_ || _); [discriminate O | reflexivity].
  - intros a x O ->. unfold zdul. destruct (x =? 0); [discriminate O | reflexivity].
  - intros [x |] [y |] E; cbn in E; try discriminate; [apply Z.eqb_eq in E; congruence | reflexivity].
  - intros n a x ->. induction n as [| n IH]; [reflexivity |]. change (zbeq (zdul (Nat.iter n zdul None)) (Some x) = false). replace (Nat.iter n zdul None) with (@None Z); [reflexivity |]. clear. induction n as [| n IH]; [reflexivity |]. change (None = zdul (Nat.iter n zdul None)). rewrite <- IH. reflexivity.
Qed.
Definition ones : Z := 0x1111111111111111111111111111111111111111111111111111111111111111.
(** every window of 0x11..1 and 0x22..2 is used, and the run meets no invalid addition *)
Example C54_xyzz_example : let ss := [ones; 2 * ones; 0] in let ps := [Some 3; Some 5; Some 7] in
  exists bss, msm_xyzz _ zadd zdul zbeq None 4 ss ps (new_buckets_xyzz _ None 4) = Some (bss, Some (3 * ones + 10 * ones)).
Proof.
  intros ss ps. assert (F : Forall (fun s => 0 <= s < 2 ^ 254) ss) by (unfold ss; repeat (apply Forall_cons; [split; vm_compute; (reflexivity || discriminate) |]); apply Forall_nil).
  assert (R : Forall2 (fun a x => a = Some x) ps [3; 5; 7]) by (repeat (apply Forall2_cons; [reflexivity |]); apply Forall2_nil).
  destruct (C54_xyzz_partial (g := integers) (pnt := option Z) _ _ _ _ _ _ _ integers_partly 4 ss ps [3; 5; 7] ltac:(lia) ltac:(discriminate) eq_refl R F) as (bss & r & bss' & q & E & E' & K). exists bss. rewrite E. do 2 f_equal. destruct K as [_ K]; [| rewrite K; unfold ss; cbn [msm]; rewrite !gmul_integers; cbn [gadd gzero integers]; f_equal; ring].
  intros Q. assert (X : match msm_xyzz (option (option Z * integers)) (guarded_add (g := integers) zadd zaddable) (guarded_dul (g := integers) zdul (fun x => negb (x =? 0))) (guarded_beq (g := integers) zbeq) None 4 ss (map2 (fun r (x : integers) => Some (r, x)) ps [3; 5; 7]) (new_buckets_xyzz _ None 4) with Some (_, Some _) => true | _ => false end = true) by (vm_compute; reflexivity). rewrite E', Q in X. discriminate.
Qed.
(** two different points with the scalar 5: the upper windows are empty, and the result is nothing *)
Example C54_xyzz_zero_window_example : exists bss, msm_xyzz _ zadd zdul zbeq None 4 [5; 5] [Some 3; Some 4] (new_buckets_xyzz _ None 4) = Some (bss, None).
Proof.
  destruct (C54_xyzz_zero_window_refuted zadd zdul zbeq None (fun a => a = None) eq_refl ltac:(intros a b ->; reflexivity) ltac:(intros [a |] b ->; reflexivity) ltac:(intros a ->; reflexivity) 4 [5; 5] [Some 3; Some 4] 1 ltac:(lia) ltac:(discriminate) eq_refl ltac:(apply Nat.ltb_lt; reflexivity) ltac:(repeat (apply Forall_cons; [reflexivity |]); apply Forall_nil)) as (bss & r & E & ->). exists bss. exact E.
Qed.
Example C54_xyzz_repeated_point_example : exists bss, msm_xyzz _ zadd zdul zbeq None 4 [ones; ones] [Some 3; Some 3] (new_buckets_xyzz _ None 4) = Some (bss, None).
Proof.
  destruct (C54_xyzz_repeated_point_refuted zadd zdul zbeq None (fun a => a = None) eq_refl ltac:(intros a b ->; reflexivity) ltac:(intros [a |] b ->; reflexivity) ltac:(intros a ->; reflexivity) 4 ones (Some 3) ltac:(lia) eq_refl) as (bss & r & E & ->). exists bss. exact E.
Qed.
