(** C54: the bucket method computes s_1 P_1 + ... + s_n P_n. C55: the signed digits represent the scalar. *)
From Coq Require Import ZArith List Bool Lia.
From Verif Require Import Base.Word Base.Lists Ec.Model_pippenger Ec.Spec_pippenger Ec.Proof_pippenger.
Import ListNotations.
Local Open Scope Z_scope.

Lemma Forall2_length {A B} (R : A -> B -> Prop) l l' : Forall2 R l l' -> length l = length l'.
Proof. induction 1; cbn; congruence. Qed.
Section Run.
Context {g : abelian_group} {pnt : Type}.
Variable rep : pnt -> g -> Prop.
Variable padd : pnt -> pnt -> pnt.
Variables pdul pneg : pnt -> pnt.
Variable beq : pnt -> pnt -> bool.
Variable blank : pnt.
Hypothesis I : implements rep padd pdul beq blank.

Definition lane_rep (B : nat) (bs : list pnt) (v : g) : Prop := exists gs, Forall2 rep bs gs /\ length gs = B /\ wsum 1 gs = v.
Lemma forall2_nth : forall bs gs i, Forall2 rep bs gs -> rep (nth i bs blank) (nth i gs gzero).
Proof. intros bs gs i H. revert i. induction H; intros [| i]; cbn; try apply (rep_blank _ _ _ _ _ I); auto. Qed.
Lemma forall2_upd : forall bs gs i q x, Forall2 rep bs gs -> rep q x -> Forall2 rep (upd i q bs) (upd i x gs).
Proof. intros bs gs i q x H R. revert i. induction H; intros [| i]; cbn; constructor; auto. Qed.
(** adding m times x to the lane *)
Lemma lane_update B bs v q x m : Z.of_nat B < 2 ^ 32 -> lane_rep B bs v -> rep q x -> 0 <= m <= Z.of_nat B ->
  lane_rep B (scatter bs (to_u32 (m - 1)) (padd (gather blank bs (to_u32 (m - 1))) q)) (gadd v (gmul m x)).
Proof.
  intros HB (gs & F & L & V) R Hm. pose proof (Forall2_length _ _ _ F) as LL. unfold scatter, to_u32. rewrite LL, L. destruct (Z.eq_dec m 0) as [-> | N].
  - replace ((0 - 1) mod 2 ^ 32) with (2 ^ 32 - 1) by reflexivity. destruct (Z.ltb_spec (2 ^ 32 - 1) (Z.of_nat B)); [lia |]. exists gs. cbn [gmul]. rewrite gzero_r. auto.
  - rewrite Z.mod_small by lia. destruct (Z.ltb_spec (m - 1) (Z.of_nat B)); [| lia]. exists (upd (Z.to_nat (m - 1)) (gadd (nth (Z.to_nat (m - 1)) gs gzero) x) gs). rewrite upd_length. split; [| split; [exact L |]].
    + apply forall2_upd; [exact F |]. apply (rep_add _ _ _ _ _ I); [| exact R]. unfold gather. rewrite LL, L, Z.min_l by lia. apply forall2_nth. exact F.
    + rewrite wsum_upd by lia. rewrite V. do 2 f_equal. lia.
Qed.
(** the steps of the accumulation on values *)
Lemma map3_rel {A} (u : list pnt -> pnt -> A -> list pnt) (good : A -> Z -> Prop) B :
  (forall bs v q x i e, lane_rep B bs v -> rep q x -> good i e -> lane_rep B (u bs q i) (gadd v (gmul e x))) ->
  forall bss vs, Forall2 (lane_rep B) bss vs -> forall qs xs, Forall2 rep qs xs -> forall is es, Forall2 good is es ->
  Forall2 (lane_rep B) (map3 u bss qs is) (map2 gadd vs (map2 (fun e x => gmul e x) es xs)).
Proof. intros U bss vs H. induction H; intros qs xs Hq is es Hi; [constructor |]. destruct Hq; [destruct Hi; constructor |]. destruct Hi; [constructor |]. cbn. constructor; auto. Qed.
Lemma broadcast_rel n : forall qs xs, Forall2 rep qs xs -> Forall2 rep (broadcast_points pnt n qs) (flat_map (fun q => repeat q n) xs).
Proof. intros qs xs H. induction H as [| q x qs xs R _ IH]; [constructor |]. cbn. apply Forall2_app; [| exact IH]. clear IH. induction n; cbn; constructor; auto. Qed.
Lemma rows_rel {A B} (R : A -> B -> Prop) n : forall k l l', Forall2 R l l' -> Forall2 (Forall2 R) (rows k n l) (rows k n l').
Proof.
  assert (F : forall n l l', Forall2 R l l' -> Forall2 R (firstn n l) (firstn n l')). { intros m l l' H. revert m. induction H; intros [| m]; cbn; constructor; auto. }
  assert (S : forall n l l', Forall2 R l l' -> Forall2 R (skipn n l) (skipn n l')). { intros m l l' H. revert m. induction H; intros [| m]; cbn; auto. }
  induction k as [| k IH]; intros l l' H; cbn; constructor; auto.
Qed.
Lemma body_rel {A} (u : list pnt -> pnt -> A -> list pnt) (good : A -> Z -> Prop) B W k :
  (forall bs v q x i e, lane_rep B bs v -> rep q x -> good i e -> lane_rep B (u bs q i) (gadd v (gmul e x))) -> (0 < k)%nat ->
  forall ps xs, Forall2 (Forall2 rep) ps xs -> Forall (fun r => length r = k) xs -> forall ss es, Forall2 (Forall2 good) ss es -> Forall (fun r => length r = (W * k)%nat) es ->
  forall bss vs, Forall2 (lane_rep B) bss vs -> length vs = (k * W)%nat ->
  Forall2 (lane_rep B) (fold_left (fun bss x => map3 u bss (broadcast_points pnt (length bss / length (fst x)) (fst x)) (snd x)) (combine ps ss) bss) (fold_left (gbody W) (combine xs es) vs) .
Proof.
  intros U Hk ps xs Hp. induction Hp as [| q x ps xs R Hp IH]; intros Wk ss es Hs We bss vs Hb Lv; [exact Hb |]. destruct Hs as [| i e ss es G Hs]; [exact Hb |]. cbn [combine fold_left fst snd].
  pose proof (Forall_inv Wk) as Lx. pose proof (Forall_inv We) as Le. cbv beta in Lx, Le.
  assert (LW : (length bss / length q)%nat = W). { rewrite (Forall2_length _ _ _ Hb), (Forall2_length _ _ _ R), Lv, Lx, Nat.mul_comm. apply Nat.div_mul. lia. }
  rewrite LW. apply IH; [exact (Forall_inv_tail Wk) | exact Hs | exact (Forall_inv_tail We) | |].
  - unfold gbody. cbn [fst snd]. apply (map3_rel u good B U); [exact Hb | apply broadcast_rel; exact R | exact G].
  - unfold gbody. cbn [fst snd]. assert (FL : forall l : list g, length (flat_map (fun q => repeat q W) l) = (length l * W)%nat) by (induction l as [| ? l IHl]; cbn; [reflexivity | rewrite app_length, repeat_length, IHl; reflexivity]). rewrite !map2_length, FL, Lx, Le, Lv. nia.
Qed.
(** the reduction of one lane *)
Lemma check_rel a b x y : rep a x -> rep b y -> rep (padd_with_pdul_check pnt padd pdul beq a b) (gadd x y).
Proof.
  intros A B. unfold padd_with_pdul_check. destruct (beq a b) eqn:E; [| apply (rep_add _ _ _ _ _ I); assumption]. apply (rep_beq _ _ _ _ _ I) in E. subst b. rewrite (rep_fun _ _ _ _ _ I a y x B A). apply (rep_dul _ _ _ _ _ I). exact A.
Qed.
Lemma reduce_rel : forall bs gs, Forall2 rep bs gs -> forall t T w V, rep t T -> rep w V ->
  rep (snd (fold_left (br_body pnt padd pdul beq) bs (t, w))) (gadd (gadd V (gmul (Z.of_nat (length gs)) T)) (vsum gs)).
Proof.
  intros bs gs H. induction H as [| b x bs gs R H IH]; intros t T w V Ht Hw.
  - cbn. rewrite !gzero_r. exact Hw.
  - cbn [fold_left br_body]. assert (Ht' : rep (padd t b) (gadd T x)) by (apply (rep_add _ _ _ _ _ I); assumption). specialize (IH _ _ _ _ Ht' (check_rel _ _ _ _ Hw Ht')). replace (gadd (gadd V (gmul (Z.of_nat (length (x :: gs))) T)) (vsum (x :: gs))) with (gadd (gadd (gadd V (gadd T x)) (gmul (Z.of_nat (length gs)) (gadd T x))) (vsum gs)); [exact IH |].
    cbn [vsum length]. rewrite Nat2Z.inj_succ, !gmul_succ, gmul_add_r, <- !gadd_assoc. f_equal. f_equal. rewrite !gadd_assoc. do 2 f_equal. rewrite (gadd_comm _ x). reflexivity.
Qed.
Lemma forall2_rev {A B} (R : A -> B -> Prop) l l' : Forall2 R l l' -> Forall2 R (rev l) (rev l').
Proof. induction 1; cbn; [constructor | apply Forall2_app; [assumption | constructor; [assumption | constructor]]]. Qed.
Lemma reduction_rel B : forall bss vs, Forall2 (lane_rep B) bss vs -> Forall2 rep (bucket_reduction pnt padd pdul beq blank B bss) vs.
Proof.
  intros bss vs H. unfold bucket_reduction. induction H as [| bs v bss vs (gs & F & L & V) _ IH]; cbn [map]; constructor; [| exact IH]. pose proof (Forall2_length _ _ _ F) as LL. rewrite firstn_all2 by (rewrite rev_length; lia).
  pose proof (reduce_rel _ _ (forall2_rev _ _ _ F) _ _ _ _ (rep_blank _ _ _ _ _ I) (rep_blank _ _ _ _ _ I)) as K. rewrite gmul_zero, !gadd_zero, vsum_rev, V in K. exact K.
Qed.
Lemma map2_rel : forall a x, Forall2 rep a x -> forall b y, Forall2 rep b y -> Forall2 rep (map2 padd a b) (map2 gadd x y).
Proof. intros a x H. induction H; intros b' y' H'; [constructor |]. destruct H'; cbn; constructor; auto. apply (rep_add _ _ _ _ _ I); assumption. Qed.
Lemma batch_rel n k ws vs : Forall2 rep ws vs -> length vs = (k * n)%nat -> Forall2 rep (batch_window_summation pnt padd blank n k ws) (fold_lanes n k vs).
Proof.
  intros H L. unfold batch_window_summation. assert (E : fold_lanes n k vs = fold_left (map2 gadd) (rows k n vs) (repeat gzero n)). { rewrite (fold_colsum n) by (try apply repeat_length; apply rows_wide; exact L). unfold fold_lanes. symmetry. apply vadd_zero. apply colsum_length. apply rows_wide. exact L. }
  rewrite E. pose proof (rows_rel rep n k _ _ H) as HR. assert (H0 : Forall2 rep (repeat blank n) (repeat gzero n)) by (clear - I; induction n; cbn; [constructor |]; constructor; [apply (rep_blank _ _ _ _ _ I) | assumption]). revert H0. generalize (repeat blank n) (repeat (@gzero g) n). clear - HR I. induction HR as [| r r' rs rs' Hr HR IHR]; intros a x H0; [exact H0 |]. cbn [fold_left]. apply IHR. apply map2_rel; assumption.
Qed.
Lemma merge_rel c ws vs : 0 <= c -> Forall2 rep ws vs -> vs <> [] -> rep (window_merge pnt padd pdul blank c ws) (horner c vs).
Proof.
  intros Hc H N. rewrite <- (horner_fold c Hc vs N). unfold window_merge. assert (Hl : rep (last ws blank) (last vs gzero)). { clear N. induction H as [| a x l l' R H IH]; [apply (rep_blank _ _ _ _ _ I) |]. destruct H; [exact R | exact IH]. }
  assert (Hr : Forall2 rep (rev (removelast ws)) (rev (removelast vs))). { apply forall2_rev. clear N Hl. induction H as [| a x l l' R H IH]; [constructor |]. destruct H; [constructor |]. cbn [removelast] in *. constructor; assumption. }
  assert (Hd : forall n a x, rep a x -> rep (Nat.iter n pdul a) (Nat.iter n (fun y => gadd y y) x)). { induction n as [| n IH]; intros a x Ha; [exact Ha |]. change (rep (pdul (Nat.iter n pdul a)) (gadd (Nat.iter n (fun y => gadd y y) x) (Nat.iter n (fun y => gadd y y) x))). apply (rep_dul _ _ _ _ _ I). apply IH. exact Ha. }
  revert Hl. generalize (last ws blank) (last vs gzero). induction Hr as [| r r' rs rs' Hr0 Hr IHr]; intros a v Ha; [exact Ha |]. cbn [fold_left]. apply IHr. apply (rep_add _ _ _ _ _ I); [apply Hd; exact Ha | assumption].
Qed.
(** the whole run, for digits dig that the selection sel stands for *)
Lemma run_rel {A} (u : list pnt -> pnt -> A -> list pnt) (good : A -> Z -> Prop) (dig : Z -> list Z) (sel : list A) c B k ss (ps : list pnt) (xs : list g) bss vs :
  let W := window_num c in let n := length ss in
  (forall bs v q x i e, lane_rep B bs v -> rep q x -> good i e -> lane_rep B (u bs q i) (gadd v (gmul e x))) ->
  0 < c -> (0 < k)%nat -> length ps = n -> (n mod k = 0)%nat -> (forall s, length (dig s) = W) -> Forall2 good sel (concat (map dig ss)) ->
  Forall2 rep ps xs -> Forall2 (lane_rep B) bss vs -> length vs = (k * W)%nat ->
  let bss' := fold_left (fun bss x => map3 u bss (broadcast_points pnt (length bss / length (fst x)) (fst x)) (snd x)) (combine (reshape k ps) (reshape (W * k) sel)) bss in
  exists vs', Forall2 (lane_rep B) bss' vs' /\ length vs' = (k * W)%nat /\ horner c (fold_lanes W k vs') = gadd (horner c (fold_lanes W k vs)) (msm (map (fun s => evaluate c (dig s)) ss) xs) /\
    rep (window_merge pnt padd pdul blank c (batch_window_summation pnt padd blank W k (bucket_reduction pnt padd pdul beq blank B bss'))) (horner c (fold_lanes W k vs')).
Proof.
  intros W n U Hc Hk Lp Hn D S P Hb Lv bss'. pose proof (window_num_spec c Hc) as HW. fold W in HW. assert (W0 : (0 < W)%nat) by lia. set (m := (n / k)%nat). assert (Em : n = (m * k)%nat). { pose proof (Nat.div_mod n k ltac:(lia)). unfold m. rewrite Hn in H. lia. }
  assert (CL : forall ss : list Z, length (concat (map dig ss)) = (W * length ss)%nat). { induction ss0 as [| s ss' IH]; cbn; [lia |]. rewrite app_length, D, IH. lia. }
  assert (LS : (length sel / (W * k))%nat = m). { rewrite (Forall2_length _ _ _ S), CL. fold n. rewrite Em. replace (W * (m * k))%nat with (m * (W * k))%nat by lia. apply Nat.div_mul. nia. }
  assert (LP : (length ps / k)%nat = m) by (rewrite Lp; reflexivity).
  pose proof (Forall2_length _ _ _ P) as Lx. destruct (accumulate W k dig D m ss xs vs Em ltac:(lia) Lv) as [L' E'].
  exists (fold_left (gbody W) (combine (rows m k xs) (rows m (W * k) (concat (map dig ss)))) vs).
  assert (HB : Forall2 (lane_rep B) bss' (fold_left (gbody W) (combine (rows m k xs) (rows m (W * k) (concat (map dig ss)))) vs)).
  { unfold bss', reshape. rewrite LP, LS. apply (body_rel u good B W k U Hk); [apply rows_rel; exact P | apply rows_Forall; lia | apply rows_rel; exact S | apply rows_Forall; rewrite CL; fold n; lia | exact Hb | exact Lv]. }
  assert (LH : length (fold_lanes W k vs) = W) by (apply colsum_length; apply rows_wide; exact Lv).
  split; [exact HB |]. split; [exact L' |]. split.
  - rewrite E', horner_add, (horner_msm c W dig D); [reflexivity |]. rewrite LH. symmetry. apply colsum_length. apply contribs_wide. exact D.
  - apply merge_rel; [lia | apply batch_rel; [apply reduction_rel; exact HB | exact L'] |]. intros Z. apply (f_equal (@length _)) in Z. unfold fold_lanes in Z. rewrite colsum_length in Z by (apply rows_wide; exact L'). cbn in Z. lia.
Qed.

(** ** without signs *)
Definition good_unsigned (B : nat) (i e : Z) : Prop := 0 <= e <= Z.of_nat B /\ i = to_u32 (e - 1).
Lemma unsigned_selection c ss : 0 < c -> Forall2 (good_unsigned (Z.to_nat (2 ^ c - 1))) (map to_u32 (concat (map (ba_selection c) ss))) (concat (map (fun s => digits c s (window_num c)) ss)).
Proof.
  intros Hc. induction ss as [| s ss IH]; [constructor |]. cbn [map concat]. rewrite map_app. apply Forall2_app; [| exact IH]. unfold ba_selection, digits. induction (seq 0 (window_num c)) as [| w l IHl]; cbn [map]; constructor; [| exact IHl]. split; [| reflexivity]. pose proof (slice_digit_range c s w Hc). lia.
Qed.
Lemma new_buckets_rep B L : Forall2 (lane_rep B) (repeat (repeat blank B) L) (repeat gzero L).
Proof.
  induction L; cbn; constructor; auto. exists (repeat gzero B). split; [clear - I; induction B; cbn; [constructor |]; constructor; [apply (rep_blank _ _ _ _ _ I) | assumption] |]. split; [apply repeat_length | apply wsum_repeat].
Qed.
(** an object between runs: its buckets hold the sum of everything accumulated so far *)
Definition holds (c : Z) (k B : nat) (bss : list (list pnt)) (x : g) : Prop :=
  exists vs, Forall2 (lane_rep B) bss vs /\ length vs = (k * window_num c)%nat /\ horner c (fold_lanes (window_num c) k vs) = x.
Lemma new_holds c k B : holds c k B (repeat (repeat blank B) (k * window_num c)) gzero.
Proof. exists (repeat gzero (k * window_num c)). split; [apply new_buckets_rep |]. split; [apply repeat_length |]. rewrite fold_lanes_zero. apply horner_zero. Qed.
Lemma run_guard {A} c k n m (X : A) : 0 < c -> (0 < k)%nat -> (0 < n)%nat -> m = n -> (n mod k = 0)%nat -> (if (c <=? 0) || (k =? 0)%nat || (n =? 0)%nat || negb (m =? n)%nat || negb (n mod k =? 0)%nat then None else Some X) = Some X.
Proof. intros A1 A2 A3 -> A5. destruct (Z.leb_spec c 0); [lia |]. destruct (Nat.eqb_spec k 0); [lia |]. destruct (Nat.eqb_spec n 0); [lia |]. rewrite Nat.eqb_refl, A5. reflexivity. Qed.
Lemma unsigned_run c k ss ps (xs : list g) bss x : 0 < c <= 32 -> (0 < k)%nat -> ss <> [] -> (length ss mod k = 0)%nat -> length ps = length ss -> Forall2 rep ps xs -> holds c k (Z.to_nat (2 ^ c - 1)) bss x ->
  exists bss' r, msm_twisted pnt padd pdul beq blank c k ss ps bss = Some (bss', r) /\ holds c k (Z.to_nat (2 ^ c - 1)) bss' (gadd x (msm (map (fun s => s mod 2 ^ (c * Z.of_nat (window_num c))) ss) xs)) /\
    rep r (gadd x (msm (map (fun s => s mod 2 ^ (c * Z.of_nat (window_num c))) ss) xs)).
Proof.
  intros Hc Hk Hs Hm Lp P (vs & Hb & Lv & Hx). assert (B32 : Z.of_nat (Z.to_nat (2 ^ c - 1)) < 2 ^ 32). { assert (0 < 2 ^ c) by (apply Z.pow_pos_nonneg; lia). assert (2 ^ c <= 2 ^ 32) by (apply Z.pow_le_mono_r; lia). lia. }
  destruct (run_rel (fun bs q i => scatter bs i (padd (gather blank bs i) q)) (good_unsigned (Z.to_nat (2 ^ c - 1))) (fun s => digits c s (window_num c)) (map to_u32 (concat (map (ba_selection c) ss))) c (Z.to_nat (2 ^ c - 1)) k ss ps xs bss vs) as (vs' & H1 & H2 & H3 & H4); try assumption; try lia.
  { intros bs v q y i e L R [E ->]. apply lane_update; assumption. }
  { intros s. unfold digits. rewrite map_length, seq_length. reflexivity. }
  { apply unsigned_selection. lia. }
  rewrite Hx in H3. assert (M : map (fun s => evaluate c (digits c s (window_num c))) ss = map (fun s => s mod 2 ^ (c * Z.of_nat (window_num c))) ss) by (apply map_ext; intros s; apply evaluate_digits; lia). rewrite M in H3. rewrite H3 in H4.
  assert (Eb : forall l b, fold_left (ba_body pnt padd blank) l b = fold_left (fun bss x => map3 (fun bs q i => scatter bs i (padd (gather blank bs i) q)) bss (broadcast_points pnt (length bss / length (fst x)) (fst x)) (snd x)) l b) by (induction l as [| [? ?] l IHl]; intros b; cbn [fold_left]; [reflexivity | apply IHl]).
  do 2 eexists. split; [unfold msm_twisted; cbv zeta; apply run_guard; try assumption; try lia; destruct ss; [congruence | cbn; lia] |]. unfold bucket_accumulation. rewrite Eb. split; [| exact H4]. exists vs'. auto.
Qed.
Theorem C54_twisted : forall c k ss ps (xs : list g), 0 < c <= 32 -> (0 < k)%nat -> ss <> [] -> (length ss mod k = 0)%nat -> length ps = length ss -> Forall2 rep ps xs -> Forall (fun s => 0 <= s < 2 ^ 254) ss ->
  exists bss r, msm_twisted pnt padd pdul beq blank c k ss ps (new_buckets pnt blank c k) = Some (bss, r) /\ rep r (msm ss xs).
Proof.
  intros c k ss ps xs Hc Hk Hs Hm Lp P HS. destruct (unsigned_run c k ss ps xs _ _ Hc Hk Hs Hm Lp P (new_holds c k _)) as (bss & r & E & _ & R). exists bss, r. split; [exact E |]. rewrite gadd_zero in R.
  assert (M : map (fun s => s mod 2 ^ (c * Z.of_nat (window_num c))) ss = ss). { clear - HS Hc. pose proof (window_num_spec c ltac:(lia)) as HW. assert (2 ^ 254 <= 2 ^ (c * Z.of_nat (window_num c))) by (apply Z.pow_le_mono_r; lia). induction HS; cbn [map]; [reflexivity |]. f_equal; [apply Z.mod_small; lia | assumption]. }
  rewrite M in R. exact R.
Qed.
(** any integer scalars: they count modulo the number of values the windows hold *)
Theorem C54_twisted_any : forall c k ss ps (xs : list g), 0 < c <= 32 -> (0 < k)%nat -> ss <> [] -> (length ss mod k = 0)%nat -> length ps = length ss -> Forall2 rep ps xs ->
  exists bss r, msm_twisted pnt padd pdul beq blank c k ss ps (new_buckets pnt blank c k) = Some (bss, r) /\ rep r (msm (map (fun s => s mod 2 ^ (c * Z.of_nat (window_num c))) ss) xs).
Proof.
  intros c k ss ps xs Hc Hk Hs Hm Lp P. destruct (unsigned_run c k ss ps xs _ _ Hc Hk Hs Hm Lp P (new_holds c k _)) as (bss & r & E & _ & R). exists bss, r. rewrite gadd_zero in R. auto.
Qed.
(** FINDING: initialize does not empty the buckets, so a second run on the same object returns the sum of both problems *)
Theorem C54_reuse_refuted : forall c k ss1 ps1 (xs1 : list g) ss2 ps2 (xs2 : list g), 0 < c <= 32 -> (0 < k)%nat ->
  ss1 <> [] -> (length ss1 mod k = 0)%nat -> length ps1 = length ss1 -> Forall2 rep ps1 xs1 -> Forall (fun s => 0 <= s < 2 ^ 254) ss1 ->
  ss2 <> [] -> (length ss2 mod k = 0)%nat -> length ps2 = length ss2 -> Forall2 rep ps2 xs2 -> Forall (fun s => 0 <= s < 2 ^ 254) ss2 ->
  exists bss1 r1 bss2 r2, msm_twisted pnt padd pdul beq blank c k ss1 ps1 (new_buckets pnt blank c k) = Some (bss1, r1) /\ msm_twisted pnt padd pdul beq blank c k ss2 ps2 bss1 = Some (bss2, r2) /\ rep r2 (gadd (msm ss1 xs1) (msm ss2 xs2)).
Proof.
  intros c k ss1 ps1 xs1 ss2 ps2 xs2 Hc Hk Hs1 Hm1 Lp1 P1 HS1 Hs2 Hm2 Lp2 P2 HS2.
  assert (M : forall ss, Forall (fun s => 0 <= s < 2 ^ 254) ss -> map (fun s => s mod 2 ^ (c * Z.of_nat (window_num c))) ss = ss). { clear - Hc. intros ss HS. pose proof (window_num_spec c ltac:(lia)) as HW. assert (2 ^ 254 <= 2 ^ (c * Z.of_nat (window_num c))) by (apply Z.pow_le_mono_r; lia). induction HS; cbn [map]; [reflexivity |]. f_equal; [apply Z.mod_small; lia | assumption]. }
  destruct (unsigned_run c k ss1 ps1 xs1 _ _ Hc Hk Hs1 Hm1 Lp1 P1 (new_holds c k _)) as (bss1 & r1 & E1 & H1 & _). destruct (unsigned_run c k ss2 ps2 xs2 _ _ Hc Hk Hs2 Hm2 Lp2 P2 H1) as (bss2 & r2 & E2 & _ & R2). exists bss1, r1, bss2, r2. split; [exact E1 |]. split; [exact E2 |]. rewrite gadd_zero, !M in R2 by assumption. exact R2.
Qed.
End Run.
Print Assumptions C54_twisted. Print Assumptions C54_twisted_any. Print Assumptions C54_reuse_refuted.

(** ** a concrete case: the integers, each standing for itself *)
Definition integers : abelian_group.
Proof. refine (AG Z Z.add 0 Z.opp _ _ _ _); intros; lia. Defined.
Lemma integers_implement : implements (g := integers) (@eq Z) Z.add (fun x => x + x) Z.eqb 0.
Proof. constructor; cbn; intros; subst; try reflexivity. apply Z.eqb_eq. assumption. Qed.
Lemma gmul_integers n (x : Z) : gmul (g := integers) n x = n * x.
Proof. revert n. apply (Z.peano_ind (fun n => gmul (g := integers) n x = n * x)); [reflexivity | |]; intros n IH; [rewrite gmul_succ | rewrite gmul_pred]; cbn [gadd gopp integers]; rewrite IH; lia. Qed.
(** 2^253 + 5, a repeated point, the scalar zero, an opposite point *)
Lemma forall2_same (l : list Z) : Forall2 (@eq Z) l l. Proof. induction l; constructor; auto. Qed.
Example C54_example : let ss := [2 ^ 253 + 5; 7; 0; 7; 2 ^ 131; 1] in let ps := [3; 11; 4; 11; -3; 1000] in
  Forall (fun s => 0 <= s < 2 ^ 254) ss /\ exists bss, msm_twisted Z Z.add (fun x => x + x) Z.eqb 0 4 2 ss ps (new_buckets Z 0 4 2) = Some (bss, (2 ^ 253 + 5) * 3 + 7 * 11 + 7 * 11 - 3 * 2 ^ 131 + 1000).
Proof.
  intros ss ps. assert (F : Forall (fun s => 0 <= s < 2 ^ 254) ss) by (unfold ss; repeat (apply Forall_cons; [lia |]); apply Forall_nil). split; [exact F |].
  destruct (C54_twisted (g := integers) _ _ _ _ _ integers_implement 4 2 ss ps ps ltac:(lia) ltac:(lia) ltac:(discriminate) eq_refl eq_refl (forall2_same ps) F) as (bss & r & E & R).
  exists bss. rewrite E. do 2 f_equal. rewrite R. unfold ss, ps. cbn [msm]. rewrite !gmul_integers. cbn [gadd gzero integers]. ring.
Qed.
Example C54_reuse_example : exists bss bss', msm_twisted Z Z.add (fun x => x + x) Z.eqb 0 8 1 [9] [5] (new_buckets Z 0 8 1) = Some (bss, 45) /\ msm_twisted Z Z.add (fun x => x + x) Z.eqb 0 8 1 [2] [100] bss = Some (bss', 245).
Proof.
  assert (F : forall s, 0 <= s < 2 ^ 254 -> Forall (fun s => 0 <= s < 2 ^ 254) [s]) by (intros; apply Forall_cons; [assumption | apply Forall_nil]).
  destruct (C54_reuse_refuted (g := integers) _ _ _ _ _ integers_implement 8 1 [9] [5] [5] [2] [100] [100] ltac:(lia) ltac:(lia) ltac:(discriminate) eq_refl eq_refl (forall2_same _) (F 9 ltac:(lia)) ltac:(discriminate) eq_refl eq_refl (forall2_same _) (F 2 ltac:(lia))) as (b1 & r1 & b2 & r2 & E1 & E2 & R2).
  destruct (C54_twisted (g := integers) _ _ _ _ _ integers_implement 8 1 [9] [5] [5] ltac:(lia) ltac:(lia) ltac:(discriminate) eq_refl eq_refl (forall2_same _) (F 9 ltac:(lia))) as (b3 & r3 & E3 & R3).
  exists b1, b2. rewrite E3 in E1. assert (P : (b3, r3) = (b1, r1)) by congruence. assert (B : b3 = b1) by (exact (f_equal fst P)). rewrite E3, B, E2, R2, R3. split; reflexivity.
Qed.
