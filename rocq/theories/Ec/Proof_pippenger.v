(** The bucket method over an abelian group. *)
From Coq Require Import ZArith List Bool Lia.
From Verif Require Import Base.Word Base.Lists Ec.Model_pippenger Ec.Spec_pippenger.
Import ListNotations.
Local Open Scope Z_scope.

Section Group.
Context {g : abelian_group}.
Implicit Types x y z : g.
Lemma gzero_r x : gadd x gzero = x. Proof. rewrite gadd_comm. apply gadd_zero. Qed.
Lemma gopp_l x : gadd (gopp x) x = gzero. Proof. rewrite gadd_comm. apply gadd_opp. Qed.
Lemma gadd_cancel x y z : gadd x y = gadd x z -> y = z.
Proof. intros E. rewrite <- (gadd_zero _ y), <- (gadd_zero _ z), <- (gopp_l x), <- !gadd_assoc, E. reflexivity. Qed.
Lemma gadd_swap x y z : gadd x (gadd y z) = gadd y (gadd x z).
Proof. rewrite !gadd_assoc, (gadd_comm _ x y). reflexivity. Qed.
Lemma gadd_4 x y z w : gadd (gadd x y) (gadd z w) = gadd (gadd x z) (gadd y w).
Proof. rewrite <- !gadd_assoc. f_equal. apply gadd_swap. Qed.
Lemma gopp_unique x y : gadd x y = gzero -> y = gopp x.
Proof. intros E. apply (gadd_cancel x). rewrite E, gadd_opp. reflexivity. Qed.
Lemma gopp_zero : gopp (gzero : g) = gzero. Proof. symmetry. apply gopp_unique. apply gadd_zero. Qed.
Lemma gopp_add x y : gopp (gadd x y) = gadd (gopp x) (gopp y).
Proof. symmetry. apply gopp_unique. rewrite gadd_4, !gadd_opp. apply gadd_zero. Qed.
Lemma gmul_succ n x : gmul (Z.succ n) x = gadd x (gmul n x).
Proof.
  destruct n as [| n | n].
  - reflexivity.
  - cbn [Z.succ Z.add gmul]. rewrite Pos.add_1_r, Pos.iter_succ. reflexivity.
  - destruct (Pos.eq_dec n 1) as [-> | N]; [cbn; rewrite gzero_r, gadd_opp; reflexivity |]. replace (Z.succ (Zneg n)) with (Zneg (Pos.pred n)) by lia. cbn [gmul]. rewrite <- (Pos.succ_pred n N) at 2. rewrite Pos.iter_succ, gopp_add, gadd_assoc, gadd_opp, gadd_zero. reflexivity.
Qed.
Lemma gmul_pred n x : gmul (Z.pred n) x = gadd (gopp x) (gmul n x).
Proof. rewrite <- (Z.succ_pred n) at 2. rewrite gmul_succ, gadd_assoc, gopp_l, gadd_zero. reflexivity. Qed.
Lemma gmul_1 x : gmul 1 x = x. Proof. cbn. apply gzero_r. Qed.
Lemma gmul_add_l n m x : gmul (n + m) x = gadd (gmul n x) (gmul m x).
Proof.
  revert n. apply (Z.peano_ind (fun n => gmul (n + m) x = gadd (gmul n x) (gmul m x))).
  - cbn [gmul]. rewrite gadd_zero. reflexivity.
  - intros n IH. rewrite Z.add_succ_l, !gmul_succ, IH. apply gadd_assoc.
  - intros n IH. rewrite Z.add_pred_l, !gmul_pred, IH. apply gadd_assoc.
Qed.
Lemma gmul_add_r n x y : gmul n (gadd x y) = gadd (gmul n x) (gmul n y).
Proof.
  revert n. apply (Z.peano_ind (fun n => gmul n (gadd x y) = gadd (gmul n x) (gmul n y))).
  - cbn [gmul]. rewrite gadd_zero. reflexivity.
  - intros n IH. rewrite !gmul_succ, IH. apply gadd_4.
  - intros n IH. rewrite !gmul_pred, IH, gopp_add. apply gadd_4.
Qed.
Lemma gmul_zero n : gmul n (gzero : g) = gzero.
Proof. apply (gadd_cancel (gmul n gzero)). rewrite <- gmul_add_r, gadd_zero, gzero_r. reflexivity. Qed.
Lemma gmul_mul n m x : gmul (n * m) x = gmul n (gmul m x).
Proof.
  revert n. apply (Z.peano_ind (fun n => gmul (n * m) x = gmul n (gmul m x))).
  - reflexivity.
  - intros n IH. rewrite Z.mul_succ_l, gmul_add_l, gmul_succ, IH. apply gadd_comm.
  - intros n IH. rewrite Z.mul_pred_l, gmul_pred, <- IH. unfold Z.sub. rewrite gmul_add_l, gadd_comm. f_equal. apply gopp_unique. rewrite <- gmul_add_l, Z.add_opp_diag_r. reflexivity.
Qed.
Lemma gmul_opp n x : gmul n (gopp x) = gmul (- n) x.
Proof.
  apply (gadd_cancel (gmul n x)). rewrite <- gmul_add_r, gadd_opp, gmul_zero, <- gmul_add_l, Z.add_opp_diag_r. reflexivity.
Qed.
Lemma gmul_double n x : Nat.iter n (fun y => gadd y y) x = gmul (2 ^ Z.of_nat n) x.
Proof.
  induction n as [| n IH]; [cbn; rewrite gzero_r; reflexivity |]. transitivity (gadd (Nat.iter n (fun y => gadd y y) x) (Nat.iter n (fun y => gadd y y) x)); [reflexivity |]. rewrite IH. replace (2 ^ Z.of_nat (S n)) with (2 ^ Z.of_nat n + 2 ^ Z.of_nat n) by (rewrite Nat2Z.inj_succ, Z.pow_succ_r by lia; lia). rewrite gmul_add_l. reflexivity.
Qed.
Lemma gsum_cons x (a : list g) : gsum (x :: a) = gadd x (gsum a). Proof. reflexivity. Qed.
Lemma gsum_app (a b : list g) : gsum (a ++ b) = gadd (gsum a) (gsum b).
Proof. induction a as [| x a IH]; [symmetry; apply gadd_zero |]. cbn [app]. rewrite !gsum_cons, IH. apply gadd_assoc. Qed.
Lemma gsum_rev (a : list g) : gsum (rev a) = gsum a.
Proof. induction a as [| x a IH]; [reflexivity |]. cbn [rev]. rewrite gsum_app, IH, !gsum_cons. cbn [gsum fold_right]. rewrite gzero_r. apply gadd_comm. Qed.

(** ** weighted sums: bucket number k counts k times *)
Fixpoint wsum (k : Z) (l : list g) : g := match l with [] => gzero | x :: r => gadd (gmul k x) (wsum (k + 1) r) end.
Lemma wsum_shift : forall l k, wsum (k + 1) l = gadd (wsum k l) (gsum l).
Proof.
  induction l as [| x l IH]; intros k; cbn [wsum gsum fold_right]; [rewrite gadd_zero; reflexivity |]. change (fold_right gadd gzero l) with (gsum l). rewrite (IH (k + 1)), gmul_add_l, gmul_1. apply gadd_4.
Qed.
Lemma wsum_upd : forall l k i x, (i < length l)%nat -> wsum k (upd i (gadd (nth i l gzero) x) l) = gadd (wsum k l) (gmul (k + Z.of_nat i) x).
Proof.
  induction l as [| y l IH]; intros k i x H; [cbn in H; lia |]. destruct i as [| i].
  - cbn [upd nth wsum]. rewrite gmul_add_r, Z.add_0_r, <- !gadd_assoc. f_equal. apply gadd_comm.
  - cbn [upd nth wsum]. rewrite IH by (cbn in H; lia). rewrite gadd_assoc. do 2 f_equal. lia.
Qed.
Lemma wsum_repeat n : forall k, wsum k (repeat gzero n) = gzero.
Proof. induction n as [| n IH]; intros k; [reflexivity |]. cbn [repeat wsum]. rewrite IH, gmul_zero. apply gadd_zero. Qed.
(** the running sums of the reduction *)
Fixpoint vsum (l : list g) : g := match l with [] => gzero | x :: r => gadd (gmul (Z.of_nat (length l)) x) (vsum r) end.
Lemma vsum_app : forall l x, vsum (l ++ [x]) = gadd (vsum l) (gadd (gsum l) x).
Proof.
  induction l as [| y l IH]; intros x; [cbn; rewrite !gadd_zero, !gzero_r; reflexivity |]. cbn [app vsum gsum fold_right]. change (fold_right gadd gzero l) with (gsum l). rewrite IH. cbn [length]. rewrite app_length. cbn [length]. replace (Z.of_nat (S (length l + 1))) with (Z.of_nat (S (length l)) + 1) by lia. rewrite gmul_add_l, gmul_1, <- !gadd_assoc. f_equal. rewrite gadd_swap. reflexivity.
Qed.
Lemma vsum_rev : forall l, vsum (rev l) = wsum 1 l.
Proof.
  induction l as [| x l IH]; [reflexivity |]. cbn [rev wsum]. rewrite vsum_app, IH, gsum_rev, wsum_shift, gmul_1, gadd_assoc. apply gadd_comm.
Qed.

(** ** vectors *)
Notation vadd := (map2 (@gadd g)).
Lemma vadd_comm : forall u v : list g, vadd u v = vadd v u.
Proof. induction u as [| x u IH]; intros [| y v]; cbn; try reflexivity. rewrite gadd_comm, IH. reflexivity. Qed.
Lemma vadd_assoc : forall u v w : list g, vadd u (vadd v w) = vadd (vadd u v) w.
Proof. induction u as [| x u IH]; intros [| y v] [| z w]; cbn; try reflexivity. rewrite gadd_assoc, IH. reflexivity. Qed.
Lemma vadd_zero : forall n (u : list g), length u = n -> vadd (repeat gzero n) u = u.
Proof. induction n as [| n IH]; intros [| x u] H; cbn in *; try lia; [reflexivity |]. rewrite gadd_zero, IH by lia. reflexivity. Qed.
Lemma vadd_length n (u v : list g) : length u = n -> length v = n -> length (vadd u v) = n.
Proof. intros A B. rewrite map2_length. lia. Qed.
Definition colsum (n : nat) (L : list (list g)) : list g := fold_right vadd (repeat gzero n) L.
Definition wide (n : nat) (L : list (list g)) : Prop := Forall (fun v => length v = n) L.
Lemma colsum_length n L : wide n L -> length (colsum n L) = n.
Proof. induction 1; cbn; [apply repeat_length | apply vadd_length; assumption]. Qed.
Lemma colsum_app n L L' : wide n L -> wide n L' -> colsum n (L ++ L') = vadd (colsum n L) (colsum n L').
Proof.
  intros H H'. induction H as [| v L E _ IH]; cbn [app colsum fold_right]; [symmetry; apply vadd_zero; apply (colsum_length n L' H') |]. fold (colsum n (L ++ L')) (colsum n L). rewrite IH. apply vadd_assoc.
Qed.
Lemma fold_colsum n : forall L u, length u = n -> wide n L -> fold_left vadd L u = vadd u (colsum n L).
Proof.
  induction L as [| v L IH]; intros u E H; [cbn; rewrite vadd_comm, vadd_zero by assumption; reflexivity |]. pose proof (Forall_inv H) as Hv. apply Forall_inv_tail in H. cbn [fold_left colsum fold_right]. fold (colsum n L). rewrite IH by (try apply vadd_length; assumption). symmetry. apply vadd_assoc.
Qed.
Lemma vadd_4 (a b c e : list g) : vadd (vadd a b) (vadd c e) = vadd (vadd a c) (vadd b e).
Proof. rewrite <- !vadd_assoc. f_equal. rewrite !vadd_assoc, (vadd_comm b c). reflexivity. Qed.

Lemma rows_map2 n : forall k (u v : list g), rows k n (vadd u v) = map2 vadd (rows k n u) (rows k n v).
Proof.
  assert (F : forall n (u v : list g), firstn n (vadd u v) = vadd (firstn n u) (firstn n v)). { induction n0 as [| m IH]; intros [| x u] [| y v]; cbn; rewrite ?map2_nil_r, ?IH; reflexivity. }
  assert (S : forall n (u v : list g), skipn n (vadd u v) = vadd (skipn n u) (skipn n v)). { induction n0 as [| m IH]; intros [| x u] [| y v]; cbn; rewrite ?map2_nil_r, ?IH; reflexivity. }
  induction k as [| k IH]; intros u v; [reflexivity |]. cbn [rows map2]. rewrite F, S, IH. reflexivity.
Qed.
Lemma colsum_map2 n : forall L L', wide n L -> wide n L' -> length L = length L' -> colsum n (map2 vadd L L') = vadd (colsum n L) (colsum n L').
Proof.
  induction L as [| u L IH]; intros [| v L'] H H' E; cbn in E; try lia; [cbn; rewrite vadd_zero by apply repeat_length; reflexivity |]. apply Forall_inv_tail in H, H'. cbn [map2 colsum fold_right]. fold (colsum n (map2 vadd L L')) (colsum n L) (colsum n L'). rewrite IH by (assumption || lia). apply vadd_4.
Qed.
Lemma rows_wide n : forall k (u : list g), length u = (k * n)%nat -> wide n (rows k n u).
Proof. intros k u H. apply rows_Forall. exact H. Qed.
(** folding the lanes back to one batch *)
Definition fold_lanes (n k : nat) (v : list g) : list g := colsum n (rows k n v).
Lemma fold_lanes_add n k u v : length u = (k * n)%nat -> length v = (k * n)%nat -> fold_lanes n k (vadd u v) = vadd (fold_lanes n k u) (fold_lanes n k v).
Proof. intros A B. unfold fold_lanes. rewrite rows_map2. apply colsum_map2; [apply rows_wide; assumption .. | rewrite !rows_length; reflexivity]. Qed.
Lemma rows_repeat (x : g) n : forall k, rows k n (repeat x (k * n)) = repeat (repeat x n) k.
Proof.
  induction k as [| k IH]; [reflexivity |]. cbn [rows repeat Nat.mul]. rewrite repeat_app. rewrite firstn_app, repeat_length, Nat.sub_diag, firstn_O, app_nil_r, firstn_all2 by (rewrite repeat_length; lia). rewrite skipn_app, repeat_length, Nat.sub_diag, skipn_O, skipn_all2 by (rewrite repeat_length; lia). cbn [app]. rewrite IH. reflexivity.
Qed.
Lemma fold_lanes_zero n k : fold_lanes n k (repeat gzero (k * n)) = repeat gzero n.
Proof. unfold fold_lanes. rewrite rows_repeat. induction k as [| k IH]; [reflexivity |]. cbn [repeat colsum fold_right]. fold (colsum n (repeat (repeat gzero n) k)). rewrite IH. apply vadd_zero. apply repeat_length. Qed.

(** ** one step of the accumulation, and all of them *)
Definition contrib (ds : list Z) (x : g) : list g := map (fun e => gmul e x) ds.
Definition gbody (n : nat) (vs : list g) (row : list g * list Z) : list g := vadd vs (map2 (fun e x => gmul e x) (snd row) (flat_map (fun q => repeat q n) (fst row))).
Lemma map2_repeat n : forall (ds : list Z) (x : g), length ds = n -> map2 (fun e y => gmul e y) ds (repeat x n) = contrib ds x.
Proof. induction n as [| n IH]; intros [| e ds] x H; cbn in *; try lia; [reflexivity |]. f_equal. apply IH. lia. Qed.
Lemma row_contrib n (dig : Z -> list Z) : (forall s, length (dig s) = n) -> forall (ss : list Z) (xs : list g), length xs = length ss ->
  map2 (fun e x => gmul e x) (concat (map dig ss)) (flat_map (fun q => repeat q n) xs) = concat (map2 (fun s x => contrib (dig s) x) ss xs).
Proof.
  intros D. induction ss as [| s ss IH]; intros [| x xs] E; cbn in E; try lia; [reflexivity |]. cbn [map concat flat_map map2]. rewrite map2_app by (rewrite D, repeat_length; reflexivity). rewrite IH by lia. rewrite (map2_repeat n) by apply D. reflexivity.
Qed.
Lemma contribs_wide n (dig : Z -> list Z) : (forall s, length (dig s) = n) -> forall ss (xs : list g), wide n (map2 (fun s x => contrib (dig s) x) ss xs).
Proof. intros D. induction ss as [| s ss IH]; intros [| x xs]; cbn; constructor; [unfold contrib; rewrite map_length; apply D | apply IH]. Qed.
Lemma rows_concat n : forall (L : list (list g)), wide n L -> rows (length L) n (concat L) = L.
Proof.
  induction 1 as [| v L E _ IH]; [reflexivity |]. cbn [length rows concat]. rewrite firstn_app, E, Nat.sub_diag, firstn_O, app_nil_r, firstn_all2 by lia. rewrite skipn_app, E, Nat.sub_diag, skipn_O, skipn_all2 by lia. cbn [app]. rewrite IH. reflexivity.
Qed.
Lemma map2_firstn {A B C} (f : A -> B -> C) : forall k a b, map2 f (firstn k a) (firstn k b) = firstn k (map2 f a b).
Proof. induction k as [| k IH]; intros [| x a] [| y b]; cbn; rewrite ?map2_nil_r, ?IH; reflexivity. Qed.
Lemma map2_skipn {A B C} (f : A -> B -> C) : forall k a b, map2 f (skipn k a) (skipn k b) = skipn k (map2 f a b).
Proof. induction k as [| k IH]; intros [| x a] [| y b]; cbn; rewrite ?map2_nil_r, ?IH; reflexivity. Qed.
Lemma accumulate n k (dig : Z -> list Z) : (forall s, length (dig s) = n) -> forall m ss (xs : list g) vs, length ss = (m * k)%nat -> length xs = (m * k)%nat -> length vs = (k * n)%nat ->
  let vs' := fold_left (gbody n) (combine (rows m k xs) (rows m (n * k) (concat (map dig ss)))) vs in
  length vs' = (k * n)%nat /\ fold_lanes n k vs' = vadd (fold_lanes n k vs) (colsum n (map2 (fun s x => contrib (dig s) x) ss xs)).
Proof.
  intros D. assert (CL : forall ss : list Z, length (concat (map dig ss)) = (n * length ss)%nat). { induction ss as [| s ss IH]; cbn; [lia |]. rewrite app_length, D, IH. lia. }
  induction m as [| m IH]; intros ss xs vs Es Ex Ev.
  - destruct ss; [| cbn in Es; lia]. cbn. split; [exact Ev |]. rewrite vadd_comm, vadd_zero; [reflexivity |]. apply colsum_length. apply rows_wide. exact Ev.
  - cbn [rows combine fold_left]. assert (Es1 : length (firstn k ss) = k) by (rewrite firstn_length; lia). assert (Ex1 : length (firstn k xs) = k) by (rewrite firstn_length; lia).
    assert (SP : concat (map dig ss) = concat (map dig (firstn k ss)) ++ concat (map dig (skipn k ss))) by (rewrite <- concat_app, <- map_app, firstn_skipn; reflexivity).
    assert (F1 : firstn (n * k) (concat (map dig ss)) = concat (map dig (firstn k ss))). { rewrite SP, firstn_app, (firstn_all2 (concat (map dig (firstn k ss)))) by (rewrite CL, Es1; lia). rewrite CL, Es1, Nat.sub_diag, firstn_O, app_nil_r. reflexivity. }
    assert (F2 : skipn (n * k) (concat (map dig ss)) = concat (map dig (skipn k ss))). { rewrite SP, skipn_app, (skipn_all2 (concat (map dig (firstn k ss)))) by (rewrite CL, Es1; lia). rewrite CL, Es1, Nat.sub_diag, skipn_O. reflexivity. }
    rewrite F1, F2. set (C := map2 (fun s x => contrib (dig s) x) (firstn k ss) (firstn k xs)).
    assert (GB : gbody n vs (firstn k xs, concat (map dig (firstn k ss))) = vadd vs (concat C)). { unfold gbody. cbn [fst snd]. rewrite row_contrib by (assumption || lia). reflexivity. }
    assert (CW : wide n C) by (apply contribs_wide; exact D). assert (Ck : length C = k) by (unfold C; rewrite map2_length; lia).
    assert (CC : length (concat C) = (k * n)%nat). { rewrite (concat_length_const C n CW), Ck. reflexivity. }
    rewrite GB. destruct (IH (skipn k ss) (skipn k xs) (vadd vs (concat C))) as [L1 L2]; [rewrite skipn_length; lia | rewrite skipn_length; lia | apply vadd_length; assumption |]. split; [exact L1 |]. rewrite L2. rewrite fold_lanes_add by assumption. rewrite map2_skipn.
    assert (FC : fold_lanes n k (concat C) = colsum n C) by (unfold fold_lanes; rewrite <- Ck at 1; rewrite (rows_concat n C CW); reflexivity). rewrite FC, <- vadd_assoc. f_equal.
    rewrite <- (firstn_skipn k (map2 (fun s x => contrib (dig s) x) ss xs)) at 2. unfold C. rewrite map2_firstn. symmetry. apply colsum_app; apply Forall_forall; intros v Hv; apply (proj1 (Forall_forall _ _) (contribs_wide n dig D ss xs)).
    + rewrite <- (firstn_skipn k). apply in_or_app. left. exact Hv.
    + rewrite <- (firstn_skipn k). apply in_or_app. right. exact Hv.
Qed.

(** ** merging the windows *)
Fixpoint horner (c : Z) (ws : list g) : g := match ws with [] => gzero | x :: r => gadd x (gmul (2 ^ c) (horner c r)) end.
Lemma horner_add c : forall u v, length u = length v -> horner c (vadd u v) = gadd (horner c u) (horner c v).
Proof.
  induction u as [| x u IH]; intros [| y v] E; cbn in E; try lia; [cbn; rewrite gadd_zero; reflexivity |]. cbn [map2 horner]. rewrite IH by lia. rewrite gmul_add_r. apply gadd_4.
Qed.
Lemma horner_zero c n : horner c (repeat gzero n) = gzero.
Proof. induction n as [| n IH]; [reflexivity |]. cbn [repeat horner]. rewrite IH, gmul_zero. apply gadd_zero. Qed.
Fixpoint evaluate (c : Z) (ds : list Z) : Z := match ds with [] => 0 | e :: r => e + 2 ^ c * evaluate c r end.
Lemma horner_contrib c x : forall ds, horner c (contrib ds x) = gmul (evaluate c ds) x.
Proof. induction ds as [| e ds IH]; [reflexivity |]. cbn [contrib map horner evaluate]. fold (contrib ds x). rewrite IH, gmul_add_l, gmul_mul. reflexivity. Qed.
Lemma horner_msm c n (dig : Z -> list Z) : (forall s, length (dig s) = n) -> forall ss (xs : list g),
  horner c (colsum n (map2 (fun s x => contrib (dig s) x) ss xs)) = msm (map (fun s => evaluate c (dig s)) ss) xs.
Proof.
  intros D. induction ss as [| s ss IH]; intros [| x xs]; try (cbn; apply horner_zero). cbn [map2 map msm colsum fold_right]. fold (colsum n (map2 (fun s x => contrib (dig s) x) ss xs)). rewrite horner_add, IH, horner_contrib; [reflexivity |]. rewrite colsum_length by (apply contribs_wide; exact D). unfold contrib. rewrite map_length. apply D.
Qed.
Lemma horner_fold c : 0 <= c -> forall ws, ws <> [] -> fold_left (fun r w => gadd (Nat.iter (Z.to_nat c) (fun y => gadd y y) r) w) (rev (removelast ws)) (last ws gzero) = horner c ws.
Proof.
  intros Hc. induction ws as [| x ws IH]; intros H; [congruence |]. destruct ws as [| y ws].
  - cbn. rewrite gmul_zero. symmetry. apply gzero_r.
  - change (removelast (x :: y :: ws)) with (x :: removelast (y :: ws)). change (last (x :: y :: ws) gzero) with (last (y :: ws) gzero). cbn [rev]. rewrite fold_left_app, IH by discriminate. cbn [fold_left]. rewrite gmul_double, Z2Nat.id by exact Hc. cbn [horner]. apply gadd_comm.
Qed.
End Group.

(** ** digits *)
Lemma slice_digit_spec c s w : 0 < c -> slice_digit c s w = (s / 2 ^ (Z.of_nat w * c)) mod 2 ^ c.
Proof.
  intros Hc. unfold slice_digit. rewrite Z.shiftr_div_pow2 by lia. replace (2 ^ c - 1) with (Z.ones c) by (rewrite Z.ones_equiv; lia). apply Z.land_ones. lia.
Qed.
Lemma slice_digit_range c s w : 0 < c -> 0 <= slice_digit c s w < 2 ^ c.
Proof. intros Hc. rewrite slice_digit_spec by exact Hc. apply Z.mod_pos_bound. apply Z.pow_pos_nonneg; lia. Qed.
Definition digits (c s : Z) (W : nat) : list Z := map (slice_digit c s) (seq 0 W).
Lemma digits_cons c s W : 0 < c -> digits c s (S W) = s mod 2 ^ c :: digits c (s / 2 ^ c) W.
Proof.
  intros Hc. unfold digits. cbn [seq map]. f_equal; [rewrite slice_digit_spec, Z.mul_0_l, Z.pow_0_r, Z.div_1_r by exact Hc; reflexivity |]. rewrite <- seq_shift, map_map. apply map_ext. intros w. rewrite !slice_digit_spec by exact Hc. rewrite Z.div_div by (try apply Z.pow_pos_nonneg; try apply Z.pow_nonzero; lia). rewrite <- Z.pow_add_r by lia. do 3 f_equal. lia.
Qed.
Lemma evaluate_digits c : 0 < c -> forall W s, evaluate c (digits c s W) = s mod 2 ^ (c * Z.of_nat W).
Proof.
  intros Hc. assert (P : 0 < 2 ^ c) by (apply Z.pow_pos_nonneg; lia). induction W as [| W IH]; intros s; [cbn [digits seq map evaluate]; rewrite Z.mul_0_r, Z.mod_1_r; reflexivity |].
  rewrite digits_cons by exact Hc. cbn [evaluate]. rewrite IH. replace (c * Z.of_nat (S W)) with (c + c * Z.of_nat W) by lia. rewrite Z.pow_add_r by lia. rewrite Z.rem_mul_r; [reflexivity | lia | apply Z.pow_pos_nonneg; lia].
Qed.
Lemma window_num_spec c : 0 < c -> 254 <= c * Z.of_nat (window_num c) < 254 + c.
Proof.
  intros Hc. unfold window_num. rewrite Z2Nat.id by (apply Z.div_pos; lia). pose proof (Z.div_mod (254 + c - 1) c ltac:(lia)). pose proof (Z.mod_pos_bound (254 + c - 1) c Hc). lia.
Qed.
