(** The list-level polynomial operations as operations of the ring Z[X]/(X^N+1) modulo 2^32. *)
From Coq Require Import ZArith List Lia Bool Setoid Morphisms Ring.
From Verif Require Import Base.ZSum Base.Modeq Base.Nega Base.Word Base.Bits.
From Verif Require Import Cggi.Model_matrix_utils Cggi.Proof_matrix_utils.
Import ListNotations.
Local Open Scope Z_scope.

(** modulus selected by a [log_modulus] argument *)
Definition qlog (L : Z) : Z := if (0 <? L) && (L <? 32) then 2 ^ L else W32.

Lemma qlog_pos L : 0 < qlog L.
Proof. unfold qlog. destruct (_ && _) eqn:E; [|lia]. apply andb_prop in E. apply pow2_pos. lia. Qed.

Lemma qlog_div L : (qlog L | W32).
Proof.
  unfold qlog. destruct (_ && _) eqn:E; [|exists 1; lia]. apply andb_prop in E. destruct E as [E1 E2].
  apply Z.ltb_lt in E1, E2. apply pow2_div_W32. lia.
Qed.

Lemma reduce_log_eqm L x y : x == y [mod W32] -> reduce_log L x == y [mod qlog L].
Proof.
  intros H. apply (eqm_weaken _ _ _ _ (qlog_div L)) in H. unfold reduce_log, qlog in *. destruct (_ && _); [rewrite eqm_mod|]; assumption.
Qed.

Lemma reduce_log_range L x : word32 x -> 0 <= reduce_log L x < qlog L.
Proof.
  unfold reduce_log, qlog. intros H. destruct (_ && _) eqn:E; [|exact H]. apply andb_prop in E.
  apply Z.mod_pos_bound, pow2_pos. lia.
Qed.

Lemma qlog_le L : qlog L <= W32.
Proof. apply Z.divide_pos_le; [lia|apply qlog_div]. Qed.

Lemma neg_if_word (c : bool) v : word32 v -> word32 (if c then u32 (- v) else v).
Proof. destruct c; [intros _; apply u32_word|auto]. Qed.

(** the wrapped rotation: entry i of X^d * p *)
Lemma rot_ext p d i : (i < length p)%nat ->
  let n := Z.of_nat (length p) in
  let D := d mod (2 * n) in
  ext (length p) p (Z.of_nat i - d) =
    (if Z.of_nat i <? D mod n then -1 else 1) * ((if (D / n) mod 2 =? 1 then -1 else 1) * nth i (roll (D mod n) p) 0).
Proof.
  intros Hi n D. assert (Hn : 0 < n) by lia.
  pose proof (Z.mod_pos_bound d (2 * n) ltac:(lia)) as HD. fold D in HD.
  pose proof (Z.div_mod d (2 * n) ltac:(lia)) as Ed. fold D in Ed.
  pose proof (Z.div_mod D n ltac:(lia)) as ED. pose proof (Z.mod_pos_bound D n Hn) as Hs.
  set (s := D mod n) in *. set (f := D / n) in *. set (k := d / (2 * n)) in *.
  assert (Hf : f = 0 \/ f = 1) by nia.
  unfold ext. fold n. rewrite roll_nth by assumption. fold n.
  assert (Em : (Z.of_nat i - d) mod n = (Z.of_nat i - s) mod n).
  { replace (Z.of_nat i - d) with (Z.of_nat i - s + (- (2 * k + f)) * n) by lia. apply Z.mod_add. lia. }
  assert (Eq : (Z.of_nat i - d) / n = (Z.of_nat i - s) / n - (2 * k + f)).
  { replace (Z.of_nat i - d) with (Z.of_nat i - s + (- (2 * k + f)) * n) by lia. rewrite Z.div_add by lia. lia. }
  rewrite Em, Eq. set (v := nth _ _ _).
  assert (Ev : forall a, Z.even (a - (2 * k + f)) = Bool.eqb (Z.even a) (Z.even f)).
  { intros a. rewrite Z.even_sub, Z.even_add, Z.even_mul. cbn. destruct (Z.even f); reflexivity. }
  rewrite Ev. clearbody v.
  destruct (Z.ltb_spec (Z.of_nat i) s).
  - replace ((Z.of_nat i - s) / n) with (-1) by (apply Z.div_unique with (Z.of_nat i - s + n); lia).
    destruct Hf as [-> | ->]; [change (0 mod 2 =? 1) with false|change (1 mod 2 =? 1) with true]; cbn [Z.even Bool.eqb]; lia.
  - replace ((Z.of_nat i - s) / n) with 0 by (symmetry; apply Z.div_small; lia).
    destruct Hf as [-> | ->]; [change (0 mod 2 =? 1) with false|change (1 mod 2 =? 1) with true]; cbn [Z.even Bool.eqb]; lia.
Qed.

Lemma neg_if_eqm (c : bool) v w : v == w [mod W32] -> (if c then u32 (- v) else v) == (if c then -1 else 1) * w [mod W32].
Proof. intros H. destruct c; [rewrite u32_eqm|]; rewrite H; apply eqm_eq; ring. Qed.

Lemma monomial_mul_length p d L : length (monomial_mul p d L) = length p.
Proof. unfold monomial_mul. rewrite map2_length, seq_length, map_length, roll_length. lia. Qed.

Lemma roll_mod k p : roll k p = roll (k mod Z.of_nat (length p)) p.
Proof.
  apply (list_eq_nth 0); [rewrite !roll_length; reflexivity|]. intros i Hi. rewrite roll_length in Hi.
  rewrite !roll_nth by assumption. rewrite Zminus_mod_idemp_r. reflexivity.
Qed.

Lemma monomial_mul_nth p d L i : (i < length p)%nat ->
  nth i (monomial_mul p d L) 0 == ext (length p) p (Z.of_nat i - d) [mod qlog L].
Proof.
  intros Hi. unfold monomial_mul. rewrite (nth_map2 _ _ _ _ O 0) by (rewrite ?seq_length, ?map_length, ?roll_length; assumption).
  rewrite seq_nth by assumption. cbn [Nat.add].
  rewrite (nth_map_lt _ _ _ _ 0) by (rewrite roll_length; assumption).
  apply reduce_log_eqm. rewrite (rot_ext p d i Hi). apply neg_if_eqm, neg_if_eqm.
  rewrite roll_mod. reflexivity.
Qed.

Lemma monomial_mul_range p d L : Forall word32 p -> Forall (fun v => 0 <= v < qlog L) (monomial_mul p d L).
Proof.
  intros Hp. apply Forall_forall. intros v Hv. apply (In_nth _ _ 0) in Hv. destruct Hv as (i & Hi & <-).
  rewrite monomial_mul_length in Hi. unfold monomial_mul.
  rewrite (nth_map2 _ _ _ _ O 0) by (rewrite ?seq_length, ?map_length, ?roll_length; assumption).
  apply reduce_log_range, neg_if_word. rewrite (nth_map_lt _ _ _ _ 0) by (rewrite roll_length; assumption).
  apply neg_if_word. rewrite roll_nth by assumption. rewrite Forall_forall in Hp. apply Hp, nth_In.
  pose proof (Z.mod_pos_bound (Z.of_nat i - d mod (2 * Z.of_nat (length p))) (Z.of_nat (length p)) ltac:(lia)). lia.
Qed.

Lemma scale_row_length pw row L : length (scale_row pw row L) = length row.
Proof. unfold scale_row. rewrite !map2_length, seq_length, map_length, roll_length. lia. Qed.

Lemma scale_row_nth p d L i : (i < length p)%nat ->
  nth i (scale_row d p L) 0 == ext (length p) p (Z.of_nat i - d) - nth i p 0 [mod qlog L].
Proof.
  intros Hi. unfold scale_row.
  rewrite (nth_map2 _ _ _ _ 0 0) by (rewrite ?map2_length, ?seq_length, ?map_length, ?roll_length; lia).
  rewrite (nth_map2 _ _ _ _ O 0) by (rewrite ?seq_length, ?map_length, ?roll_length; assumption).
  rewrite seq_nth by assumption. cbn [Nat.add].
  rewrite (nth_map_lt _ _ _ _ 0) by (rewrite roll_length; assumption).
  apply reduce_log_eqm. rewrite sub32_eqm. apply eqm_sub_mor; [|reflexivity].
  rewrite (rot_ext p d i Hi). apply neg_if_eqm, neg_if_eqm. reflexivity.
Qed.

Lemma scale_row_range p d L : Forall (fun v => 0 <= v < qlog L) (scale_row d p L).
Proof.
  apply Forall_forall. intros v Hv. apply (In_nth _ _ 0) in Hv. destruct Hv as (i & Hi & <-).
  rewrite scale_row_length in Hi. unfold scale_row.
  rewrite (nth_map2 _ _ _ _ 0 0) by (rewrite ?map2_length, ?seq_length, ?map_length, ?roll_length; lia).
  apply reduce_log_range, u32_word.
Qed.

Lemma vadd32_length a b : length (vadd32 a b) = Nat.min (length a) (length b).
Proof. apply map2_length. Qed.
Lemma vsub32_length a b : length (vsub32 a b) = Nat.min (length a) (length b).
Proof. apply map2_length. Qed.

Lemma vadd32_words a b : Forall word32 (vadd32 a b).
Proof. unfold vadd32. revert b. induction a; intros [|]; cbn; constructor; auto. apply u32_word. Qed.
Lemma vsub32_words a b : Forall word32 (vsub32 a b).
Proof. unfold vsub32. revert b. induction a; intros [|]; cbn; constructor; auto. apply u32_word. Qed.

Lemma fold_vadd_length n l : forall acc, length acc = n -> Forall (fun a => length a = n) l ->
  length (fold_left vadd32 l acc) = n.
Proof.
  induction l as [|a l IH]; intros acc Ha Hl; cbn [fold_left]; [assumption|].
  inversion_clear Hl. apply IH; [|assumption]. rewrite vadd32_length. lia.
Qed.

Lemma vsum_length n l : Forall (fun a => length a = n) l -> length (vsum n l) = n.
Proof. intros. apply fold_vadd_length; [apply repeat_length|assumption]. Qed.

Lemma fold_vadd_nth n l i : forall acc, length acc = n -> Forall (fun a => length a = n) l -> (i < n)%nat ->
  nth i (fold_left vadd32 l acc) 0 == nth i acc 0 + lsum (map (fun a => nth i a 0) l) [mod W32].
Proof.
  induction l as [|a l IH]; intros acc Ha Hl Hi; cbn [fold_left map lsum]; [apply eqm_eq; ring|].
  inversion_clear Hl. rewrite IH by (assumption || (rewrite vadd32_length; lia)).
  unfold vadd32. rewrite (nth_map2 _ _ _ _ 0 0) by lia. rewrite add32_eqm. apply eqm_eq. ring.
Qed.

Lemma vsum_nth n l i : Forall (fun a => length a = n) l -> (i < n)%nat ->
  nth i (vsum n l) 0 == lsum (map (fun a => nth i a 0) l) [mod W32].
Proof.
  intros Hl Hi. unfold vsum. rewrite (fold_vadd_nth n) by (assumption || apply repeat_length).
  rewrite nth_repeat. reflexivity.
Qed.

Lemma fold_vadd_words l : forall acc, Forall word32 acc -> Forall word32 (fold_left vadd32 l acc).
Proof. induction l as [|a l IH]; intros acc H; cbn [fold_left]; [assumption|]. apply IH, vadd32_words. Qed.

Lemma vsum_words n l : Forall word32 (vsum n l).
Proof. apply fold_vadd_words. apply Forall_forall. intros x Hx. apply repeat_spec in Hx. subst. unfold word32. lia. Qed.

Lemma map2_poly_mul_lengths N tpu v1 v2 : Forall (fun a => length a = N) v1 -> Forall (fun a => length a = N) v2 ->
  Forall (fun a => length a = N) (map2 (poly_mul tpu) v1 v2).
Proof.
  intros H1. revert v2. induction H1 as [|a v1 Ha H1 IH]; intros v2 H2; [constructor|].
  destruct H2 as [|b v2 Hb H2]; cbn; constructor; [|apply IH; assumption]. rewrite poly_mul_length; lia.
Qed.

Lemma poly_dot_length N tpu v1 v2 : Forall (fun a => length a = N) v1 -> Forall (fun a => length a = N) v2 ->
  length (poly_dot_product tpu N v1 v2) = N.
Proof. intros. apply vsum_length, map2_poly_mul_lengths; assumption. Qed.


Section Poly.
  Variable N : nat.
  Hypothesis HN : (0 < N)%nat.
  Local Notation P := (pl N HN).
  Local Notation "a ≡ b" := (peq N W32 a b) (at level 70).

  Lemma pl_poly_mul tpu a b : length a = N -> length b = N -> P (poly_mul tpu a b) ≡ pmul N (P a) (P b).
  Proof.
    intros Ha Hb. apply pl_peq_fn. intros i Hi. rewrite poly_mul_nth by lia. rewrite u32_eqm, Ha.
    rewrite <- conv_nega_coeff by lia. cbn [fn pmul pl]. rewrite conv_comm by (apply ext_antiper; assumption). reflexivity.
  Qed.

  Lemma pl_vadd a b : length a = N -> length b = N -> P (vadd32 a b) ≡ padd N (P a) (P b).
  Proof.
    intros Ha Hb. apply pl_peq_fn. intros i Hi. unfold vadd32. rewrite (nth_map2 _ _ _ _ 0 0) by lia.
    rewrite add32_eqm. cbn [fn padd pl]. rewrite !ext_nat by assumption. reflexivity.
  Qed.

  Lemma pl_vsub a b : length a = N -> length b = N -> P (vsub32 a b) ≡ psub N (P a) (P b).
  Proof.
    intros Ha Hb. apply pl_peq_fn. intros i Hi. unfold vsub32. rewrite (nth_map2 _ _ _ _ 0 0) by lia.
    rewrite sub32_eqm. cbn [fn psub pl]. rewrite !ext_nat by assumption. reflexivity.
  Qed.

  Lemma pl_vsum l : Forall (fun a => length a = N) l -> P (vsum N l) ≡ psum N (length l) (fun i => P (nth i l [])).
  Proof.
    intros Hl. apply pl_peq_fn. intros i Hi. rewrite vsum_nth by assumption. rewrite psum_fn.
    rewrite lsum_nth, map_length. apply eqm_eq. apply zsum_ext. intros j Hj.
    rewrite (nth_map_lt _ _ _ _ []) by assumption. cbn [fn pl]. rewrite ext_nat by assumption. reflexivity.
  Qed.

  Lemma pl_dot tpu v1 v2 : length v1 = length v2 -> Forall (fun a => length a = N) v1 -> Forall (fun a => length a = N) v2 ->
    P (poly_dot_product tpu N v1 v2) ≡ psum N (length v1) (fun i => pmul N (P (nth i v1 [])) (P (nth i v2 []))).
  Proof.
    intros HL H1 H2. unfold poly_dot_product. rewrite pl_vsum by (apply map2_poly_mul_lengths; assumption).
    rewrite map2_length, <- HL, Nat.min_id. apply psum_ext. intros j Hj.
    rewrite (nth_map2 _ _ _ _ [] []) by lia. rewrite Forall_forall in H1, H2.
    apply pl_poly_mul; [apply H1|apply H2]; apply nth_In; lia.
  Qed.

  Lemma pl_monomial p d L : length p = N -> ~ (0 < L < 32) -> P (monomial_mul p d L) ≡ pmul N (pmono N HN d) (P p).
  Proof.
    intros Hp HL. apply pl_peq_fn. intros i Hi. rewrite pmono_mul. cbn [fn pl].
    pose proof (monomial_mul_nth p d L i ltac:(lia)) as H. rewrite Hp in H.
    unfold qlog in H. replace ((0 <? L) && (L <? 32)) with false in H; [exact H|].
    symmetry. apply andb_false_iff. destruct (Z.ltb_spec 0 L); [|auto]. right. apply Z.ltb_ge. lia.
  Qed.

  Lemma pl_scale p d L : length p = N -> ~ (0 < L < 32) ->
    P (scale_row d p L) ≡ psub N (pmul N (pmono N HN d) (P p)) (P p).
  Proof.
    intros Hp HL. apply pl_peq_fn. intros i Hi. cbn [fn psub]. rewrite pmono_mul. cbn [fn pl].
    pose proof (scale_row_nth p d L i ltac:(lia)) as H. rewrite Hp in H. rewrite (ext_nat N p i) by assumption.
    unfold qlog in H. replace ((0 <? L) && (L <? 32)) with false in H; [exact H|].
    symmetry. apply andb_false_iff. destruct (Z.ltb_spec 0 L); [|auto]. right. apply Z.ltb_ge. lia.
  Qed.
End Poly.
