From Coq Require Import ZArith List Bool String Lia.
From Verif Require Import Base.Word Cggi.Model_encoding Cggi.Model_test_polynomial Bool.Model_lut Bool.Spec_bool.
Import ListNotations.
Local Open Scope Z_scope.

Lemma bit_value tb i : 0 <= i -> Z.shiftr (Z.land tb (Z.shiftl 1 i)) i = Z.b2z (Z.testbit tb i).
Proof.
  intros Hi. rewrite Z.shiftr_land, Z.shiftr_shiftl_l by lia. rewrite Z.sub_diag, Z.shiftl_0_r.
  rewrite Z.land_comm. change 1 with (Z.ones 1). rewrite Z.land_comm, Z.land_ones by lia. change (2 ^ 1) with 2.
  rewrite <- Z.bit0_mod, Z.shiftr_spec by lia. reflexivity.
Qed.

Lemma cleartext_length t : List.length (as_cleartext_list t) = (2 ^ num_inputs t)%nat.
Proof. unfold as_cleartext_list, values_from_lsb_to_msb. rewrite !map_length, seq_length. reflexivity. Qed.

Lemma cleartext_nth t i : (i < 2 ^ num_inputs t)%nat -> nth i (as_cleartext_list t) 2 = Z.b2z (table_entry (truth_table t) i).
Proof.
  intros Hi. unfold as_cleartext_list, values_from_lsb_to_msb. rewrite map_map.
  rewrite (nth_indep _ 2 ((fun x => (if (Z.shiftr (Z.land (truth_table t) (Z.shiftl 1 (Z.of_nat x))) (Z.of_nat x)) =? 0 then CLEARTEXT_FALSE else CLEARTEXT_TRUE)) 0%nat)) by (rewrite map_length, seq_length; exact Hi).
  rewrite (map_nth (fun x => (if (Z.shiftr (Z.land (truth_table t) (Z.shiftl 1 (Z.of_nat x))) (Z.of_nat x)) =? 0 then CLEARTEXT_FALSE else CLEARTEXT_TRUE))). rewrite seq_nth by exact Hi. rewrite Nat.add_0_l. rewrite bit_value by lia. unfold table_entry.
  destruct (Z.testbit _ _); reflexivity.
Qed.

Lemma cleartext_map t : as_cleartext_list t = map (fun i => Z.b2z (table_entry (truth_table t) i)) (seq 0 (2 ^ num_inputs t)).
Proof.
  apply (nth_ext _ _ 2 2). { rewrite cleartext_length, map_length, seq_length. reflexivity. }
  intros i Hi. rewrite cleartext_length in Hi. rewrite cleartext_nth by exact Hi.
  rewrite (nth_indep _ 2 ((fun i => Z.b2z (table_entry (truth_table t) i)) 0%nat)) by (rewrite map_length, seq_length; exact Hi).
  rewrite (map_nth (fun i => Z.b2z (table_entry (truth_table t) i))). rewrite seq_nth by exact Hi. reflexivity.
Qed.

(** from_callable *)
Lemma product_length n : List.length (product_bools n) = (2 ^ n)%nat.
Proof. induction n as [|n IH]; [reflexivity|]. cbn [product_bools]. rewrite app_length, !map_length, IH. cbn [Nat.pow]. lia. Qed.

Lemma msb_first_acc bits acc : msb_first bits acc = (acc * 2 ^ List.length bits + row bits)%nat.
Proof.
  revert acc. induction bits as [|b bits IH]; intros acc; unfold row; cbn [msb_first List.length Nat.pow]; [lia|].
  rewrite IH, (IH (2 * 0 + (if b then 1 else 0))%nat). destruct b; lia.
Qed.
Lemma row_cons b bits : row (b :: bits) = ((if b then 2 ^ List.length bits else 0) + row bits)%nat.
Proof. unfold row at 1. cbn [msb_first]. rewrite msb_first_acc. destruct b; lia. Qed.
Lemma row_lt bits : (row bits < 2 ^ List.length bits)%nat.
Proof. induction bits as [|b bits IH]; [cbn; lia|]. rewrite row_cons. cbn [List.length Nat.pow]. destruct b; lia. Qed.

Lemma product_nth bits : nth_error (product_bools (List.length bits)) (row bits) = Some bits.
Proof.
  induction bits as [|b bits IH]; [reflexivity|]. cbn [List.length product_bools]. rewrite row_cons. pose proof (row_lt bits).
  destruct b.
  - rewrite nth_error_app2 by (rewrite map_length, product_length; lia). rewrite map_length, product_length.
    replace (2 ^ List.length bits + row bits - 2 ^ List.length bits)%nat with (row bits) by lia.
    rewrite nth_error_map, IH. reflexivity.
  - cbn [Nat.add]. rewrite nth_error_app1 by (rewrite map_length, product_length; lia). rewrite nth_error_map, IH. reflexivity.
Qed.

Definition cstep (fn : list bool -> bool) (acc : Z * Z) (input_bits : list bool) : Z * Z :=
  (Z.lor (fst acc) (Z.shiftl (Z.b2z (fn input_bits)) (snd acc)), snd acc + 1).

Lemma b2z_shiftl_bit b k j : 0 <= k -> 0 <= j -> Z.testbit (Z.shiftl (Z.b2z b) k) j = (k =? j) && b.
Proof.
  intros Hk Hj. rewrite Z.shiftl_spec by lia. destruct (Z.eqb_spec k j) as [->|Hne].
  - rewrite Z.sub_diag. destruct b; reflexivity.
  - destruct (Z.ltb_spec j k).
    + rewrite Z.testbit_neg_r by lia. reflexivity.
    + destruct b; cbn [Z.b2z andb]; [|apply Z.bits_0].
      replace (j - k) with (Z.succ (j - k - 1)) by lia. change 1 with (2 * 0 + 1). rewrite Z.testbit_odd_succ by lia. apply Z.bits_0.
Qed.

Lemma cstep_bits fn l : forall a k j, 0 <= k -> 0 <= j ->
  Z.testbit (fst (fold_left (cstep fn) l (a, k))) j =
  Z.testbit a j || (if (k <=? j) && (j <? k + Z.of_nat (List.length l)) then match nth_error l (Z.to_nat (j - k)) with Some x => fn x | None => false end else false).
Proof.
  induction l as [|x l IH]; intros a k j Hk Hj; cbn [fold_left List.length].
  - cbn [fst]. destruct (Z.leb_spec k j), (Z.ltb_spec j (k + Z.of_nat 0)); cbn [andb]; try lia; rewrite orb_false_r; reflexivity.
  - unfold cstep at 2. cbn [fst snd]. rewrite IH by lia. rewrite Z.lor_spec, b2z_shiftl_bit by lia.
    destruct (Z.testbit a j); [reflexivity|]. cbn [orb].
    destruct (Z.eqb_spec k j) as [->|Hne].
    + replace (Z.to_nat (j - j)) with 0%nat by lia. cbn [nth_error].
      destruct (Z.leb_spec (j + 1) j); [lia|]. cbn [andb]. destruct (Z.leb_spec j j); [|lia].
      destruct (Z.ltb_spec j (j + Z.of_nat (S (List.length l)))); [|lia]. cbn [andb]. apply orb_false_r.
    + cbn [andb orb]. destruct (Z.leb_spec (k + 1) j) as [H1|H1]; cbn [andb].
      * destruct (Z.leb_spec k j); [|lia]. cbn [andb].
        replace (k + Z.of_nat (S (List.length l))) with (k + 1 + Z.of_nat (List.length l)) by lia.
        replace (Z.to_nat (j - k)) with (S (Z.to_nat (j - (k + 1)))) by lia. reflexivity.
      * destruct (Z.leb_spec k j); [lia|]. reflexivity.
Qed.

Lemma from_callable_bits n fn j : 0 <= j ->
  Z.testbit (truth_table (from_callable n fn)) j =
  if j <? 2 ^ Z.of_nat n then match nth_error (product_bools n) (Z.to_nat j) with Some x => fn x | None => false end else false.
Proof.
  intros Hj. unfold from_callable. cbn [truth_table]. change (fun acc input_bits => _) with (cstep fn).
  rewrite cstep_bits by lia. rewrite Z.bits_0. cbn [orb]. rewrite Z.sub_0_r, Z.add_0_l, product_length, Nat2Z.inj_pow.
  destruct (Z.leb_spec 0 j); [|lia]. reflexivity.
Qed.

Lemma from_callable_entry bits fn : table_entry (truth_table (from_callable (List.length bits) fn)) (row bits) = fn bits.
Proof.
  unfold table_entry. rewrite from_callable_bits by lia. pose proof (row_lt bits).
  destruct (Z.ltb_spec (Z.of_nat (row bits)) (2 ^ Z.of_nat (List.length bits))) as [_|H0].
  - rewrite Nat2Z.id, product_nth. reflexivity.
  - change 2 with (Z.of_nat 2) in H0. rewrite <- Nat2Z.inj_pow in H0. lia.
Qed.
Lemma from_callable_nonneg n fn : 0 <= truth_table (from_callable n fn).
Proof.
  unfold from_callable. cbn [truth_table]. change (fun acc input_bits => _) with (cstep fn).
  assert (H : forall l a k, 0 <= k -> 0 <= a -> 0 <= fst (fold_left (cstep fn) l (a, k))).
  { induction l as [|x l IH]; intros a k Hk Ha; cbn [fold_left]; [exact Ha|]. unfold cstep at 2. cbn [fst snd]. apply IH; [lia|].
    apply Z.lor_nonneg. split; [exact Ha|]. apply Z.shiftl_nonneg. destruct (fn x); cbn; lia. }
  apply H; lia.
Qed.
Lemma from_callable_range n fn : 0 <= truth_table (from_callable n fn) < 2 ^ (2 ^ Z.of_nat n).
Proof.
  pose proof (from_callable_nonneg n fn) as H0. split; [exact H0|].
  set (T := truth_table (from_callable n fn)) in *. set (M := 2 ^ Z.of_nat n). assert (HM : 0 < M) by (apply Z.pow_pos_nonneg; lia).
  destruct (Z.eq_dec T 0) as [E|E]; [rewrite E; apply Z.pow_pos_nonneg; lia|].
  apply Z.log2_lt_pow2; [lia|]. destruct (Z.lt_ge_cases (Z.log2 T) M) as [|HG]; [assumption|exfalso].
  pose proof (Z.bit_log2 T ltac:(lia)) as B. unfold T in B at 1. rewrite from_callable_bits in B by lia. fold M in B.
  destruct (Z.ltb_spec (Z.log2 T) M); [lia|discriminate].
Qed.

Lemma padded_spec t : (num_inputs t <= 3)%nat ->
  exists l, padded_coefficients t = Some l /\ List.length l = 8%nat /\
    (forall i, (i < 2 ^ num_inputs t)%nat -> nth i l 0 = Z.b2z (table_entry (truth_table t) i)) /\
    (forall i, (2 ^ num_inputs t <= i < 8)%nat -> nth i l 0 = 2) /\ Forall (fun c => 0 <= c <= 2 ^ (3 + 1)) l.
Proof.
  intros Hn. unfold padded_coefficients. rewrite cleartext_length. change (message_bits ENCODING_PARAMS) with 3.
  assert (HP : (2 ^ num_inputs t <= 8)%nat) by (change 8%nat with (2 ^ 3)%nat; apply Nat.pow_le_mono_r; lia).
  set (m := (2 ^ num_inputs t)%nat) in *.
  change (2 ^ 3) with 8. destruct (Z.ltb_spec (8 - Z.of_nat m) 0); [lia|]. eexists. split; [reflexivity|].
  replace (Z.to_nat (8 - Z.of_nat m)) with (8 - m)%nat by lia.
  pose proof (cleartext_length t) as HL. fold m in HL. repeat split.
  - rewrite app_length, repeat_length, HL. lia.
  - intros i Hi. rewrite app_nth1 by lia. rewrite (nth_indep _ 0 2) by lia. apply cleartext_nth. exact Hi.
  - intros i Hi. rewrite app_nth2 by lia. rewrite HL. rewrite (nth_indep _ 0 2) by (rewrite repeat_length; lia). apply nth_repeat.
  - apply Forall_app. split.
    + rewrite cleartext_map. apply Forall_forall. intros z Hz. apply in_map_iff in Hz. destruct Hz as (i & <- & _). destruct (table_entry _ _); cbn; lia.
    + apply Forall_forall. intros z Hz. apply repeat_spec in Hz. subst. unfold CLEARTEXT_UNUSED. change (2 ^ (3 + 1)) with 16. lia.
Qed.
Lemma padded_none t : (3 < num_inputs t)%nat -> padded_coefficients t = None.
Proof.
  intros Hn. unfold padded_coefficients. rewrite cleartext_length. change (message_bits ENCODING_PARAMS) with 3. change (2 ^ 3) with 8.
  assert (HP : (16 <= 2 ^ num_inputs t)%nat) by (change 16%nat with (2 ^ 4)%nat; apply Nat.pow_le_mono_r; lia).
  set (m := (2 ^ num_inputs t)%nat) in *. destruct (Z.ltb_spec (8 - Z.of_nat m) 0); [reflexivity|lia].
Qed.

(** ** the cache *)
Section Lru.
  Context {K V : Type} (eqb : K -> K -> bool) (Heqb : forall a b, eqb a b = true -> a = b).
  Lemma lru_find_in k (c : list (K * V)) v : lru_find eqb k c = Some v -> In (k, v) c.
  Proof using Heqb.
    induction c as [|[k' v'] c IH]; cbn [lru_find]; [discriminate|]. destruct (eqb k k') eqn:E.
    - apply Heqb in E. subst. injection 1 as <-. left. reflexivity.
    - intros H. right. apply IH, H.
  Qed.
  Lemma lru_touch_in k (v : V) c e : In e (lru_touch eqb k v c) -> e = (k, v) \/ In e c.
  Proof using.
    unfold lru_touch. intros H.
    assert (H' : In e ((k, v) :: lru_remove eqb k c)).
    { rewrite <- (firstn_skipn LRU_MAXSIZE). apply in_or_app. left. exact H. }
    destruct H' as [<-|H']; [left; reflexivity|right]. unfold lru_remove in H'. apply filter_In in H'. exact (proj1 H').
  Qed.
End Lru.

Lemma lut_key_eqb_eq a b : lut_key_eqb a b = true -> a = b.
Proof.
  unfold lut_key_eqb. rewrite !andb_true_iff. intros (((H1 & H2) & H3) & H4). destruct a, b. cbn in *.
  apply Nat.eqb_eq in H1, H3. apply eqb_prop in H2. apply Z.eqb_eq in H4. congruence.
Qed.
Lemma sp_eqb_eq a b : sp_eqb a b = true -> a = b.
Proof.
  unfold sp_eqb. rewrite !andb_true_iff. intros (((H1 & H2) & H3) & H4). destruct a, b. cbn in *.
  apply Nat.eqb_eq in H1, H3, H4. apply Z.eqb_eq in H2. congruence.
Qed.
Lemma poly_key_eqb_eq a b : poly_key_eqb a b = true -> a = b.
Proof. unfold poly_key_eqb. rewrite andb_true_iff. destruct a, b. cbn. intros [H1 H2]. apply Nat.eqb_eq in H1. apply sp_eqb_eq in H2. congruence. Qed.

Record cache_ok (tpu : Z) (st : cache_state) : Prop := {
  ok_lut : forall k obj, In (k, obj) (lut_lru st) ->
    (obj < List.length (heap st))%nat /\ table_of st obj = {| num_inputs := lk_inputs k; truth_table := lk_table k |};
  ok_poly : forall obj sp v, In ((obj, sp), v) (poly_lru st) ->
    (obj < List.length (heap st))%nat /\ as_rlwe_test_polynomial tpu sp (table_of st obj) = Some v }.

Lemma cache_ok_empty tpu : cache_ok tpu empty_cache.
Proof. split; cbn; contradiction. Qed.

Lemma table_of_app st t obj : (obj < List.length (heap st))%nat ->
  nth obj (heap st ++ [t]) {| num_inputs := 0; truth_table := 0 |} = table_of st obj.
Proof. intros H. unfold table_of. apply app_nth1. exact H. Qed.

Lemma cached_lut_ok tpu c kw n tb st obj st' : cache_ok tpu st -> cached_lut c kw n tb st = (obj, st') ->
  cache_ok tpu st' /\ (obj < List.length (heap st'))%nat /\ table_of st' obj = {| num_inputs := n; truth_table := tb |} /\ caches st' = caches st.
Proof.
  intros [H1 H2]. unfold cached_lut. set (key := {| lk_cache := c; lk_kw := kw; lk_inputs := n; lk_table := tb |}).
  destruct (lru_find lut_key_eqb key (lut_lru st)) as [o|] eqn:E.
  - injection 1 as <- <-. apply (lru_find_in _ lut_key_eqb_eq) in E. destruct (H1 _ _ E) as [L T].
    split; [|split; [exact L|split; [exact T|reflexivity]]]. constructor; cbn [heap caches lut_lru poly_lru].
    + intros k ob Hin. apply lru_touch_in in Hin. destruct Hin as [Hin|Hin]; [|apply (H1 _ _ Hin)]. injection Hin as -> ->. split; [exact L|exact T].
    + intros ob sp v Hin. apply (H2 _ _ _ Hin).
  - cbn [find fst snd]. rewrite Nat.eqb_refl, Z.eqb_refl. cbn [andb snd]. injection 1 as <- <-.
    match goal with |- cache_ok _ ?s /\ _ => set (s1 := s) end.
    assert (TO : forall o, (o < List.length (heap st))%nat -> table_of s1 o = table_of st o) by (intros o Ho; apply table_of_app; exact Ho).
    assert (TN : table_of s1 (List.length (heap st)) = {| num_inputs := n; truth_table := tb |}).
    { unfold table_of, s1. cbn [heap]. rewrite app_nth2, Nat.sub_diag by lia. reflexivity. }
    assert (LN : List.length (heap s1) = S (List.length (heap st))) by (unfold s1; cbn [heap]; rewrite app_length; cbn; lia).
    split; [|split; [lia|split; [exact TN|reflexivity]]]. constructor.
    + intros k ob Hin. rewrite LN. unfold s1 in Hin. cbn [lut_lru] in Hin. apply lru_touch_in in Hin. destruct Hin as [Hin|Hin].
      * injection Hin as -> ->. split; [lia|exact TN].
      * destruct (H1 _ _ Hin) as [L T]. split; [lia|]. rewrite TO by exact L. exact T.
    + intros ob sp v Hin. rewrite LN. destruct (H2 _ _ _ Hin) as [L T]. split; [lia|]. rewrite TO by exact L. exact T.
Qed.

Lemma cached_poly_ok tpu obj sp st r st' : cache_ok tpu st -> (obj < List.length (heap st))%nat -> cached_poly tpu obj sp st = (r, st') ->
  cache_ok tpu st' /\ r = as_rlwe_test_polynomial tpu sp (table_of st obj) /\ caches st' = caches st.
Proof.
  intros [H1 H2] Ho. unfold cached_poly.
  assert (HT : forall v, as_rlwe_test_polynomial tpu sp (table_of st obj) = Some v -> 
    cache_ok tpu {| heap := heap st; caches := caches st; test_poly_cache := test_poly_cache st; lut_lru := lut_lru st;
                    poly_lru := lru_touch poly_key_eqb (obj, sp) v (poly_lru st) |}).
  { intros v Hv. constructor; cbn [heap caches lut_lru poly_lru].
    - intros k ob Hin. apply (H1 _ _ Hin).
    - intros ob sp' v' Hin. apply lru_touch_in in Hin. destruct Hin as [Hin|Hin]; [|apply (H2 _ _ _ Hin)]. injection Hin as -> -> ->. split; [exact Ho|exact Hv]. }
  destruct (lru_find poly_key_eqb (obj, sp) (poly_lru st)) as [v|] eqn:E.
  - injection 1 as <- <-. apply (lru_find_in _ poly_key_eqb_eq) in E. destruct (H2 _ _ _ E) as [L T].
    split; [apply HT; exact T|]. rewrite T. split; reflexivity.
  - fold (table_of st obj). destruct (as_rlwe_test_polynomial tpu sp (table_of st obj)) as [v|] eqn:EV.
    + injection 1 as <- <-. split; [apply HT; reflexivity|]. split; reflexivity.
    + injection 1 as <- <-. split; [constructor; assumption|]. split; reflexivity.
Qed.

(** what a LutCache with parameters [sps] answers when nothing is cached *)
Definition fresh_answer (tpu : Z) (sps : list scheme_params) (r : request) : response :=
  let poly o := match o with Some m => Poly m | None => Raised end in
  match r with
  | NewCache _ => Unit
  | RLut _ _ n tb => Table {| num_inputs := n; truth_table := tb |}
  | RLutByName _ name => match lut_by_name name with Some t => Table t | None => Raised end
  | RLutPoly c n tb => poly (lut_poly tpu (nth c sps sp0) n tb)
  | RLutPolyByName c name => poly (lut_poly_by_name tpu (nth c sps sp0) name)
  end.
Definition sps_after (sps : list scheme_params) (r : request) : list scheme_params :=
  match r with NewCache sp => sps ++ [sp] | _ => sps end.

Lemma serve_ok tpu r st a st' : cache_ok tpu st -> serve tpu r st = (a, st') ->
  cache_ok tpu st' /\ a = fresh_answer tpu (caches st) r /\ caches st' = sps_after (caches st) r.
Proof.
  intros H. destruct r as [sp|c kw n tb|c name|c n tb|c name]; cbn [serve fresh_answer sps_after].
  - injection 1 as <- <-. destruct H as [H1 H2]. split; [constructor; [exact H1|exact H2]|]. split; reflexivity.
  - destruct (cached_lut c kw n tb st) as [obj st1] eqn:E. injection 1 as <- <-. apply (cached_lut_ok tpu) in E; [|exact H].
    destruct E as (E1 & E2 & E3 & E4). rewrite E3. auto.
  - unfold lut_by_name. destruct (dict_get name FUNC_NAME_TO_LUT2) as [t|]; [|injection 1 as <- <-; auto].
    destruct (cached_lut c true 2 (truth_table t) st) as [obj st1] eqn:E. injection 1 as <- <-. apply (cached_lut_ok tpu) in E; [|exact H].
    destruct E as (E1 & E2 & E3 & E4). rewrite E3. auto.
  - destruct (cached_lut c false n tb st) as [obj st1] eqn:E. apply (cached_lut_ok tpu) in E; [|exact H]. destruct E as (E1 & E2 & E3 & E4).
    unfold poly_response. destruct (cached_poly tpu obj (nth c (caches st1) sp0) st1) as [o st2] eqn:EP. cbn [fst snd]. injection 1 as <- <-.
    apply (cached_poly_ok tpu) in EP; [|exact E1|exact E2]. destruct EP as (P1 & P2 & P3). rewrite P2, E3, E4, P3. unfold lut_poly. auto.
  - unfold lut_poly_by_name, lut_by_name. destruct (dict_get name FUNC_NAME_TO_LUT2) as [t|]; [|injection 1 as <- <-; auto].
    destruct (cached_lut c true 2 (truth_table t) st) as [obj st1] eqn:E. apply (cached_lut_ok tpu) in E; [|exact H]. destruct E as (E1 & E2 & E3 & E4).
    unfold poly_response. destruct (cached_poly tpu obj (nth c (caches st1) sp0) st1) as [o st2] eqn:EP. cbn [fst snd]. injection 1 as <- <-.
    apply (cached_poly_ok tpu) in EP; [|exact E1|exact E2]. destruct EP as (P1 & P2 & P3). rewrite P2, E3, E4, P3. auto.
Qed.

Fixpoint fresh_answers (tpu : Z) (sps : list scheme_params) (rs : list request) : list response :=
  match rs with
  | [] => []
  | r :: rest => fresh_answer tpu sps r :: fresh_answers tpu (sps_after sps r) rest
  end.

Lemma serve_all_ok tpu rs : forall st, cache_ok tpu st -> fst (serve_all tpu rs st) = fresh_answers tpu (caches st) rs.
Proof.
  induction rs as [|r rs IH]; intros st H; cbn [serve_all fresh_answers]; [reflexivity|].
  destruct (serve tpu r st) as [a st1] eqn:E. apply serve_ok in E; [|exact H]. destruct E as (E1 & E2 & E3).
  specialize (IH st1 E1). destruct (serve_all tpu rs st1) as [l st2]. cbn [fst] in *. rewrite E2, IH, E3. reflexivity.
Qed.

Lemma serve_all_state tpu rs : forall st, cache_ok tpu st -> cache_ok tpu (snd (serve_all tpu rs st)).
Proof.
  induction rs as [|r rs IH]; intros st H; cbn [serve_all]; [exact H|].
  destruct (serve tpu r st) as [a st1] eqn:E. apply serve_ok in E; [|exact H]. destruct E as (E1 & _ & _).
  specialize (IH st1 E1). destruct (serve_all tpu rs st1) as [l st2]. exact IH.
Qed.

Lemma cache_transparent tpu history r :
  let st := snd (serve_all tpu history empty_cache) in
  fst (serve tpu r st) = fst (serve tpu r {| heap := []; caches := caches st; test_poly_cache := []; lut_lru := []; poly_lru := [] |}).
Proof.
  intros st. pose proof (serve_all_state tpu history empty_cache (cache_ok_empty tpu)) as H. fold st in H.
  set (st0 := {| heap := []; caches := caches st; test_poly_cache := []; lut_lru := []; poly_lru := [] |}).
  assert (H0 : cache_ok tpu st0) by (split; cbn; contradiction).
  destruct (serve tpu r st) as [a s1] eqn:E1. destruct (serve tpu r st0) as [b s2] eqn:E2.
  apply serve_ok in E1; [|exact H]. apply serve_ok in E2; [|exact H0]. destruct E1 as (_ & -> & _), E2 as (_ & -> & _). reflexivity.
Qed.
