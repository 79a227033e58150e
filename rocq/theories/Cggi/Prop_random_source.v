(** C57: what the random sources return, over any history of calls. *)
From Coq Require Import ZArith List Bool Lia.
From Verif Require Import Base.ZSum Base.Lists Cggi.Model_random_source Cggi.Spec_random_source.
Import ListNotations.
Local Open Scope Z_scope.

Lemma fold_mul l a : fold_left Z.mul l a = a * size l.
Proof. revert a. induction l as [|d l IH]; intros a; cbn [fold_left size]; [lia | rewrite IH; ring]. Qed.
Lemma num_elements_size shape : num_elements shape = size shape.
Proof. unfold num_elements. rewrite fold_mul. lia. Qed.
Lemma size_nonneg shape : valid_shape shape -> 0 <= size shape.
Proof. induction 1; cbn [size]; [lia | nia]. Qed.
Lemma valid_shape_test shape : existsb (fun d => d <? 0) shape = false <-> valid_shape shape.
Proof.
  unfold valid_shape. induction shape as [|d l IH]; cbn [existsb]; [split; [constructor | reflexivity] |]. rewrite orb_false_iff, IH, Z.ltb_ge. split; [intros [? ?]; constructor; assumption | intros H; inversion H; subst; tauto].
Qed.
Lemma draws_spec {S} (gen : S -> Z * S) n s : length (fst (draws gen n s)) = n /\ snd (draws gen n s) = state_after gen n s /\ forall k, (k < n)%nat -> nth k (fst (draws gen n s)) 0 = stream gen s k.
Proof.
  revert s. induction n as [|n IH]; intros s; cbn [draws state_after]; [repeat split; intros; lia |]. destruct (gen s) as [v s1] eqn:E. specialize (IH s1). cbn [snd]. destruct (draws gen n s1) as [l s2]. cbn [fst snd length] in *. destruct IH as (L & ST & K). split; [lia |]. split; [exact ST |].
  intros [|k] Hk; unfold stream; cbn [nth state_after]; rewrite E; [reflexivity |]. cbn [snd]. rewrite K by lia. reflexivity.
Qed.
Lemma state_after_add {S} (gen : S -> Z * S) a b s : state_after gen (a + b) s = state_after gen b (state_after gen a s).
Proof. revert s. induction a as [|a IH]; intros s; cbn [Nat.add state_after]; [reflexivity | apply IH]. Qed.
Lemma stream_add {S} (gen : S -> Z * S) s a k : stream gen s (a + k) = stream gen (state_after gen a s) k.
Proof. unfold stream. rewrite state_after_add. reflexivity. Qed.
Lemma unsigned_in_range dt v : unsigned dt = true -> 0 <= bits dt -> in_range dt (normalize_value v dt) = true.
Proof. intros U B. unfold in_range, normalize_value. rewrite U. pose proof (Z.mod_pos_bound v (2 ^ bits dt) ltac:(apply Z.pow_pos_nonneg; lia)). apply andb_true_iff. split; [apply Z.leb_le | apply Z.ltb_lt]; lia. Qed.

(** every unsigned dtype: no value raises; the array holds the next values of the stream reduced modulo 2^bits, in order, and exactly as
    many values are consumed as the array has elements *)
Theorem C57_unsigned_stream {S} (gen : S -> Z * S) shape dt s : valid_shape shape -> unsigned dt = true -> 0 <= bits dt ->
  exists l, shape_generator gen shape dt s = (Some l, state_after gen (Z.to_nat (size shape)) s) /\ Z.of_nat (length l) = size shape /\
    forall k, (k < length l)%nat -> nth k l 0 = stream gen s k mod 2 ^ bits dt.
Proof.
  intros V U B. unfold shape_generator. rewrite (proj2 (valid_shape_test shape) V), num_elements_size. destruct (draws_spec gen (Z.to_nat (size shape)) s) as (L & ST & K). destruct (draws gen (Z.to_nat (size shape)) s) as [l s']. cbn [fst snd] in *. subst s'.
  exists (map (fun v => normalize_value v dt) l). split; [| rewrite map_length; split; [pose proof (size_nonneg shape V); lia |]].
  - replace (forallb _ _) with true; [reflexivity |]. symmetry. apply forallb_forall. intros x Hx. apply in_map_iff in Hx. destruct Hx as (v & <- & _). apply unsigned_in_range; assumption.
  - intros k Hk. rewrite (nth_map_lt _ l k 0 0) by exact Hk. rewrite K by lia. unfold normalize_value. rewrite U. reflexivity.
Qed.
Print Assumptions C57_unsigned_stream.
(** signed dtypes: the values are unchanged when they all fit and the call raises when one does not *)
Theorem C57_signed_stream {S} (gen : S -> Z * S) shape dt s : valid_shape shape -> unsigned dt = false ->
  ((forall k, Z.of_nat k < size shape -> - 2 ^ (bits dt - 1) <= stream gen s k < 2 ^ (bits dt - 1)) ->
    exists l, shape_generator gen shape dt s = (Some l, state_after gen (Z.to_nat (size shape)) s) /\ Z.of_nat (length l) = size shape /\ forall k, (k < length l)%nat -> nth k l 0 = stream gen s k) /\
  ((exists k, Z.of_nat k < size shape /\ ~ (- 2 ^ (bits dt - 1) <= stream gen s k < 2 ^ (bits dt - 1))) -> fst (shape_generator gen shape dt s) = None).
Proof.
  intros V U. unfold shape_generator. rewrite (proj2 (valid_shape_test shape) V), num_elements_size. destruct (draws_spec gen (Z.to_nat (size shape)) s) as (L & ST & K). destruct (draws gen (Z.to_nat (size shape)) s) as [l s']. cbn [fst snd] in *. subst s'. pose proof (size_nonneg shape V) as SN.
  replace (map (fun v => normalize_value v dt) l) with l by (unfold normalize_value; rewrite U; symmetry; apply map_id). assert (R : forall v, in_range dt v = true <-> - 2 ^ (bits dt - 1) <= v < 2 ^ (bits dt - 1)) by (intros v; unfold in_range; rewrite U, andb_true_iff, Z.leb_le, Z.ltb_lt; reflexivity). split.
  - intros F. exists l. split; [| split; [lia | intros k Hk; apply K; lia]]. replace (forallb _ _) with true; [reflexivity |]. symmetry. apply forallb_forall. intros x Hx. apply (In_nth _ _ 0) in Hx. destruct Hx as (k & Hk & <-). rewrite K by lia. apply R. apply F. lia.
  - intros (k & Hk & NF). destruct (forallb (in_range dt) l) eqn:E; [| reflexivity]. exfalso. apply NF. rewrite forallb_forall in E. rewrite <- R, <- K by lia. apply E. apply nth_In. lia.
Qed.
Print Assumptions C57_signed_stream.
(** a negative dimension raises before anything is drawn *)
Theorem C57_negative_dimension {S} (gen : S -> Z * S) shape dt s : ~ valid_shape shape -> shape_generator gen shape dt s = (None, s).
Proof. intros V. unfold shape_generator. destruct (existsb _ shape) eqn:E; [reflexivity |]. exfalso. apply V. apply valid_shape_test. exact E. Qed.
Print Assumptions C57_negative_dimension.

(** any history: the arrays returned by any sequence of calls, one after the other, are one stretch of the stream: nothing is skipped or used twice *)
Definition total (shapes : list (list Z)) : Z := lsum (map size shapes).
Theorem C57_history {S} (gen : S -> Z * S) dt shapes s : Forall valid_shape shapes -> unsigned dt = true -> 0 <= bits dt ->
  exists ls, calls (fun sh => shape_generator gen sh dt) shapes s = (map Some ls, state_after gen (Z.to_nat (total shapes)) s) /\ map (fun l => Z.of_nat (length l)) ls = map size shapes /\
    forall k, (k < length (concat ls))%nat -> nth k (concat ls) 0 = stream gen s k mod 2 ^ bits dt.
Proof.
  intros F U B. revert s. induction F as [|sh shapes V F IH]; intros s; [exists []; split; [reflexivity | split; [reflexivity | intros k Hk; cbn in Hk; lia]] |].
  destruct (C57_unsigned_stream gen sh dt s V U B) as (l & E & L & K). destruct (IH (state_after gen (Z.to_nat (size sh)) s)) as (ls & E2 & L2 & K2). exists (l :: ls). cbn [calls map]. rewrite E, E2. pose proof (size_nonneg sh V) as SN.
  assert (TN : 0 <= total shapes) by (clear - F; unfold total; induction F as [|a r H _ IHF]; cbn [map lsum]; [lia | pose proof (size_nonneg a H); lia]).
  split; [| split; [f_equal; assumption |]].
  - f_equal. unfold total. cbn [map lsum]. fold (total shapes). rewrite Z2Nat.inj_add by lia. symmetry. apply state_after_add.
  - intros k Hk. cbn [concat]. destruct (Nat.lt_ge_cases k (length l)) as [H|H]; [rewrite app_nth1 by exact H; apply K; exact H |]. rewrite app_nth2 by exact H. cbn [concat] in Hk. rewrite app_length in Hk. rewrite K2 by lia.
    f_equal. rewrite <- stream_add. f_equal. lia.
Qed.
Print Assumptions C57_history.

(** secret keys are binary for every source whose randint(0, 1) is 0 or 1, whatever the dtype (at least 1 bit, or 2 when signed) *)
Theorem C57_secret_keys_binary {S} (randint : Z -> Z -> S -> Z * S) shape dt s : valid_shape shape -> (forall s, 0 <= fst (randint 0 1 s) <= 1) -> (if unsigned dt then 1 <= bits dt else 2 <= bits dt) ->
  exists l s', rng_sk_uniform randint shape dt s = (Some l, s') /\ Z.of_nat (length l) = size shape /\ Forall (fun v => v = 0 \/ v = 1) l.
Proof.
  intros V R B. unfold rng_sk_uniform. destruct (unsigned dt) eqn:U.
  - destruct (C57_unsigned_stream (randint 0 1) shape dt s V U ltac:(lia)) as (l & E & L & K). exists l, (state_after (randint 0 1) (Z.to_nat (size shape)) s). split; [exact E |]. split; [exact L |]. apply Forall_forall. intros x Hx. apply (In_nth _ _ 0) in Hx. destruct Hx as (k & Hk & <-).
    rewrite (K k Hk). assert (Q := R (state_after (randint 0 1) k s)). assert (2 ^ 1 <= 2 ^ bits dt) by (apply Z.pow_le_mono_r; lia). unfold stream. rewrite Z.mod_small by lia. lia.
  - assert (2 ^ 1 <= 2 ^ (bits dt - 1)) by (apply Z.pow_le_mono_r; lia). destruct (C57_signed_stream (randint 0 1) shape dt s V U) as [G _]. destruct G as (l & E & L & K); [intros k _; unfold stream; pose proof (R (state_after (randint 0 1) k s)); lia |].
    exists l, (state_after (randint 0 1) (Z.to_nat (size shape)) s). split; [exact E |]. split; [exact L |]. apply Forall_forall. intros x Hx. apply (In_nth _ _ 0) in Hx. destruct Hx as (k & Hk & <-). rewrite (K k Hk). unfold stream. pose proof (R (state_after (randint 0 1) k s)). lia.
Qed.
Print Assumptions C57_secret_keys_binary.

(** CycleRng: the k-th value of the object's whole life is digit k modulo the period of a fixed binary string *)
Lemma bin_digits_binary p : forall low, Forall (fun v => v = 0 \/ v = 1) low -> Forall (fun v => v = 0 \/ v = 1) (bin_digits p low).
Proof. induction p; intros low H; cbn [bin_digits]; [apply IHp | apply IHp |]; constructor; auto. Qed.
Lemma bin_digits_nonempty p : forall low, (0 < length (bin_digits p low))%nat.
Proof. induction p; intros low; cbn [bin_digits]; [apply IHp | apply IHp | cbn [length]; lia]. Qed.
(** the digits from the top have the value of the number: the model of bin(n)[2:] is the binary representation *)
Lemma bin_digits_value p : forall low, fold_left (fun a d => 2 * a + d) (bin_digits p low) 0 = fold_left (fun a d => 2 * a + d) low (Zpos p).
Proof. induction p; intros low; cbn [bin_digits fold_left]; [rewrite IHp; cbn [fold_left]; f_equal; lia | rewrite IHp; cbn [fold_left]; f_equal; lia | reflexivity]. Qed.
Theorem C57_cycle_digits : fold_left (fun a d => 2 * a + d) cycle_data 0 = 13 ^ (39 ^ 2) / 53.
Proof. unfold cycle_data, bin. destruct (13 ^ 39 ^ 2 / 53) as [|p|p] eqn:E; [reflexivity | rewrite bin_digits_value; reflexivity |]. exfalso. assert (0 <= 13 ^ 39 ^ 2 / 53) by (apply Z.div_pos; [apply Z.pow_nonneg |]; lia). lia. Qed.
Print Assumptions C57_cycle_digits.
Lemma cycle_state data n k : state_after (cycle_next data) n k = (n + k)%nat.
Proof. revert k. induction n as [|n IH]; intros k; cbn [state_after Nat.add]; [reflexivity |]. cbn [cycle_next snd]. rewrite IH. lia. Qed.
Theorem C57_cycle_history shapes : Forall valid_shape shapes ->
  exists ls, calls (fun sh => cycle_uniform sh uint32) shapes 0%nat = (map Some ls, Z.to_nat (total shapes)) /\ map (fun l => Z.of_nat (length l)) ls = map size shapes /\
    (forall k, (k < length (concat ls))%nat -> nth k (concat ls) 0 = nth (k mod length cycle_data) cycle_data 0) /\ Forall (fun v => v = 0 \/ v = 1) (concat ls).
Proof.
  intros F. destruct (C57_history (cycle_next cycle_data) uint32 shapes 0%nat F eq_refl ltac:(cbn; lia)) as (ls & E & L & K). rewrite cycle_state in E. rewrite Nat.add_0_r in E. assert (BD : Forall (fun v => v = 0 \/ v = 1) cycle_data) by (unfold cycle_data, bin; destruct (13 ^ 39 ^ 2 / 53); [repeat constructor; lia | apply bin_digits_binary; constructor | repeat constructor; lia]).
  assert (NE : (length cycle_data <> 0)%nat) by (unfold cycle_data, bin; destruct (13 ^ 39 ^ 2 / 53) as [|p|p]; [discriminate | pose proof (bin_digits_nonempty p []); lia | discriminate]).
  assert (DK : forall k, nth (k mod length cycle_data) cycle_data 0 = 0 \/ nth (k mod length cycle_data) cycle_data 0 = 1) by (intros k; rewrite Forall_forall in BD; apply BD; apply nth_In; apply Nat.mod_upper_bound; exact NE).
  assert (VK : forall k, (k < length (concat ls))%nat -> nth k (concat ls) 0 = nth (k mod length cycle_data) cycle_data 0).
  { intros k Hk. rewrite (K k Hk). unfold stream. rewrite cycle_state, Nat.add_0_r. cbn [cycle_next fst]. apply Z.mod_small. change (2 ^ bits uint32) with 4294967296. specialize (DK k). lia. }
  exists ls. split; [exact E |]. split; [exact L |]. split; [exact VK |]. apply Forall_forall. intros x Hx. apply (In_nth _ _ 0) in Hx. destruct Hx as (k & Hk & <-). rewrite (VK k Hk). apply DK.
Qed.
Print Assumptions C57_cycle_history.
(** the noise of a CycleRng is the constant, reduced into the dtype, and consumes nothing: with the default 0 encryption is noiseless *)
Theorem C57_cycle_noise c shape k : valid_shape shape -> cycle_rounded_normal c shape uint32 k = (Some (repeat (c mod 2 ^ 32) (Z.to_nat (size shape))), k).
Proof.
  intros V. unfold cycle_rounded_normal. destruct (C57_unsigned_stream (fun k : nat => (c, k)) shape uint32 k V eq_refl ltac:(cbn; lia)) as (l & -> & L & K).
  assert (ST : forall n k, state_after (fun k : nat => (c, k)) n k = k) by (induction n as [|n IH]; intros j; cbn [state_after snd]; [reflexivity | apply IH]). rewrite ST. f_equal. f_equal. apply (list_eq_nth 0); [rewrite repeat_length; lia |].
  intros j Hj. rewrite (K j Hj). unfold stream. cbn [fst]. symmetry. apply nth_repeat_lt'. lia.
Qed.
Print Assumptions C57_cycle_noise.
(** key bits are drawn from the same cycle as the uniform values: a call continues where the object stands *)
Theorem C57_cycle_keys shape k : valid_shape shape ->
  exists l, cycle_sk_uniform shape uint32 k = (Some l, (Z.to_nat (size shape) + k)%nat) /\ Z.of_nat (length l) = size shape /\
    forall j, (j < length l)%nat -> nth j l 0 = nth ((j + k) mod length cycle_data) cycle_data 0 mod 2 ^ 32.
Proof.
  intros V. unfold cycle_sk_uniform, cycle_uniform. destruct (C57_unsigned_stream (cycle_next cycle_data) shape uint32 k V eq_refl ltac:(cbn; lia)) as (l & E & L & K).
  rewrite cycle_state in E. exists l. split; [exact E |]. split; [exact L |]. intros j Hj. rewrite (K j Hj). unfold stream. rewrite cycle_state. reflexivity.
Qed.
Print Assumptions C57_cycle_keys.
(** uniform values: what randint returns for the bounds of the source in their order, unchanged when the bounds fit uint32, so within the bounds *)
Theorem C57_uniform {S} (randint : Z -> Z -> S -> Z * S) lo hi shape s : valid_shape shape -> 0 <= lo -> hi < 2 ^ 32 -> (forall s, lo <= fst (randint lo hi s) <= hi) ->
  exists l, rng_uniform randint (lo, hi) shape uint32 s = (Some l, state_after (randint lo hi) (Z.to_nat (size shape)) s) /\ Z.of_nat (length l) = size shape /\
    (forall k, (k < length l)%nat -> nth k l 0 = stream (randint lo hi) s k) /\ Forall (fun v => lo <= v <= hi) l.
Proof.
  intros V H0 H1 R. unfold rng_uniform. cbn [fst snd]. destruct (C57_unsigned_stream (randint lo hi) shape uint32 s V eq_refl ltac:(cbn; lia)) as (l & E & L & K).
  assert (K' : forall k, (k < length l)%nat -> nth k l 0 = stream (randint lo hi) s k).
  { intros k Hk. rewrite (K k Hk). apply Z.mod_small. change (bits uint32) with 32. unfold stream. pose proof (R (state_after (randint lo hi) k s)). lia. }
  exists l. split; [exact E |]. split; [exact L |]. split; [exact K' |]. apply Forall_forall. intros x Hx. apply (In_nth _ _ 0) in Hx. destruct Hx as (k & Hk & <-). rewrite (K' k Hk). apply R.
Qed.
Print Assumptions C57_uniform.
(** noise: what the generator returns for the deviation of the source, as a 32-bit word *)
Theorem C57_noise {S} (normal : Z -> S -> Z * S) std shape s : valid_shape shape ->
  exists l, rng_rounded_normal normal std shape uint32 s = (Some l, state_after (normal std) (Z.to_nat (size shape)) s) /\ Z.of_nat (length l) = size shape /\
    forall k, (k < length l)%nat -> nth k l 0 = stream (normal std) s k mod 2 ^ 32.
Proof. intros V. exact (C57_unsigned_stream (normal std) shape uint32 s V eq_refl ltac:(cbn; lia)). Qed.
Print Assumptions C57_noise.
Example C57_example_sources : fst (cycle_sk_uniform [3] uint32 7) = Some [1; 1; 0] /\
  fst (rng_uniform (fun a b s => (a + s mod (b - a + 1), s + 1)) (5, 7) [2; 2] uint32 0) = Some [5; 6; 7; 5] /\
  fst (rng_rounded_normal (fun std s => (std * s, s - 1)) 2 [3] uint32 1) = Some [2; 0; 4294967294].
Proof. repeat split; vm_compute; reflexivity. Qed.
(** constant sources *)
Theorem C57_constant c shape dt : valid_shape shape -> in_range dt c = true -> constant_uniform c shape dt = Some (repeat c (Z.to_nat (size shape))).
Proof. intros V R. unfold constant_uniform. rewrite (proj2 (valid_shape_test shape) V), R, num_elements_size. reflexivity. Qed.
Print Assumptions C57_constant.
Theorem C57_constant_rejects c shape dt : ~ valid_shape shape \/ in_range dt c = false -> constant_uniform c shape dt = None.
Proof.
  intros H. unfold constant_uniform. destruct (existsb _ shape) eqn:E; [reflexivity |]. apply valid_shape_test in E. destruct H as [H | ->]; [contradiction | reflexivity].
Qed.
Print Assumptions C57_constant_rejects.

(** ** Refuted: a source with the default bounds (0, 2^32 - 1) fills an array of any integer dtype *)
Theorem C57_any_dtype_refuted : ~ (forall (S : Type) (randint : Z -> Z -> S -> Z * S) s, (forall a b s, a <= b -> a <= fst (randint a b s) <= b) -> fst (rng_uniform randint (0, 2 ^ 32 - 1) [1] int32 s) <> None).
Proof. intros H. apply (H unit (fun a b s => (b, s)) tt); [intros a b s Hab; cbn [fst]; lia | reflexivity]. Qed.
Print Assumptions C57_any_dtype_refuted.

(** ** Examples *)
Example C57_example_negative : shape_generator (fun s : Z => (- s, s + 1)) [2; 2] uint32 0 = (Some [0; 4294967295; 4294967294; 4294967293], 4) /\ shape_generator (fun s : Z => (- s, s + 1)) [2; 2] int32 0 = (Some [0; -1; -2; -3], 4) /\
  shape_generator (fun s : Z => (- s, s + 1)) [-1; 1] uint32 0 = (None, 0).
Proof. repeat split; reflexivity. Qed.
Example C57_example_cycle : cycle_uniform [10] uint32 0 = (Some [1; 1; 0; 0; 0; 1; 1; 1; 1; 0], 10%nat).
Proof. vm_compute. reflexivity. Qed.
Example C57_example_shapes : Forall valid_shape [[2; 3]; []; [0; 4]; [1]].
Proof. repeat constructor; lia. Qed.
