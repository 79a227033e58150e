(** Arrays of NTT slots and the polynomials they hold. *)
From Coq Require Import ZArith Znumtheory List Bool Lia.
From Verif Require Import Base.ZSum Base.Modeq Base.Lists Base.Bitrev Base.Nega Base.Powm Base.Word Base.Fermat.
From Verif Require Import Ckks.Model_rns_utils Ckks.Model_math Ckks.Model_ntt_cpu Ckks.Model_scheme Ckks.Spec_ntt Ckks.Spec_poly.
From Verif Require Import Ckks.Proof_ntt Ckks.Proof_ntt_ref Ckks.Proof_ntt_cpu Ckks.Proof_transform Ckks.Prop_ntt_cpu Ckks.Prop_crt.
Import ListNotations.
Local Open Scope Z_scope.

(** the root used by the CPU NTT for the modulus q *)
Definition psi_of (L : nat) (q : Z) : Z := match root_of_unity (2 * Z.of_nat (2 ^ L)) q with Some psi => psi | None => 0 end.
Definition T (L : nat) (q : Z) (a : list Z) : list Z := transform L q (psi_of L q) a.

Lemma psi_of_root L q : cpu_admissible L q -> pw (psi_of L q) (2 ^ L) == -1 [mod q].
Proof. intros A. destruct (C27_forward_evaluates L q A) as (psi & E & R & _). unfold psi_of. rewrite E. exact R. Qed.
Lemma ntt_T L q a : cpu_admissible L q -> length a = (2 ^ L)%nat -> ntt_negacyclic_column a q = Some (T L q a).
Proof. intros A Ha. destruct (C27_forward_evaluates L q A) as (psi & E & R & F). unfold T, psi_of. rewrite E. apply F. exact Ha. Qed.
Lemma intt_T L q a : cpu_admissible L q -> length a = (2 ^ L)%nat -> intt_negacyclic_column (T L q a) q = Some (poly_mod q a).
Proof. intros A Ha. exact (C27_inverse_forward L q a _ A Ha (ntt_T L q a A Ha)). Qed.
Lemma T_length L q a : length (T L q a) = (2 ^ L)%nat.
Proof. apply transform_len. Qed.
Lemma admissible_gt1 L q : cpu_admissible L q -> 1 < q.
Proof. intros (_ & P & _). destruct P; lia. Qed.
Lemma T_range L q a j : cpu_admissible L q -> (j < 2 ^ L)%nat -> 0 <= nth j (T L q a) 0 < q.
Proof. intros A Hj. apply slot_range; [pose proof (admissible_gt1 L q A); lia | exact Hj]. Qed.
Lemma T_mod L q a : cpu_admissible L q -> T L q (poly_mod q a) = T L q a.
Proof. intros A. apply transform_mod. pose proof (admissible_gt1 L q A). lia. Qed.
Lemma T_surj L q y : cpu_admissible L q -> length y = (2 ^ L)%nat -> reduced q y -> exists a, length a = (2 ^ L)%nat /\ reduced q a /\ y = T L q a.
Proof.
  intros A Hy R. destruct (C27_forward_inverse L q y A Hy) as (a & _ & La & Ra & E). exists a. split; [exact La |]. split; [exact Ra |].
  rewrite (ntt_T L q a A La) in E. injection E as E. rewrite E. symmetry. apply map_mod_id. exact R.
Qed.
Lemma T_inj L q a b : cpu_admissible L q -> length a = (2 ^ L)%nat -> length b = (2 ^ L)%nat -> T L q a = T L q b -> poly_mod q a = poly_mod q b.
Proof. intros A Ha Hb E. pose proof (intt_T L q a A Ha) as X. rewrite E, (intt_T L q b A Hb) in X. congruence. Qed.

(** tables *)
Lemma tab_length k n f : length (tab k n f) = k.
Proof. unfold tab. rewrite map_length, seq_length. reflexivity. Qed.
Lemma tab_col k n f i : (i < k)%nat -> nth i (tab k n f) [] = map (fun j => f i j) (seq 0 n).
Proof. intros H. unfold tab. rewrite nth_map_seq by exact H. reflexivity. Qed.
Lemma tab_ent k n f i j : (i < k)%nat -> (j < n)%nat -> ent (tab k n f) i j = f i j.
Proof. intros Hi Hj. unfold ent. rewrite tab_col by exact Hi. apply (nth_map_seq (fun j => f i j)). exact Hj. Qed.
Lemma tab_degree k n f : (0 < k)%nat -> degree_of (tab k n f) = n.
Proof. intros H. unfold degree_of. rewrite tab_col by exact H. rewrite map_length, seq_length. reflexivity. Qed.

(** [A] holds, for every i, the slots of the polynomial [a i] modulo the i-th prime *)
Definition slots (L : nat) (ms : list Z) (A : array) (a : nat -> list Z) : Prop :=
  length A = length ms /\ forall i, (i < length ms)%nat -> length (a i) = (2 ^ L)%nat /\ nth i A [] = T L (nth i ms 0) (a i).

Section Arrays.
  Variables (L : nat) (ms : list Z).
  Hypothesis HA : Forall (cpu_admissible L) ms.

  Lemma adm i : (i < length ms)%nat -> cpu_admissible L (nth i ms 0).
  Proof. intros Hi. rewrite Forall_forall in HA. apply HA. apply nth_In. exact Hi. Qed.

  Lemma slots_ent A a i j : slots L ms A a -> (i < length ms)%nat -> (j < 2 ^ L)%nat ->
    0 <= ent A i j < nth i ms 0 /\ ent A i j = nth j (T L (nth i ms 0) (a i)) 0.
  Proof.
    intros [_ S] Hi Hj. destruct (S i Hi) as [_ E]. unfold ent. rewrite E. split; [apply T_range; [apply adm; exact Hi | exact Hj] | reflexivity].
  Qed.
  Lemma slots_ext A a b : (forall i, (i < length ms)%nat -> a i = b i) -> slots L ms A a -> slots L ms A b.
  Proof. intros H [E S]. split; [exact E |]. intros i Hi. rewrite <- (H i Hi). apply S. exact Hi. Qed.
  Lemma slots_tab f a : (forall i, (i < length ms)%nat -> length (a i) = (2 ^ L)%nat) ->
    (forall i j, (i < length ms)%nat -> (j < 2 ^ L)%nat -> 0 <= f i j < nth i ms 0 /\ f i j == nth j (T L (nth i ms 0) (a i)) 0 [mod nth i ms 0]) ->
    slots L ms (tab (length ms) (2 ^ L) f) a.
  Proof.
    intros Ha H. split; [apply tab_length |]. intros i Hi. split; [apply Ha; exact Hi |]. rewrite tab_col by exact Hi.
    pose proof (admissible_gt1 _ _ (adm i Hi)) as Q.
    apply transform_intro; [lia | rewrite map_length, seq_length; reflexivity |]. intros j Hj.
    rewrite (nth_map_seq (fun j => f i j)) by exact Hj. apply H; assumption.
  Qed.
  (** copying an array through a cast that keeps reduced values *)
  Lemma slots_cast c A a : (forall i j, (i < length ms)%nat -> (j < 2 ^ L)%nat -> c (ent A i j) = ent A i j) -> slots L ms A a ->
    slots L ms (tab (length ms) (2 ^ L) (fun i j => c (ent A i j))) a.
  Proof.
    intros H S. apply slots_tab; [intros i Hi; apply S; exact Hi |]. intros i j Hi Hj. rewrite H by assumption.
    destruct (slots_ent A a i j S Hi Hj) as [B E]. split; [exact B |]. rewrite E. reflexivity.
  Qed.

  Lemma ntt_poly_slots cols : length cols = length ms -> (forall i, (i < length ms)%nat -> length (nth i cols []) = (2 ^ L)%nat) ->
    exists A, ntt_negacyclic_poly cols ms = Some A /\ slots L ms A (fun i => nth i cols []).
  Proof.
    intros Lc Hc. unfold ntt_negacyclic_poly.
    assert (E : map2 ntt_negacyclic_column cols ms = map (fun i => Some (T L (nth i ms 0) (nth i cols []))) (seq 0 (length ms))).
    { apply (list_ext None); [rewrite map2_length, map_length, seq_length; lia |]. intros i Hi. rewrite map2_length in Hi.
      rewrite (nth_map2 _ [] 0 None) by lia. rewrite (nth_map_seq (fun i => Some (T L (nth i ms 0) (nth i cols [])))) by lia.
      apply ntt_T; [apply adm; lia | apply Hc; lia]. }
    rewrite E. exists (map (fun i => T L (nth i ms 0) (nth i cols [])) (seq 0 (length ms))). split.
    - clear. generalize (seq 0 (length ms)). intros l. induction l as [|x l IH]; [reflexivity |]. cbn. rewrite IH. reflexivity.
    - split; [rewrite map_length, seq_length; reflexivity |]. intros i Hi. split; [apply Hc; exact Hi |].
      rewrite (nth_map_seq (fun i => T L (nth i ms 0) (nth i cols []))) by exact Hi. reflexivity.
  Qed.
  Lemma intt_poly_slots A a : slots L ms A a ->
    intt_negacyclic_poly A ms = Some (map (fun i => poly_mod (nth i ms 0) (a i)) (seq 0 (length ms))).
  Proof.
    intros [LA S]. unfold intt_negacyclic_poly.
    assert (E : map2 intt_negacyclic_column A ms = map (fun i => Some (poly_mod (nth i ms 0) (a i))) (seq 0 (length ms))).
    { apply (list_ext None); [rewrite map2_length, map_length, seq_length; lia |]. intros i Hi. rewrite map2_length in Hi.
      rewrite (nth_map2 _ [] 0 None) by lia. rewrite (nth_map_seq (fun i => Some (poly_mod (nth i ms 0) (a i)))) by lia.
      destruct (S i ltac:(lia)) as [Ha ->]. apply intt_T; [apply adm; lia | exact Ha]. }
    rewrite E. clear. generalize (seq 0 (length ms)). intros l. induction l as [|x l IH]; [reflexivity |]. cbn. rewrite IH. reflexivity.
  Qed.
  (** the slots of an integer polynomial drawn as residues *)
  Lemma ntt_residues a : length a = (2 ^ L)%nat -> exists A, ntt_negacyclic_poly (residue_array a ms) ms = Some A /\ slots L ms A (fun _ => a).
  Proof.
    intros Ha. destruct (ntt_poly_slots (residue_array a ms)) as (A & E & S).
    - apply map_length.
    - intros i Hi. unfold residue_array. rewrite (nth_map_lt _ _ _ _ 0) by exact Hi. rewrite map_length. exact Ha.
    - exists A. split; [exact E |]. destruct S as [LA S]. split; [exact LA |]. intros i Hi. split; [exact Ha |].
      destruct (S i Hi) as [_ ->]. unfold residue_array. rewrite (nth_map_lt _ _ _ _ 0) by exact Hi. apply T_mod. apply adm. exact Hi.
  Qed.
  (** prefixes *)
  Lemma slots_firstn A a k : slots L ms A a -> (k <= length ms)%nat -> slots L (firstn k ms) (firstn k A) a.
  Proof.
    intros [LA S] Hk. split; [rewrite !firstn_length; lia |]. intros i Hi. rewrite firstn_length in Hi.
    rewrite !nth_firstn_lt by lia. apply S. lia.
  Qed.
End Arrays.

Lemma list_eqb_refl l : list_eqb l l = true.
Proof. unfold list_eqb. rewrite Nat.eqb_refl. cbn. induction l; cbn; [reflexivity |]. rewrite Z.eqb_refl. exact IHl. Qed.
Lemma list_eqb_eq l1 l2 : list_eqb l1 l2 = true -> l1 = l2.
Proof.
  unfold list_eqb. intros H. apply andb_prop in H. destruct H as [H1 H2]. apply Nat.eqb_eq in H1. revert l2 H1 H2.
  induction l1 as [|x l1 IH]; intros [|y l2] H1 H2; cbn in *; try lia; [reflexivity |].
  apply andb_prop in H2. destruct H2 as [H2 H3]. apply Z.eqb_eq in H2. rewrite H2. f_equal. apply IH; [lia | exact H3].
Qed.

(** uint64 arithmetic on residues below 2^32 *)
Lemma u64_small x : 0 <= x < 2 ^ 64 -> u64 x = x.
Proof. apply Z.mod_small. Qed.
Lemma u32_small x : 0 <= x < 2 ^ 32 -> u32 x = x.
Proof. apply Z.mod_small. Qed.
Lemma u64_mul x y q : 0 <= x < q -> 0 <= y < q -> q <= 2 ^ 32 -> u64 (x * y) = x * y.
Proof. intros. apply u64_small. nia. Qed.
