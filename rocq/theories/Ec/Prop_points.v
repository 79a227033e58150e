(** C43: packing points.  A batch of integer points survives the trip into the packed layout (coordinate, point, chunk) and back. *)
From Coq Require Import ZArith List Bool Lia.
From Verif Require Import Base.ZSum Base.Lists Base.Fermat Base.Word Base.Crt Ckks.Model_rns_utils Ckks.Prop_crt.
From Verif Require Import Ec.Model_util Ec.Model_points Ec.Spec_chunks Ec.Proof_chunks Ec.Prop_util.
Import ListNotations.
Local Open Scope Z_scope.

Lemma sequence_opt_map {X Y} (f : X -> option Y) (P : X -> Y -> Prop) : forall l, (forall x, In x l -> exists y, f x = Some y /\ P x y) -> exists ys, sequence_opt (map f l) = Some ys /\ Forall2 P l ys.
Proof.
  induction l as [|x l IH]; intros H; [exists []; split; [reflexivity | constructor] |]. destruct (H x (or_introl eq_refl)) as (y & E & HP). destruct IH as (ys & Es & F); [intros z Hz; apply H; right; exact Hz |].
  exists (y :: ys). cbn [map sequence_opt]. rewrite E, Es. split; [reflexivity | constructor; assumption].
Qed.
Lemma Forall2_len {X Y} (P : X -> Y -> Prop) l m : Forall2 P l m -> length l = length m.
Proof. induction 1; cbn; congruence. Qed.
Lemma Forall2_at {X Y} (P : X -> Y -> Prop) l m i x0 y0 : Forall2 P l m -> (i < length l)%nat -> P (nth i l x0) (nth i m y0).
Proof. intros F. revert i. induction F; intros [|i] Hi; cbn in *; try lia; [assumption | apply IHF; lia]. Qed.

(** the transpose of a rectangular array *)
Lemma transpose_ok (a : list (list (list Z))) m : a <> [] -> (0 < m)%nat -> Forall (fun p => length p = m) a ->
  exists t, transpose_102 a = Some t /\ length t = m /\ Forall (fun r => length r = length a) t /\ (forall i k, (i < length a)%nat -> (k < m)%nat -> nth i (nth k t []) [] = nth k (nth i a []) []) /\ transpose_102 t = Some a.
Proof.
  intros NE Hm F.
  assert (G : forall (a : list (list (list Z))) m, a <> [] -> (0 < m)%nat -> Forall (fun p => length p = m) a -> transpose_102 a = Some (map (fun k => map (fun p => nth k p []) a) (seq 0 m))).
  { clear. intros a m NE Hm F. destruct a as [|f a]; [contradiction |]. unfold transpose_102. rewrite Forall_cons_iff in F. destruct F as [Lf F]. rewrite Lf. destruct (Nat.eqb_spec m 0); [lia |].
    replace (forallb _ _) with true; [reflexivity |]. symmetry. apply forallb_forall. intros p [<- | Hp]; [rewrite Lf; apply Nat.eqb_refl | rewrite Forall_forall in F; rewrite (F p Hp); apply Nat.eqb_refl]. }
  set (t := map (fun k => map (fun p => nth k p []) a) (seq 0 m)). exists t. assert (LT : length t = m) by (unfold t; rewrite map_length; apply seq_length).
  assert (FT : Forall (fun r => length r = length a) t) by (unfold t; apply Forall_map, Forall_forall; intros k _; apply map_length).
  assert (EN : forall i k, (i < length a)%nat -> (k < m)%nat -> nth i (nth k t []) [] = nth k (nth i a []) []).
  { intros i k Hi Hk. unfold t. rewrite nth_map_seq by exact Hk. rewrite (nth_map_lt _ _ _ _ []) by exact Hi. reflexivity. }
  split; [apply G; assumption |]. split; [exact LT |]. split; [exact FT |]. split; [exact EN |].
  rewrite (G t (length a)); [| intros E; rewrite E in LT; cbn in LT; lia | destruct a; [contradiction | cbn; lia] | exact FT]. f_equal.
  apply (list_ext []); [rewrite map_length, seq_length; reflexivity |]. intros i Hi. rewrite map_length, seq_length in Hi. rewrite nth_map_seq by exact Hi.
  rewrite Forall_forall in F. pose proof (F _ (nth_In a [] Hi)) as Li. apply (list_ext []); [rewrite map_length; congruence |]. intros k Hk. rewrite map_length, LT in Hk. rewrite (nth_map_lt _ _ _ _ []) by (rewrite LT; exact Hk). apply EN; assumption.
Qed.

(** C43: a batch of points with the same number of coordinates, all below 2^(base * chunks), is packed so that chunk row
    (k, i) holds coordinate k of point i, and unpacking gives the points back. *)
Theorem C43_point_batch_round_trip : forall points base n m, 1 <= base <= 16 -> points <> [] -> (0 < m)%nat ->
  Forall (fun p => length p = m /\ Forall (fun x => 0 <= x < 2 ^ (base * Z.of_nat n)) p) points ->
  exists pack, int_point_batch_to_jax_point_pack points base n = Some pack /\ length pack = m /\ Forall (fun row => length row = length points) pack /\
    (forall k i, (k < m)%nat -> (i < length points)%nat -> digits base n (nth i (nth k pack []) []) /\ chunk_value base (nth i (nth k pack []) []) = nth k (nth i points []) 0) /\
    jax_point_pack_to_int_point_batch pack base = Some points.
Proof.
  intros points base n m Hb NE Hm F.
  destruct (sequence_opt_map (fun p => int_point_to_jax_point_pack p base n) (fun p A => Forall2 (fun x r => digits base n r /\ chunk_value base r = x /\ array_to_int r base = x) p A) points) as (res & E & FR).
  { intros p Hp. rewrite Forall_forall in F. destruct (F p Hp) as [Lp Fp]. apply sequence_opt_map. intros x Hx. rewrite Forall_forall in Fp. destruct (C43_chunk_round_trip x base 16 n Hb (Fp x Hx)) as (l & El & D & V & B). exists l. auto. }
  pose proof (Forall2_len _ _ _ FR) as LR.
  assert (FM : Forall (fun A => length A = m) res).
  { apply Forall_forall. intros A HA. apply (In_nth _ _ []) in HA. destruct HA as (i & Hi & <-). rewrite <- LR in Hi. pose proof (Forall2_at _ _ _ i [] [] FR Hi) as X. rewrite <- (Forall2_len _ _ _ X). rewrite Forall_forall in F. apply F, nth_In. exact Hi. }
  destruct (transpose_ok res m) as (t & ET & LT & FT & NT & TT); [destruct res; [destruct points; [contradiction | discriminate] | discriminate] | exact Hm | exact FM |].
  exists t. unfold int_point_batch_to_jax_point_pack. rewrite E. split; [exact ET |]. split; [exact LT |]. split; [rewrite LR; exact FT |]. split.
  - intros k i Hk Hi. rewrite NT by (rewrite <- ?LR; assumption). pose proof (Forall2_at _ _ _ i [] [] FR Hi) as X. rewrite Forall_forall in F. destruct (F _ (nth_In points [] Hi)) as [Lp _]. pose proof (Forall2_at _ _ _ k 0 [] X ltac:(lia)) as (D & V & _). auto.
  - unfold jax_point_pack_to_int_point_batch. rewrite TT. f_equal. clear - FR. induction FR as [|p A ps As X F IH]; [reflexivity |]. cbn [map]. f_equal; [| exact IH]. clear - X. unfold array_to_int_list. induction X as [|x r xs rs (_ & _ & B) F IH]; [reflexivity |]. cbn [map]. congruence.
Qed.
Print Assumptions C43_point_batch_round_trip.

(** C43: the same for a single point in the default base of 16, and in residue form for any pairwise coprime moduli, so for the
    module's own list (C43_moduli). *)
Theorem C43_point_round_trip : forall p n, Forall (fun x => 0 <= x < 2 ^ (16 * Z.of_nat n)) p -> exists A, int_point_to_jax_point_pack p 16 n = Some A /\ jax_point_pack_to_int_point A = p.
Proof.
  intros p n F. destruct (sequence_opt_map (fun c => int_to_array c 16 16 (Some n)) (fun x r => array_to_int r 16 = x) p) as (A & E & FA).
  { intros x Hx. rewrite Forall_forall in F. destruct (C43_chunk_round_trip x 16 16 n ltac:(lia) (F x Hx)) as (l & El & _ & _ & B). exists l. auto. }
  exists A. split; [exact E |]. unfold jax_point_pack_to_int_point. clear - FA. induction FA; cbn [map]; congruence.
Qed.
Print Assumptions C43_point_round_trip.
Theorem C43_rns_point_batch_round_trip : forall moduli points m, coprime_moduli moduli -> points <> [] -> (0 < m)%nat ->
  Forall (fun p => length p = m /\ Forall (fun x => 0 <= x < lprod moduli) p) points ->
  exists pack, int_point_batch_to_jax_rns_point_pack moduli points = Some pack /\ length pack = m /\
    (forall k i, (k < m)%nat -> (i < length points)%nat -> nth i (nth k pack []) [] = map (fun q => nth k (nth i points []) 0 mod q) moduli) /\
    jax_rns_point_pack_to_int_point_batch moduli pack = Some points.
Proof.
  intros moduli points m HC NE Hm F. set (res := map (int_list_to_array_rns moduli) points).
  destruct (transpose_ok res m) as (t & ET & LT & FT & NT & TT); [unfold res; destruct points; [contradiction | discriminate] | exact Hm | unfold res; apply Forall_map; eapply Forall_impl; [| exact F]; intros p [L _]; unfold int_list_to_array_rns; rewrite map_length; exact L |].
  exists t. split; [exact ET |]. split; [exact LT |]. split.
  - intros k i Hk Hi. rewrite Forall_forall in F. destruct (F _ (nth_In points [] Hi)) as [Lp _]. rewrite NT by (first [exact Hk | unfold res; rewrite map_length; exact Hi]). unfold res. rewrite (nth_map_lt _ _ _ _ []) by exact Hi. unfold int_list_to_array_rns. rewrite (nth_map_lt _ _ _ _ 0) by lia. reflexivity.
  - unfold jax_rns_point_pack_to_int_point_batch. rewrite TT. unfold res. clear - F HC. induction F as [|p ps [_ Hp] _ IH]; [reflexivity |]. cbn [map sequence_opt].
    assert (E : array_rns_to_int_list moduli (int_list_to_array_rns moduli p) = Some p).
    { unfold array_rns_to_int_list, int_list_to_array_rns. induction Hp as [|x xs Hx _ IHx]; [reflexivity |]. cbn [map sequence_opt]. rewrite array_rns_round_trip by assumption. rewrite IHx. reflexivity. }
    rewrite E, IH. reflexivity.
Qed.
Print Assumptions C43_rns_point_batch_round_trip.

(** an empty batch, and points with different numbers of coordinates, raise *)
Theorem C43_point_batch_rejects : forall base n, int_point_batch_to_jax_point_pack [] base n = None /\
  forall p p' ps, length p <> length p' -> int_point_batch_to_jax_point_pack (p :: p' :: ps) base n = None.
Proof.
  intros base n. split; [reflexivity |]. intros p p' ps NL. unfold int_point_batch_to_jax_point_pack. cbn [map sequence_opt].
  assert (G : forall p A, int_point_to_jax_point_pack p base n = Some A -> length A = length p).
  { clear. unfold int_point_to_jax_point_pack. induction p as [|x p IH]; intros A E; cbn [map sequence_opt] in E; [injection E as <-; reflexivity |]. destruct (int_to_array _ _ _ _); [| discriminate]. destruct (sequence_opt _) eqn:E2; [| discriminate]. injection E as <-. cbn. f_equal. apply IH. reflexivity. }
  destruct (int_point_to_jax_point_pack p base n) as [A |] eqn:E1; [| reflexivity]. destruct (int_point_to_jax_point_pack p' base n) as [A' |] eqn:E2; [| reflexivity]. destruct (sequence_opt _); [| reflexivity].
  unfold transpose_102. destruct (Nat.eqb_spec (length A) 0); [reflexivity |]. cbn [forallb]. rewrite (G _ _ E1), (G _ _ E2). destruct (Nat.eqb_spec (length p') (length p)); [congruence |]. rewrite andb_false_r. reflexivity.
Qed.
Print Assumptions C43_point_batch_rejects.

(** FINDING.  jax_point_pack_to_int_point has no base argument: a point packed in base 8 is read back as another point. *)
Theorem C43_point_base_refuted : ~ forall p base n A, 1 <= base <= 16 -> Forall (fun x => 0 <= x < 2 ^ (base * Z.of_nat n)) p -> int_point_to_jax_point_pack p base n = Some A -> jax_point_pack_to_int_point A = p.
Proof. intros H. specialize (H [258] 8 2%nat [[2; 1]] ltac:(lia) ltac:(constructor; [split; [lia | reflexivity] | constructor]) eq_refl). vm_compute in H. discriminate. Qed.
Print Assumptions C43_point_base_refuted.

Example C43_point_example : int_point_batch_to_jax_point_pack [[65537; 2]; [3; 4]; [5; 65535]] 16 2 = Some [[[1; 1]; [3; 0]; [5; 0]]; [[2; 0]; [4; 0]; [65535; 0]]] /\
  jax_point_pack_to_int_point_batch [[[1; 1]; [3; 0]; [5; 0]]; [[2; 0]; [4; 0]; [65535; 0]]] 16 = Some [[65537; 2]; [3; 4]; [5; 65535]].
Proof. split; reflexivity. Qed.
Example C43_rns_point_example : int_point_batch_to_jax_rns_point_pack [7; 11; 13] [[1000; 2]] = Some [[[6; 10; 12]]; [[2; 2; 2]]] /\ jax_rns_point_pack_to_int_point_batch [7; 11; 13] [[[6; 10; 12]]; [[2; 2; 2]]] = Some [[1000; 2]].
Proof. split; vm_compute; reflexivity. Qed.
