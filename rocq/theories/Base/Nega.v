(** The ring Z[X]/(X^N+1), presented as antiperiodic coefficient functions Z -> Z.
    Index [i] in 0..N-1 is the coefficient of X^i; the coefficient at i+N is minus that at i.
    Pure mathematics, no code is modelled here. *)
From Coq Require Import ZArith List Lia Bool Setoid Morphisms Ring.
From Verif Require Import Base.ZSum Base.Modeq.
Import ListNotations.
Local Open Scope Z_scope.

(** *** List polynomials extended to all integer indices. *)
Definition ext (N : nat) (a : list Z) (i : Z) : Z :=
  let n := Z.of_nat N in
  let v := nth (Z.to_nat (i mod n)) a 0 in
  if Z.even (i / n) then v else - v.

Definition antiper (N : nat) (f : Z -> Z) : Prop := forall i, f (i + Z.of_nat N) = - f i.

Lemma ext_antiper N a : (0 < N)%nat -> antiper N (ext N a).
Proof.
  intros HN i. unfold ext. set (n := Z.of_nat N).
  assert (Hn : n <> 0) by lia.
  replace (i + n) with (i + 1 * n) by ring.
  rewrite Z.mod_add, Z.div_add by exact Hn.
  rewrite Z.add_1_r, Z.even_succ, <- Z.negb_even.
  destruct (Z.even (i / n)); cbn; lia.
Qed.

Lemma ext_small N a i : 0 <= i < Z.of_nat N -> ext N a i = nth (Z.to_nat i) a 0.
Proof.
  intros H. unfold ext. rewrite Z.mod_small by exact H. rewrite Z.div_small by exact H. reflexivity.
Qed.

Lemma ext_nat N a i : (i < N)%nat -> ext N a (Z.of_nat i) = nth i a 0.
Proof. intros H. rewrite ext_small by lia. rewrite Nat2Z.id. reflexivity. Qed.

(** *** Window lemmas *)
Lemma antiper_neg N f i : antiper N f -> f (i - Z.of_nat N) = - f i.
Proof. intros H. specialize (H (i - Z.of_nat N)). replace (i - Z.of_nat N + Z.of_nat N) with i in H by ring. lia. Qed.

Lemma antiper_mod N f i :
  (0 < N)%nat -> antiper N f ->
  f i = (if Z.even (i / Z.of_nat N) then 1 else -1) * f (i mod Z.of_nat N).
Proof.
  intros HN Hf. set (n := Z.of_nat N).
  assert (Hn : n <> 0) by lia.
  assert (HP : forall k r, 0 <= k -> f (r + k * n) = (if Z.even k then 1 else -1) * f r).
  { intros k r Hk. revert k Hk.
    apply (natlike_ind (fun k => f (r + k * n) = (if Z.even k then 1 else -1) * f r)).
    - cbn [Z.even]. rewrite Z.mul_0_l, Z.add_0_r. lia.
    - intros k Hk IH. replace (r + Z.succ k * n) with (r + k * n + n) by ring.
      rewrite Hf, IH, Z.even_succ, <- Z.negb_even. destruct (Z.even k); cbn [negb]; lia. }
  rewrite (Z.div_mod i n Hn) at 1.
  destruct (Z.le_gt_cases 0 (i / n)) as [Hp|Hp].
  - rewrite Z.add_comm, Z.mul_comm. apply HP. exact Hp.
  - specialize (HP (- (i / n)) (n * (i / n) + i mod n)).
    replace (n * (i / n) + i mod n + - (i / n) * n) with (i mod n) in HP by ring.
    rewrite Z.even_opp in HP. rewrite HP by lia.
    destruct (Z.even (i / n)); lia.
Qed.

Lemma antiper_ext_eq N f g :
  (0 < N)%nat -> antiper N f -> antiper N g ->
  (forall i, (i < N)%nat -> f (Z.of_nat i) = g (Z.of_nat i)) -> forall i, f i = g i.
Proof.
  intros HN Hf Hg H i.
  rewrite (antiper_mod N f i HN Hf), (antiper_mod N g i HN Hg).
  assert (Hb : 0 <= i mod Z.of_nat N < Z.of_nat N) by (apply Z.mod_pos_bound; lia).
  replace (i mod Z.of_nat N) with (Z.of_nat (Z.to_nat (i mod Z.of_nat N))) by lia.
  rewrite H by lia. reflexivity.
Qed.

Definition periodic (N : nat) (h : Z -> Z) : Prop := forall i, h (i + Z.of_nat N) = h i.

Lemma window_shift1 N h s :
  periodic N h ->
  zsum N (fun i => h (s + 1 + Z.of_nat i)) = zsum N (fun i => h (s + Z.of_nat i)).
Proof.
  intros Hp. destruct N as [|N]; [reflexivity|].
  rewrite (zsum_S_l N (fun i => h (s + Z.of_nat i))).
  cbn [zsum].
  rewrite (zsum_ext N (fun i => h (s + 1 + Z.of_nat i)) (fun i => h (s + Z.of_nat (S i))))
    by (intros; f_equal; lia).
  replace (s + 1 + Z.of_nat N) with (s + Z.of_nat 0 + Z.of_nat (S N)) by lia.
  rewrite (Hp (s + Z.of_nat 0)). lia.
Qed.

Lemma window_shift N h s :
  periodic N h -> zsum N (fun i => h (s + Z.of_nat i)) = zsum N (fun i => h (Z.of_nat i)).
Proof.
  intros Hp.
  assert (Hpos : forall k, 0 <= k -> forall t, zsum N (fun i => h (t + k + Z.of_nat i)) = zsum N (fun i => h (t + Z.of_nat i))).
  { apply (natlike_ind (fun k => forall t, zsum N (fun i => h (t + k + Z.of_nat i)) = zsum N (fun i => h (t + Z.of_nat i)))).
    - intros t. apply zsum_ext. intros. f_equal; lia.
    - intros k Hk IH t. rewrite <- (IH t).
      rewrite <- (window_shift1 N h (t + k) Hp). apply zsum_ext. intros. f_equal; lia. }
  destruct (Z.le_gt_cases 0 s) as [Hs|Hs].
  - rewrite <- (Hpos s Hs 0) at 1. apply zsum_ext. intros. f_equal; lia.
  - rewrite <- (Hpos (-s) ltac:(lia) s). apply zsum_ext. intros. f_equal; lia.
Qed.

Lemma window_rev N h k :
  periodic N h -> zsum N (fun i => h (k - Z.of_nat i)) = zsum N (fun i => h (Z.of_nat i)).
Proof.
  intros Hp. rewrite zsum_rev.
  rewrite (zsum_ext N _ (fun i => h (k - Z.of_nat N + 1 + Z.of_nat i))).
  - apply window_shift. exact Hp.
  - intros i Hi. f_equal; lia.
Qed.

(** *** The ring *)
Record apoly (N : nat) := mkpoly { fn : Z -> Z; fn_anti : antiper N fn }.
Arguments mkpoly {N} _ _.
Arguments fn {N} _ _.
Arguments fn_anti {N} _ _.

Section Ring.
  Variable N : nat.
  Variable q : Z.
  Hypothesis HN : (0 < N)%nat.

  Definition peq (a b : apoly N) : Prop := forall i, fn a i == fn b i [mod q].

  Lemma padd_anti (a b : apoly N) : antiper N (fun i => fn a i + fn b i).
  Proof. intros i. rewrite (fn_anti a), (fn_anti b). ring. Qed.
  Definition padd (a b : apoly N) : apoly N := mkpoly _ (padd_anti a b).

  Lemma popp_anti (a : apoly N) : antiper N (fun i => - fn a i).
  Proof. intros i. rewrite (fn_anti a). ring. Qed.
  Definition popp (a : apoly N) : apoly N := mkpoly _ (popp_anti a).

  Lemma psub_anti (a b : apoly N) : antiper N (fun i => fn a i - fn b i).
  Proof. intros i. rewrite (fn_anti a), (fn_anti b). ring. Qed.
  Definition psub (a b : apoly N) : apoly N := mkpoly _ (psub_anti a b).

  Lemma pzero_anti : antiper N (fun _ => 0).
  Proof. intros i. reflexivity. Qed.
  Definition pzero : apoly N := mkpoly _ pzero_anti.

  Definition conv (f g : Z -> Z) (k : Z) : Z :=
    zsum N (fun i => f (Z.of_nat i) * g (k - Z.of_nat i)).

  Lemma conv_anti f g : antiper N g -> antiper N (conv f g).
  Proof.
    intros Hg k. unfold conv. rewrite <- zsum_opp. apply zsum_ext. intros i _.
    replace (k + Z.of_nat N - Z.of_nat i) with (k - Z.of_nat i + Z.of_nat N) by ring.
    rewrite Hg. ring.
  Qed.
  Definition pmul (a b : apoly N) : apoly N := mkpoly (conv (fn a) (fn b)) (conv_anti _ _ (fn_anti b)).

  (** X^e, for any integer e *)
  Definition monof (e i : Z) : Z := ext N [1] (i - e).
  Lemma mono_anti e : antiper N (monof e).
  Proof.
    intros i. unfold monof. replace (i + Z.of_nat N - e) with (i - e + Z.of_nat N) by ring.
    apply ext_antiper. exact HN.
  Qed.
  Definition pmono (e : Z) : apoly N := mkpoly _ (mono_anti e).
  Definition pone : apoly N := pmono 0.

  Lemma pconst_anti c : antiper N (fun i => c * fn pone i).
  Proof. intros i. rewrite (fn_anti pone). ring. Qed.
  Definition pconst (c : Z) : apoly N := mkpoly _ (pconst_anti c).

  Definition pl (a : list Z) : apoly N := mkpoly (ext N a) (ext_antiper N a HN).

  Lemma pscale_anti c (a : apoly N) : antiper N (fun i => c * fn a i).
  Proof. intros i. rewrite (fn_anti a). ring. Qed.
  Definition pscale (c : Z) (a : apoly N) : apoly N := mkpoly _ (pscale_anti c a).

  Lemma conv_comm f g k : antiper N f -> antiper N g -> conv f g k = conv g f k.
  Proof.
    intros Hf Hg. unfold conv.
    pose (h := fun i : Z => g i * f (k - i)).
    assert (Hp : periodic N h).
    { intros i. unfold h. rewrite Hg. replace (k - (i + Z.of_nat N)) with (k - i - Z.of_nat N) by ring.
      rewrite (antiper_neg N f) by exact Hf. ring. }
    rewrite (zsum_ext N _ (fun i => h (k - Z.of_nat i))).
    - rewrite (window_rev N h k Hp). reflexivity.
    - intros i _. unfold h. replace (k - (k - Z.of_nat i)) with (Z.of_nat i) by ring. ring.
  Qed.

  Lemma conv_assoc f g h k : antiper N f -> antiper N g -> antiper N h ->
    conv f (conv g h) k = conv (conv f g) h k.
  Proof.
    intros Hf Hg Hh. unfold conv.
    rewrite (zsum_ext N _ (fun i => zsum N (fun j => f (Z.of_nat i) * g (Z.of_nat j - Z.of_nat i) * h (k - Z.of_nat j)))).
    2:{ intros i _. rewrite <- zsum_mul_l.
        pose (w := fun j : Z => f (Z.of_nat i) * g (j - Z.of_nat i) * h (k - j)).
        assert (Hp : periodic N w).
        { intros j. unfold w. replace (j + Z.of_nat N - Z.of_nat i) with (j - Z.of_nat i + Z.of_nat N) by ring.
          rewrite Hg. replace (k - (j + Z.of_nat N)) with (k - j - Z.of_nat N) by ring.
          rewrite (antiper_neg N h) by exact Hh. ring. }
        transitivity (zsum N (fun j => w (Z.of_nat j))); [|reflexivity].
        rewrite <- (window_shift N w (Z.of_nat i) Hp). apply zsum_ext. intros j _. unfold w.
        replace (Z.of_nat i + Z.of_nat j - Z.of_nat i) with (Z.of_nat j) by ring.
        replace (k - (Z.of_nat i + Z.of_nat j)) with (k - Z.of_nat i - Z.of_nat j) by ring. ring. }
    rewrite zsum_swap. apply zsum_ext. intros j _. rewrite <- zsum_mul_r. reflexivity.
  Qed.

  Lemma monof_conv e f k : antiper N f -> conv (monof e) f k = f (k - e).
  Proof.
    intros Hf. unfold conv.
    pose (h := fun i : Z => monof e i * f (k - i)).
    assert (Hp : periodic N h).
    { intros i. unfold h. rewrite (mono_anti e i).
      replace (k - (i + Z.of_nat N)) with (k - i - Z.of_nat N) by ring.
      rewrite (antiper_neg N f) by exact Hf. ring. }
    change (zsum N (fun i => h (Z.of_nat i)) = f (k - e)).
    rewrite <- (window_shift N h e Hp).
    rewrite (zsum_single N 0%nat) by
      (first [lia | intros i Hi Hne; unfold h, monof; replace (e + Z.of_nat i - e) with (Z.of_nat i) by ring;
       rewrite ext_nat by exact Hi; destruct i as [|[|i]]; [lia|cbn; ring|cbn; ring]]).
    unfold h, monof. rewrite Z.add_0_r, Z.sub_diag.
    rewrite (ext_small N [1] 0) by lia. cbn [nth Z.to_nat]. ring.
  Qed.

  Lemma pmono_mul e a i : fn (pmul (pmono e) a) i = fn a (i - e).
  Proof. apply monof_conv. apply fn_anti. Qed.

  Global Instance peq_equiv : Equivalence peq.
  Proof.
    split.
    - intros a i. reflexivity.
    - intros a b H i. symmetry. apply H.
    - intros a b c H1 H2 i. rewrite (H1 i). apply H2.
  Qed.
  Global Instance padd_mor : Proper (peq ==> peq ==> peq) padd.
  Proof. intros a b H c d H' i. cbn. rewrite (H i), (H' i). reflexivity. Qed.
  Global Instance psub_mor : Proper (peq ==> peq ==> peq) psub.
  Proof. intros a b H c d H' i. cbn. rewrite (H i), (H' i). reflexivity. Qed.
  Global Instance popp_mor : Proper (peq ==> peq) popp.
  Proof. intros a b H i. cbn. rewrite (H i). reflexivity. Qed.
  Global Instance pmul_mor : Proper (peq ==> peq ==> peq) pmul.
  Proof.
    intros a b H c d H' k. cbn. unfold conv. apply eqm_zsum. intros i _.
    rewrite (H _), (H' _). reflexivity.
  Qed.
  Global Instance pscale_mor : Proper (eqm q ==> peq ==> peq) pscale.
  Proof. intros c d Hc a b H i. cbn. rewrite Hc, (H i). reflexivity. Qed.

  Definition pexact (a b : apoly N) : Prop := forall i, fn a i = fn b i.
  Lemma pexact_peq a b : pexact a b -> peq a b.
  Proof. intros H i. rewrite (H i). reflexivity. Qed.

  Lemma poly_ring : ring_theory pzero pone padd pmul psub popp peq.
  Proof.
    split; intros; apply pexact_peq; intros i; cbn.
    - ring.
    - ring.
    - ring.
    - transitivity (fn (pmul (pmono 0) x) i); [reflexivity|]. rewrite pmono_mul. f_equal; ring.
    - apply conv_comm; apply fn_anti.
    - apply conv_assoc; apply fn_anti.
    - unfold conv. rewrite <- zsum_add. apply zsum_ext. intros j _. ring.
    - ring.
    - ring.
  Qed.

  Lemma pscale_mul c a b : pexact (pmul (pscale c a) b) (pscale c (pmul a b)).
  Proof. intros i. cbn. unfold conv. rewrite <- zsum_mul_l. apply zsum_ext. intros; ring. Qed.

  Lemma pconst_mul c a : pexact (pmul (pconst c) a) (pscale c a).
  Proof.
    intros i. cbn. unfold conv.
    rewrite (zsum_ext N _ (fun j => c * (fn pone (Z.of_nat j) * fn a (i - Z.of_nat j)))) by (intros; cbn; ring).
    rewrite zsum_mul_l. f_equal. change (fn (pmul (pmono 0) a) i = fn a i).
    rewrite pmono_mul. f_equal; ring.
  Qed.

  Lemma pmono_mono e f : pexact (pmul (pmono e) (pmono f)) (pmono (e + f)).
  Proof. intros i. rewrite pmono_mul. cbn. unfold monof. f_equal; ring. Qed.

  Lemma pmono_N : pexact (pmono (Z.of_nat N)) (popp pone).
  Proof.
    intros i. cbn. unfold monof.
    replace (i - 0) with (i - Z.of_nat N + Z.of_nat N) by ring.
    rewrite ext_antiper by exact HN. ring.
  Qed.

  (** *** Bounds *)
  Definition pbnd (E : Z) (a : apoly N) : Prop := forall i, Z.abs (fn a i) <= E.

  Lemma pbnd_window E a : 0 <= E -> (forall i, (i < N)%nat -> Z.abs (fn a (Z.of_nat i)) <= E) -> pbnd E a.
  Proof.
    intros HE H i. rewrite (antiper_mod N (fn a) i HN (fn_anti a)).
    assert (Hb : 0 <= i mod Z.of_nat N < Z.of_nat N) by (apply Z.mod_pos_bound; lia).
    specialize (H (Z.to_nat (i mod Z.of_nat N)) ltac:(lia)).
    rewrite Z2Nat.id in H by lia.
    destruct (Z.even (i / Z.of_nat N)); lia.
  Qed.

  Lemma pbnd_le E F a : E <= F -> pbnd E a -> pbnd F a.
  Proof. intros H Ha i. specialize (Ha i). lia. Qed.
  Lemma pbnd_add E F a b : pbnd E a -> pbnd F b -> pbnd (E + F) (padd a b).
  Proof. intros Ha Hb i. cbn. specialize (Ha i); specialize (Hb i). lia. Qed.
  Lemma pbnd_sub E F a b : pbnd E a -> pbnd F b -> pbnd (E + F) (psub a b).
  Proof. intros Ha Hb i. cbn. specialize (Ha i); specialize (Hb i). lia. Qed.
  Lemma pbnd_opp E a : pbnd E a -> pbnd E (popp a).
  Proof. intros Ha i. cbn. specialize (Ha i). lia. Qed.
  Lemma pbnd_zero E : 0 <= E -> pbnd E pzero.
  Proof. intros H i. cbn. lia. Qed.
  Lemma pbnd_nonneg E a : pbnd E a -> 0 <= E.
  Proof. intros H. specialize (H 0). lia. Qed.
  Lemma pbnd_mul E F a b : pbnd E a -> pbnd F b -> pbnd (Z.of_nat N * (E * F)) (pmul a b).
  Proof.
    intros Ha Hb k. cbn. unfold conv. apply zsum_abs_bound. intros i _.
    rewrite Z.abs_mul. specialize (Ha (Z.of_nat i)). specialize (Hb (k - Z.of_nat i)). nia.
  Qed.
  Lemma pbnd_mono_mul E e a : pbnd E a -> pbnd E (pmul (pmono e) a).
  Proof. intros Ha k. rewrite pmono_mul. apply Ha. Qed.
  Lemma pbnd_scale E c a : pbnd E a -> pbnd (Z.abs c * E) (pscale c a).
  Proof. intros Ha k. cbn. rewrite Z.abs_mul. specialize (Ha k). nia. Qed.

  (** *** Sums of polynomials *)
  Fixpoint psum (n : nat) (f : nat -> apoly N) : apoly N :=
    match n with O => pzero | S m => padd (psum m f) (f m) end.

  Lemma psum_fn n f i : fn (psum n f) i = zsum n (fun j => fn (f j) i).
  Proof. induction n as [|n IH]; cbn; [reflexivity|]. rewrite IH. reflexivity. Qed.

  Lemma psum_ext n f g : (forall j, (j < n)%nat -> peq (f j) (g j)) -> peq (psum n f) (psum n g).
  Proof. intros H i. rewrite !psum_fn. apply eqm_zsum. intros j Hj. apply (H j Hj). Qed.

  Lemma psum_add n f g : peq (psum n (fun j => padd (f j) (g j))) (padd (psum n f) (psum n g)).
  Proof. intros i. cbn. rewrite !psum_fn. rewrite <- zsum_add. reflexivity. Qed.

  Lemma psum_mul_l n a f : peq (psum n (fun j => pmul a (f j))) (pmul a (psum n f)).
  Proof.
    induction n as [|n IH]; cbn [psum].
    - intros i. cbn. unfold conv. rewrite zsum_zero by (intros; ring). reflexivity.
    - rewrite IH. intros i. cbn. unfold conv. rewrite <- zsum_add.
      apply eqm_eq. apply zsum_ext. intros; ring.
  Qed.

  Lemma psum_bnd n f E : (forall j, (j < n)%nat -> pbnd E (f j)) -> pbnd (Z.of_nat n * E) (psum n f).
  Proof. intros H i. rewrite psum_fn. apply zsum_abs_bound. intros j Hj. apply (H j Hj). Qed.

  Lemma psum_split n m f : peq (psum (n + m) f) (padd (psum n f) (psum m (fun j => f (n + j)%nat))).
  Proof. intros i. cbn. rewrite !psum_fn. rewrite zsum_split. reflexivity. Qed.

  Lemma psum_block n m f :
    peq (psum (n * m) f) (psum n (fun i => psum m (fun j => f (i * m + j)%nat))).
  Proof.
    intros k. rewrite !psum_fn. rewrite zsum_block. apply eqm_eq. apply zsum_ext. intros i _.
    rewrite psum_fn. reflexivity.
  Qed.

  Lemma psum_swap n m f : peq (psum n (fun i => psum m (fun j => f i j))) (psum m (fun j => psum n (fun i => f i j))).
  Proof.
    intros k. rewrite !psum_fn.
    rewrite (zsum_ext n _ (fun i => zsum m (fun j => fn (f i j) k))) by (intros; apply psum_fn).
    rewrite (zsum_ext m (fun j => fn (psum n (fun i => f i j)) k) (fun j => zsum n (fun i => fn (f i j) k))) by (intros; apply psum_fn).
    rewrite zsum_swap. reflexivity.
  Qed.

  (** lists *)
  Lemma pl_peq a b : (forall i, (i < N)%nat -> nth i a 0 == nth i b 0 [mod q]) -> peq (pl a) (pl b).
  Proof.
    intros H i. cbn. unfold ext.
    assert (Hb : 0 <= i mod Z.of_nat N < Z.of_nat N) by (apply Z.mod_pos_bound; lia).
    specialize (H (Z.to_nat (i mod Z.of_nat N)) ltac:(lia)).
    destruct (Z.even (i / Z.of_nat N)); rewrite H; reflexivity.
  Qed.

  Lemma pl_peq_fn a (b : apoly N) : (forall i, (i < N)%nat -> nth i a 0 == fn b (Z.of_nat i) [mod q]) -> peq (pl a) b.
  Proof.
    intros H i. rewrite (antiper_mod N (fn b) i HN (fn_anti b)). cbn. unfold ext.
    assert (Hb : 0 <= i mod Z.of_nat N < Z.of_nat N) by (apply Z.mod_pos_bound; lia).
    specialize (H (Z.to_nat (i mod Z.of_nat N)) ltac:(lia)).
    rewrite Z2Nat.id in H by lia.
    destruct (Z.even (i / Z.of_nat N)); rewrite H; apply eqm_eq; ring.
  Qed.

  Lemma peq_nth a (b : apoly N) i : peq (pl a) b -> (i < N)%nat -> nth i a 0 == fn b (Z.of_nat i) [mod q].
  Proof. intros H Hi. rewrite <- (H (Z.of_nat i)). cbn. rewrite ext_nat by exact Hi. reflexivity. Qed.

  Lemma peq_window (a b : apoly N) :
    (forall i, (i < N)%nat -> fn a (Z.of_nat i) == fn b (Z.of_nat i) [mod q]) -> peq a b.
  Proof.
    intros H i. rewrite (antiper_mod N (fn a) i HN (fn_anti a)), (antiper_mod N (fn b) i HN (fn_anti b)).
    assert (Hb : 0 <= i mod Z.of_nat N < Z.of_nat N) by (apply Z.mod_pos_bound; lia).
    specialize (H (Z.to_nat (i mod Z.of_nat N)) ltac:(lia)).
    rewrite Z2Nat.id in H by lia. rewrite H. reflexivity.
  Qed.
End Ring.

(** *** Independent specification of the negacyclic product: coefficient [k] of a*b in Z[X]/(X^N+1). *)
Definition nega_coeff (N : nat) (a b : nat -> Z) (k : nat) : Z :=
  zsum N (fun i => if (i <=? k)%nat then a i * b (k - i)%nat else - (a i * b (k + N - i)%nat)).

Lemma conv_nega_coeff N a b k :
  (k < N)%nat ->
  conv N (ext N a) (ext N b) (Z.of_nat k) = nega_coeff N (fun i => nth i a 0) (fun i => nth i b 0) k.
Proof.
  intros Hk. unfold conv, nega_coeff. apply zsum_ext. intros i Hi.
  rewrite ext_nat by exact Hi.
  destruct (Nat.leb_spec i k) as [Hle|Hgt].
  - rewrite <- Nat2Z.inj_sub by exact Hle. rewrite ext_nat by lia. reflexivity.
  - replace (Z.of_nat k - Z.of_nat i) with (Z.of_nat (k + N - i) - Z.of_nat N) by lia.
    rewrite antiper_neg by (apply ext_antiper; lia). rewrite ext_nat by lia. ring.
Qed.
