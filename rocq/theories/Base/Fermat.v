(** Fermat's little theorem, the bound on the number of roots, and existence of elements of given order modulo a prime. *)
From Coq Require Import ZArith Znumtheory List Lia Setoid Morphisms Permutation.
From Verif Require Import Base.ZSum Base.Modeq Base.Egcd Base.Powm.
Import ListNotations.
Local Open Scope Z_scope.

Definition lprod (l : list Z) : Z := fold_right Z.mul 1 l.
Lemma lprod_perm l l' : Permutation l l' -> lprod l = lprod l'.
Proof. induction 1; cbn [lprod fold_right] in *; unfold lprod in *; try congruence; lia. Qed.
Lemma lprod_scale q a l : lprod (map (fun x => (a * x) mod q) l) == pw a (length l) * lprod l [mod q].
Proof.
  induction l as [|x l IH]; [reflexivity |]. cbn [map length]. unfold lprod in *. cbn [fold_right]. rewrite pw_S, IH, eqm_mod. apply eqm_eq. ring.
Qed.

Lemma prime_nz q x : prime q -> x == 0 [mod q] <-> (q | x).
Proof. intros _. unfold eqm. rewrite Z.sub_0_r. reflexivity. Qed.
Lemma prime_integral q x y : prime q -> x * y == 0 [mod q] -> x == 0 [mod q] \/ y == 0 [mod q].
Proof. intros Hq. rewrite !prime_nz by exact Hq. apply prime_mult. exact Hq. Qed.
Lemma prime_cancel q x y z : prime q -> ~ (x == 0 [mod q]) -> x * y == x * z [mod q] -> y == z [mod q].
Proof.
  intros Hq Hx H. assert (E : x * (y - z) == 0 [mod q]).
  { rewrite Z.mul_sub_distr_l, H. apply eqm_eq. ring. }
  destruct (prime_integral q _ _ Hq E) as [| F]; [contradiction |].
  unfold eqm in *. rewrite Z.sub_0_r in F. exact F.
Qed.
Lemma small_nz q x : 0 < x < q -> ~ (x == 0 [mod q]).
Proof. intros Hx [k Hk]. assert (k <= 0 \/ 1 <= k) as [|] by lia; nia. Qed.
Lemma pw_nz q x n : prime q -> ~ (x == 0 [mod q]) -> ~ (pw x n == 0 [mod q]).
Proof.
  intros Hq Hx. induction n as [|n IH].
  - rewrite pw_0. apply small_nz. destruct Hq. lia.
  - rewrite pw_S. intros H. destruct (prime_integral q _ _ Hq H); auto.
Qed.

Lemma nodup_map_in {A B} (f : A -> B) l : (forall x y, In x l -> In y l -> f x = f y -> x = y) -> NoDup l -> NoDup (map f l).
Proof.
  induction l as [|a l IH]; intros Hf Hn; [constructor |]. inversion_clear Hn as [|? ? N1 N2]. cbn. constructor.
  - intros H. apply in_map_iff in H. destruct H as (y & E & Hy). apply N1.
    rewrite (Hf a y (or_introl eq_refl) (or_intror Hy) (eq_sym E)). exact Hy.
  - apply IH; [| exact N2]. intros x y Hx Hy. apply Hf; right; assumption.
Qed.

Definition units (q : Z) : list Z := map Z.of_nat (seq 1 (Z.to_nat (q - 1))).
Lemma in_units q x : In x (units q) <-> 1 <= x < q.
Proof.
  unfold units. rewrite in_map_iff. split.
  - intros (n & <- & H). apply in_seq in H. lia.
  - intros H. exists (Z.to_nat x). split; [lia |]. apply in_seq. lia.
Qed.
Lemma units_nodup q : NoDup (units q).
Proof. unfold units. apply FinFun.Injective_map_NoDup; [intros a b; lia | apply seq_NoDup]. Qed.
Lemma units_length q : 1 <= q -> length (units q) = Z.to_nat (q - 1).
Proof. intros. unfold units. rewrite map_length, seq_length. reflexivity. Qed.

Theorem fermat q a : prime q -> ~ (a == 0 [mod q]) -> pw a (Z.to_nat (q - 1)) == 1 [mod q].
Proof.
  intros Hq Ha. assert (Q : 1 < q) by (destruct Hq; lia).
  assert (P : Permutation (map (fun x => (a * x) mod q) (units q)) (units q)).
  { apply NoDup_Permutation_bis.
    - apply nodup_map_in; [| apply units_nodup].
      intros x y Hx Hy E. apply in_units in Hx, Hy.
      apply (eqm_small q); [lia | lia |]. apply (prime_cancel q a); [exact Hq | exact Ha |]. apply eqm_mod_iff; [lia | exact E].
    - rewrite map_length. lia.
    - intros y Hy. apply in_map_iff in Hy. destruct Hy as (x & <- & Hx). apply in_units in Hx. apply in_units.
      pose proof (Z.mod_pos_bound (a * x) q ltac:(lia)).
      assert ((a * x) mod q <> 0); [| lia]. intros E.
      assert (a * x == 0 [mod q]) by (rewrite <- (eqm_mod q (a * x)), E; reflexivity).
      destruct (prime_integral q _ _ Hq H0); [contradiction |]. apply (small_nz q x); [lia | assumption]. }
  apply lprod_perm in P. pose proof (lprod_scale q a (units q)) as S. rewrite P, (units_length q ltac:(lia)) in S.
  assert (N : ~ (lprod (units q) == 0 [mod q])).
  { assert (G : forall l, (forall x, In x l -> 1 <= x < q) -> ~ (lprod l == 0 [mod q])).
    { induction l as [|x l IH]; intros Hl.
      - cbn. apply small_nz. lia.
      - unfold lprod in *. cbn [fold_right]. intros E. destruct (prime_integral q _ _ Hq E) as [F | F].
        + apply (small_nz q x); [specialize (Hl x (or_introl eq_refl)); lia | exact F].
        + apply IH in F; [exact F |]. intros y Hy. apply Hl. right. exact Hy. }
    apply G. intros x Hx. apply in_units. exact Hx. }
  symmetry. apply (prime_cancel q (lprod (units q))); [exact Hq | exact N |].
  rewrite Z.mul_1_r. rewrite (Z.mul_comm (lprod _)). exact S.
Qed.

(** *** Polynomials as coefficient lists, lowest first *)
Fixpoint pev (p : list Z) (x : Z) : Z := match p with [] => 0 | c :: l => c + x * pev l x end.
Fixpoint quot (p : list Z) (r : Z) : list Z :=
  match p with [] => [] | c :: l => match l with [] => [] | _ => pev l r :: quot l r end end.

Lemma quot_length p r : length (quot p r) = Nat.pred (length p).
Proof. induction p as [|c l IH]; [reflexivity |]. cbn [quot]. destruct l; [reflexivity |]. cbn [length] in *. rewrite IH. reflexivity. Qed.
Lemma pev_quot p r x : pev p x = pev p r + (x - r) * pev (quot p r) x.
Proof.
  induction p as [|c l IH]; [cbn; ring |]. cbn [quot]. destruct l as [|c' l']; [cbn; ring |].
  cbn [pev] in IH |- *. set (m := c' + x * pev l' x) in *. rewrite IH. ring.
Qed.
Lemma quot_zero q p r : pev p r == 0 [mod q] -> Forall (fun c => c == 0 [mod q]) (quot p r) -> Forall (fun c => c == 0 [mod q]) p.
Proof.
  induction p as [|c l IH]; intros H0 HF; [constructor |]. cbn [quot] in HF. destruct l as [|c' l'].
  - cbn [pev] in H0. constructor; [| constructor]. rewrite <- H0. apply eqm_eq. ring.
  - inversion_clear HF as [|? ? F1 F2]. specialize (IH F1 F2). constructor; [| exact IH].
    change (pev (c :: c' :: l') r) with (c + r * pev (c' :: l') r) in H0. rewrite F1 in H0. rewrite <- H0. apply eqm_eq. ring.
Qed.

(** a polynomial with at least as many incongruent roots as coefficients is zero *)
Theorem roots_bound q : prime q -> forall roots p, (length p <= length roots)%nat ->
  NoDup roots -> (forall x, In x roots -> 0 <= x < q) -> (forall x, In x roots -> pev p x == 0 [mod q]) ->
  Forall (fun c => c == 0 [mod q]) p.
Proof.
  intros Hq. induction roots as [|r roots IH]; intros p Hl Hn Hb Hr.
  - destruct p; [constructor | cbn in Hl; lia].
  - apply (quot_zero q p r); [apply Hr; left; reflexivity |].
    inversion_clear Hn as [|? ? N1 N2].
    apply IH; [rewrite quot_length; cbn in Hl; lia | exact N2 | intros x Hx; apply Hb; right; exact Hx |].
    intros x Hx. pose proof (Hr x (or_intror Hx)) as E. rewrite (pev_quot p r x) in E. rewrite (Hr r (or_introl eq_refl)) in E.
    assert (E' : (x - r) * pev (quot p r) x == 0 [mod q]) by (rewrite <- E; apply eqm_eq; ring).
    destruct (prime_integral q _ _ Hq E') as [F |]; [| assumption]. exfalso. apply N1.
    assert (x = r). { apply (eqm_small q); [apply Hb; right; exact Hx | apply Hb; left; reflexivity |]. unfold eqm in *. rewrite Z.sub_0_r in F. exact F. }
    subst. exact Hx.
Qed.

Lemma pev_app p p' x : pev (p ++ p') x = pev p x + pw x (length p) * pev p' x.
Proof.
  induction p as [|c l IH]; [cbn [app pev length]; rewrite pw_0; ring |]. cbn [app pev length]. rewrite IH, pw_S. ring.
Qed.
Lemma pev_zeros n x : pev (repeat 0 n) x = 0.
Proof. induction n as [|n IH]; [reflexivity |]. cbn [repeat pev]. rewrite IH. ring. Qed.

(** X^n - 1, n > 0 *)
Definition xn1 (n : nat) : list Z := (-1) :: repeat 0 (n - 1) ++ [1].
Lemma xn1_eval n x : (0 < n)%nat -> pev (xn1 n) x = pw x n - 1.
Proof.
  intros Hn. unfold xn1. cbn [pev]. rewrite pev_app, pev_zeros, repeat_length. cbn [pev].
  replace (pw x n) with (pw x (S (n - 1))) by (f_equal; lia). rewrite pw_S. ring.
Qed.

(** fewer than q-1 exponents: some unit is not a root of X^n - 1 *)
Theorem exists_nonroot q n : prime q -> (0 < n)%nat -> Z.of_nat n < q - 1 -> exists t, 2 <= t < q /\ ~ (pw t n == 1 [mod q]).
Proof.
  intros Hq Hn Hlt. assert (Q : 1 < q) by (destruct Hq; lia).
  destruct (Forall_Exists_dec (fun t => pw t n == 1 [mod q])
    (fun t => match Z.eq_dec (pw t n mod q) (1 mod q) with left e => left (proj2 (eqm_mod_iff q _ _ ltac:(lia)) e)
              | right ne => right (fun h => ne (proj1 (eqm_mod_iff q _ _ ltac:(lia)) h)) end) (units q)) as [HF | HE].
  - exfalso. rewrite Forall_forall in HF.
    assert (Z0 : Forall (fun c => c == 0 [mod q]) (xn1 n)).
    { apply (roots_bound q Hq (units q)).
      - unfold xn1. cbn [length]. rewrite app_length, repeat_length. cbn [length]. rewrite units_length by lia. lia.
      - apply units_nodup.
      - intros x Hx. apply in_units in Hx. lia.
      - intros x Hx. rewrite xn1_eval by exact Hn. rewrite (HF x Hx). apply eqm_eq. ring. }
    unfold xn1 in Z0. inversion_clear Z0 as [|? ? A _]. apply (small_nz q 1 ltac:(lia)).
    assert (E : 1 = - -1) by reflexivity. rewrite E, A. reflexivity.
  - apply Exists_exists in HE. destruct HE as (t & Ht & N). apply in_units in Ht. exists t. split; [| exact N].
    assert (t <> 1); [| lia]. intros ->. apply N. rewrite pw_one. reflexivity.
Qed.

(** square roots of 1 *)
Lemma square_one q x : prime q -> x * x == 1 [mod q] -> x == 1 [mod q] \/ x == -1 [mod q].
Proof.
  intros Hq H. assert (E : (x - 1) * (x + 1) == 0 [mod q]).
  { transitivity (x * x - 1); [apply eqm_eq; ring |]. rewrite H. reflexivity. }
  destruct (prime_integral q _ _ Hq E) as [F | F]; [left | right]; unfold eqm in *; rewrite Z.sub_0_r in F; [exact F |].
  replace (x - -1) with (x + 1) by ring. exact F.
Qed.
