(** The integers modulo p as a type with decidable, Leibniz equality; a field when p is prime. *)
From Coq Require Import ZArith Bool Lia Znumtheory Eqdep_dec Field_theory Setoid.
From Verif Require Import Base.Modeq Base.Powm Base.Fermat.
Local Open Scope Z_scope.

Section Def.
Variable p : positive.
Definition in_range (v : Z) : bool := (0 <=? v) && (v <? Zpos p).
Record Fp := MkFp { val : Z; val_ok : in_range val = true }.
Lemma mod_in_range v : in_range (v mod Zpos p) = true.
Proof. unfold in_range. pose proof (Z.mod_pos_bound v (Zpos p) eq_refl). destruct (Z.leb_spec 0 (v mod Zpos p)); [| lia]. destruct (Z.ltb_spec (v mod Zpos p) (Zpos p)); [reflexivity | lia]. Qed.
Definition of_Z (v : Z) : Fp := MkFp (v mod Zpos p) (mod_in_range v).
Definition f_add (a b : Fp) : Fp := of_Z (val a + val b).
Definition f_sub (a b : Fp) : Fp := of_Z (val a - val b).
Definition f_mul (a b : Fp) : Fp := of_Z (val a * val b).
Definition f_opp (a : Fp) : Fp := of_Z (- val a).
Definition f_inv (a : Fp) : Fp := of_Z (val a ^ (Zpos p - 2)).
Definition f_div (a b : Fp) : Fp := f_mul a (f_inv b).
End Def.
Arguments val {p} _. Arguments of_Z {p} _. Arguments f_add {p} _ _. Arguments f_sub {p} _ _. Arguments f_mul {p} _ _.
Arguments f_opp {p} _. Arguments f_inv {p} _. Arguments f_div {p} _ _.

Lemma val_range {p} (a : Fp p) : 0 <= val a < Zpos p.
Proof. destruct a as [v H]. cbn. unfold in_range in H. apply andb_true_iff in H. destruct H as [H1 H2]. apply Z.leb_le in H1. apply Z.ltb_lt in H2. lia. Qed.
Lemma val_inj {p} (a b : Fp p) : val a = val b -> a = b.
Proof. destruct a as [v H], b as [w H']. cbn. intros ->. f_equal. apply UIP_dec. apply bool_dec. Qed.
Lemma of_Z_val {p} (a : Fp p) : of_Z (val a) = a.
Proof. apply val_inj. cbn. apply Z.mod_small. apply val_range. Qed.
Lemma val_of_Z {p} v : val (@of_Z p v) = v mod Zpos p.
Proof. reflexivity. Qed.
Lemma of_Z_eq {p} u v : @of_Z p u = of_Z v <-> (u == v [mod Zpos p]).
Proof.
  split; intros H.
  - apply eqm_mod_iff; [reflexivity |]. exact (f_equal val H).
  - apply val_inj. cbn. apply (proj1 (eqm_mod_iff (Zpos p) u v eq_refl)). exact H.
Qed.
Lemma of_Z_add {p} u v : f_add (@of_Z p u) (of_Z v) = of_Z (u + v).
Proof. apply of_Z_eq. cbn. rewrite !eqm_mod. reflexivity. Qed.
Lemma of_Z_sub {p} u v : f_sub (@of_Z p u) (of_Z v) = of_Z (u - v).
Proof. apply of_Z_eq. cbn. rewrite !eqm_mod. reflexivity. Qed.
Lemma of_Z_mul {p} u v : f_mul (@of_Z p u) (of_Z v) = of_Z (u * v).
Proof. apply of_Z_eq. cbn. rewrite !eqm_mod. reflexivity. Qed.
Lemma of_Z_opp {p} u : f_opp (@of_Z p u) = of_Z (- u).
Proof. apply of_Z_eq. cbn. rewrite !eqm_mod. reflexivity. Qed.
Lemma f_eq_dec {p} (a b : Fp p) : {a = b} + {a <> b}.
Proof. destruct (Z.eq_dec (val a) (val b)) as [E | N]; [left; apply val_inj; exact E | right; intros ->; apply N; reflexivity]. Qed.

Lemma Fp_ring p : ring_theory (@of_Z p 0) (of_Z 1) f_add f_mul f_sub f_opp eq.
Proof.
  split; intros; repeat match goal with |- context [?a] => match type of a with Fp _ => is_var a; rewrite <- (of_Z_val a); generalize (val a); clear a; intro end end;
    rewrite ?of_Z_opp, ?of_Z_add, ?of_Z_mul, ?of_Z_sub, ?of_Z_add, ?of_Z_mul; try rewrite of_Z_opp; try rewrite of_Z_add; f_equal; ring.
Qed.
Lemma pow_eqm m a b e : 0 <= e -> (a == b [mod m]) -> (a ^ e == b ^ e [mod m]).
Proof.
  intros He H. pattern e. apply natlike_ind; [reflexivity | | exact He]. intros x Hx IH. rewrite !Z.pow_succ_r by exact Hx. apply eqm_mul_mor; assumption.
Qed.
Lemma Fp_nz {p} (a : Fp p) : a <> of_Z 0 -> ~ (val a == 0 [mod Zpos p]).
Proof. intros H E. apply H. rewrite <- (of_Z_val a). apply of_Z_eq. exact E. Qed.
Lemma Fp_field p : prime (Zpos p) -> field_theory (@of_Z p 0) (of_Z 1) f_add f_mul f_sub f_opp f_div f_inv eq.
Proof.
  intros Hp. split.
  - apply Fp_ring.
  - intros E. pose proof (prime_ge_2 _ Hp). apply (f_equal val) in E. cbn [val of_Z] in E. rewrite Z.mod_1_l, Z.mod_0_l in E by lia. lia.
  - reflexivity.
  - intros a Ha. pose proof (Fp_nz a Ha) as N. apply val_inj. cbn [val f_mul of_Z f_inv]. apply eqm_mod_iff; [reflexivity |]. rewrite (eqm_mod _ (val a ^ _)). pose proof (prime_ge_2 _ Hp) as P2.
    pose proof (fermat _ _ Hp N) as F. unfold pw in F. rewrite Z2Nat.id in F by lia. replace (Zpos p - 1) with (Z.succ (Zpos p - 2)) in F by lia. rewrite Z.pow_succ_r in F by lia. rewrite Z.mul_comm. exact F.
Qed.
