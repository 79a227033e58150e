(** Stepping through the reference coordinate systems: the field operations of the model compute in Fp p. *)
From Coq Require Import ZArith List Bool Lia Znumtheory.
From Verif Require Import Base.Modeq Base.Powm Base.Fermat Base.Egcd Base.Fp Ec.Model_reffield Ec.Model_curve Ec.Spec_curve Ec.Prop_reffield.
Import ListNotations.
Local Open Scope Z_scope.

Notation el a := (FE (val a) (Zpos _)).
Section Ops.
Variable p : positive.
Lemma fe_add_raw u v : fe_add (FE u (Zpos p)) (FE v (Zpos p)) = Some (FE (val (f_add (@of_Z p u) (of_Z v))) (Zpos p)).
Proof. unfold fe_add. cbn [fe_prime fe_value]. rewrite Z.eqb_refl. cbn [negb]. rewrite fe_new_ok by (apply Z.mod_pos_bound; reflexivity). rewrite of_Z_add. reflexivity. Qed.
Lemma fe_sub_raw u v : fe_sub (FE u (Zpos p)) (FE v (Zpos p)) = Some (FE (val (f_sub (@of_Z p u) (of_Z v))) (Zpos p)).
Proof. unfold fe_sub. cbn [fe_prime fe_value]. rewrite Z.eqb_refl. cbn [negb]. rewrite fe_new_ok by (apply Z.mod_pos_bound; reflexivity). rewrite of_Z_sub. reflexivity. Qed.
Lemma fe_mul_raw u v : fe_mul (FE u (Zpos p)) (FE v (Zpos p)) = Some (FE (val (f_mul (@of_Z p u) (of_Z v))) (Zpos p)).
Proof. unfold fe_mul. cbn [fe_prime fe_value]. rewrite Z.eqb_refl. cbn [negb]. rewrite fe_new_ok by (apply Z.mod_pos_bound; reflexivity). rewrite of_Z_mul. reflexivity. Qed.
Lemma of_Z_pow e u : 0 <= e -> @of_Z p (u ^ e) = of_Z (val (@of_Z p u) ^ e).
Proof. intros He. apply of_Z_eq. apply pow_eqm; [exact He |]. cbn. symmetry. apply eqm_mod. Qed.
Lemma fe_div_raw u v : 2 <= Zpos p -> fe_div (FE u (Zpos p)) (FE v (Zpos p)) = Some (FE (val (f_div (@of_Z p u) (of_Z v))) (Zpos p)).
Proof.
  intros P2. unfold fe_div. cbn [fe_prime fe_value]. rewrite Z.eqb_refl. cbn [negb]. rewrite powmod_ok by lia. rewrite fe_new_ok by (apply Z.mod_pos_bound; reflexivity).
  unfold f_div, f_inv. rewrite <- of_Z_pow by lia. rewrite of_Z_mul. do 2 f_equal. cbn [val of_Z]. apply eqm_mod_iff; [reflexivity |]. rewrite (eqm_mod _ (v ^ _)). reflexivity.
Qed.
Lemma fe_eq_el (a b : Fp p) : fe_eq (FE (val a) (Zpos p)) (FE (val b) (Zpos p)) = true <-> a = b.
Proof. unfold fe_eq. cbn [fe_value fe_prime]. rewrite Z.eqb_refl, andb_true_r, Z.eqb_eq. split; [apply val_inj | intros ->; reflexivity]. Qed.
Lemma elem_raw (a : Fp p) x : elem a x -> exists u, x = FE u (Zpos p) /\ of_Z u = a.
Proof. destruct x as [u q]. intros [E1 E2]. cbn in E1, E2. subst q. exists u. auto. Qed.
Lemma elem_el (a : Fp p) : elem a (FE (val a) (Zpos p)).
Proof. split; [reflexivity | apply of_Z_val]. Qed.
Lemma forall2_4 {A B} (R : A -> B -> Prop) a b c d l : Forall2 R [a; b; c; d] l -> exists a' b' c' d', l = [a'; b'; c'; d'] /\ R a a' /\ R b b' /\ R c c' /\ R d d'.
Proof. intros H. inversion H as [| ? ? ? ? H1 H']; subst. inversion H' as [| ? ? ? ? H2 H'']; subst. inversion H'' as [| ? ? ? ? H3 H3']; subst. inversion H3' as [| ? ? ? ? H4 H4']; subst. inversion H4'; subst. do 4 eexists. eauto. Qed.
Lemma forall2_3 {A B} (R : A -> B -> Prop) a b c l : Forall2 R [a; b; c] l -> exists a' b' c', l = [a'; b'; c'] /\ R a a' /\ R b b' /\ R c c'.
Proof. intros H. inversion H as [| ? ? ? ? H1 H']; subst. inversion H' as [| ? ? ? ? H2 H'']; subst. inversion H'' as [| ? ? ? ? H3 H3']; subst. inversion H3'; subst. do 3 eexists. eauto. Qed.
End Ops.
(** the coordinates of a represented point are field elements *)
Ltac open4 H := let a := fresh "u" in let b := fresh "u" in let c := fresh "u" in let d := fresh "u" in
  apply forall2_4 in H; destruct H as (a & b & c & d & -> & H1 & H2 & H3 & H4);
  apply elem_raw in H1; apply elem_raw in H2; apply elem_raw in H3; apply elem_raw in H4;
  destruct H1 as (? & -> & ?E), H2 as (? & -> & ?E), H3 as (? & -> & ?E), H4 as (? & -> & ?E).
Ltac open3 H := let a := fresh "u" in let b := fresh "u" in let c := fresh "u" in
  apply forall2_3 in H; destruct H as (a & b & c & -> & H1 & H2 & H3);
  apply elem_raw in H1; apply elem_raw in H2; apply elem_raw in H3;
  destruct H1 as (? & -> & ?E), H2 as (? & -> & ?E), H3 as (? & -> & ?E).
Ltac fstep := first [rewrite fe_add_raw | rewrite fe_sub_raw | rewrite fe_mul_raw | rewrite fe_div_raw by assumption]; rewrite ?of_Z_val.
Ltac fsteps := repeat fstep.
