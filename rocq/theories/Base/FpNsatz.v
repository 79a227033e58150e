(** Fp p is an integral domain for nsatz. *)
From Coq Require Import ZArith Znumtheory Field NsatzTactic.
From Verif Require Import Base.Fp.
Section S.
Variable p : positive.
Hypothesis Hp : prime (Zpos p).
Notation F := (Fp p).
Add Field FpF : (Fp_field p Hp).
Instance Fp_ops : @Ring_ops F (of_Z 0) (of_Z 1) f_add f_mul f_sub f_opp (@eq F) := {}.
Instance Fp_Ring : Ring (Ro := Fp_ops).
Proof. split; try (intros; cbv [Equality equality eq_notation addition add_notation multiplication mul_notation subtraction sub_notation opposite opp_notation zero one zero_notation one_notation]; ring); try (repeat intro; congruence); try typeclasses eauto. Defined.
Instance Fp_Cring : Cring (Rr := Fp_Ring).
Proof. intros x y. change (f_mul x y = f_mul y x). ring. Defined.
Lemma Fp_integral (x y : F) : f_mul x y = of_Z 0 -> x = of_Z 0 \/ y = of_Z 0.
Proof.
  intros E. destruct (f_eq_dec y (of_Z 0)) as [| N]; [right; assumption | left]. assert (E' : x = f_div (f_mul x y) y) by (field; exact N). rewrite E', E. field. exact N.
Qed.
Instance Fp_domain : Integral_domain (Rcr := Fp_Cring).
Proof. split; [exact Fp_integral | exact (F_1_neq_0 (Fp_field p Hp))]. Defined.
End S.
