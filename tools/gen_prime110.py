#!/usr/bin/env python3
"""Writes rocq/theories/Ec/Prime110.v: a certificate that 2^110 + 45050585342630109 is prime."""
import math, os
src = open(os.path.join(os.path.dirname(os.path.abspath(__file__)), "gen_prime377.py")).read()
exec(src[src.index("out = []"):src.index('emit("""')])
N = 2**110 + 45050585342630109
q1, q2, q3 = 201961, 3517, 3191
F = q1 * q2 * q3; R = (N - 1) // F; c, d = divmod(R, F)
assert (N - 1) % F == 0 and c < d - 1
a = next(a for a in range(2, 99) if all(math.gcd(pow(a, (N - 1) // q, N) - 1, N) == 1 for q in (q1, q2, q3)))
emit("""(** A prime just above a power of two.  Written by tools/gen_prime110.py: a certificate for Base/Pocklington with
    N - 1 = %d * %d * %d * rest. *)
From Coq Require Import ZArith Znumtheory List.
From Verif Require Import Base.Modeq Base.PrimeCheck Base.Pocklington.
Import ListNotations.
Local Open Scope Z_scope.
""" % (q1, q2, q3))
emit("Definition p110 : Z := 2 ^ 110 + 45050585342630109.\nDefinition pW : Z := %d.\nDefinition Wr : Z := %d." % (N, R))
g, eg = step("Wg", N, "pW", a, "1", str(a), a, R, "Wr")
b3, eb3 = step("Wb", N, "pW", a, eg, "Wg", g, q3, str(q3))
x1, e1 = step("W1", N, "pW", a, eb3, "Wb", b3, q2, str(q2))
x2, e2 = step("W2", N, "pW", a, eb3, "Wb", b3, q1, str(q1))
x3, e3 = step("W3", N, "pW", a, eg, "Wg", g, q1 * q2, str(q1 * q2))
o, eo = step("Wo", N, "pW", a, e1, "W1", x1, q1, str(q1)); assert o == 1
vm("pW_exp", "%s = pW - 1" % eo)
emit("Lemma pW_one : is_pow pW %d (pW - 1) 1. Proof. exact (is_pow_exp _ _ _ _ _ Wo_pow pW_exp). Qed." % a)
for q in (q1, q2, q3): emit("Lemma prime_%d : prime %d. Proof. apply prime_check_sound. vm_compute. reflexivity. Qed." % (q, q))
for n, q, x, xn, xe in (("Ww1", q1, x1, "W1", e1), ("Ww2", q2, x2, "W2", e2), ("Ww3", q3, x3, "W3", e3)):
    wit(n, N, "pW", a, q, str(q), 1, x, xn, xe, "Wo", eo, "prime_%d" % q)
emit("Definition WF : Z := %d." % F)
vm("WF_split", "WF = %d * %d * %d" % (q1, q2, q3))
vm("pW_shape", "pW = (%d * WF + %d) * WF + 1" % (c, d))
emit("""Lemma prime_pW : prime pW.
Proof.
  apply (bls pW WF %d %d); [reflexivity | discriminate | split; [discriminate | reflexivity] | reflexivity | exact pW_shape |].
  intros r Pr Dr. rewrite WF_split. apply mul_divides; [vm_compute; reflexivity | apply mul_divides; [vm_compute; reflexivity | |] |].
  - exact (witness_divides_1 pW _ _ r eq_refl Ww1 Pr Dr).
  - exact (witness_divides_1 pW _ _ r eq_refl Ww2 Pr Dr).
  - exact (witness_divides_1 pW _ _ r eq_refl Ww3 Pr Dr).
Qed.
Lemma p110_eq : p110 = pW. Proof. vm_compute. reflexivity. Qed.
Theorem prime_110 : prime p110.
Proof. rewrite p110_eq. exact prime_pW. Qed.""" % (c, d))
open(os.path.join(os.path.dirname(os.path.abspath(__file__)), "..", "rocq", "theories", "Ec", "Prime110.v"), "w").write("\n".join(out) + "\n")
