#!/usr/bin/env python3
"""Writes rocq/theories/Ec/Prime377.v: a Brillhart-Lehmer-Selfridge certificate for MODULUS_377_INT."""
import math, os
p = 0x01AE3A4617C510EAC63B05C06CA1493B1A22D9F300F5138F1EF3622FBA094800170B5D44300000008508C00000000001
Q = 6633514200929891813
out = []
def emit(s): out.append(s)
def vm(name, stmt): emit("Lemma %s : %s. Proof. vm_compute. reflexivity. Qed." % (name, stmt))
def chain(base, f, N):
    x, l = base, []
    for b in bin(f)[3:]:
        t = x * x; k = t // N; x = t % N; k2 = 0
        if b == '1': t = x * base; k2 = t // N; x = t % N
        l.append((b == '1', k, k2))
    return l, x
def step(name, N, nname, a, e, bname, base, f, fname):
    """name := base ^ f mod N; e is the exponent (a Coq term) with base = a ^ e"""
    l, y = chain(base, f, N)
    emit("Definition %s : Z := %d." % (name, y))
    emit("Definition %s_q : list (bool * Z * Z) := [%s]." % (name, "; ".join("(%s, %d, %d)" % ("true" if b else "false", k, k2) for b, k, k2 in l)))
    vm(name + "_bits", "bits_value 1 %s_q = %s" % (name, fname))
    vm(name + "_run", "powq %s %s %s %s_q = %s" % (nname, bname, bname, name, name))
    prev = "is_pow_base %s %d" % (nname, a) if bname == str(a) else bname + "_pow"
    emit("Lemma %s_pow : is_pow %s %d (%s * %s) %s. Proof. exact (is_pow_step _ _ _ _ _ _ _ (%s) %s_bits %s_run). Qed." % (name, nname, a, e, fname, name, prev, name, name))
    return y, "%s * %s" % (e, fname)
def wit(name, N, nname, a, q, qname, j, x, xname, xe, one, onee, primep):
    w = pow(x - 1, -1, N); k = ((x - 1) * w - 1) // N; m = (N - 1) // q ** j
    vm(name + "_exp", "%s = (%s - 1) / %s" % (xe, nname, qname))
    vm(name + "_inv", "(%s - 1) * %d - 1 = %d * %s" % (xname, w, k, nname))
    vm(name + "_div", "%s - 1 = %d * %s ^ %d" % (nname, m, qname, j))
    emit("Lemma %s : witness %s %d %s %d. Proof. exact (witness_intro %s %d %s %d _ _ _ _ %s eq_refl %s_div %s_one (is_pow_exp _ _ _ _ _ %s_pow %s_exp) %s_inv). Qed." % (name, nname, a, qname, j, nname, a, qname, j, primep, name, nname, xname, name, name))

emit("""(** MODULUS_377_INT is prime.  Written by tools/gen_prime377.py: a certificate for Base/Pocklington.  With
    N - 1 = 2^46 * 499 * 2557 * Q * rest and Q = %d, the base 5 meets Pocklington's condition at 2, 499, 2557
    and Q; Q - 1 is treated the same way. *)
From Coq Require Import ZArith Znumtheory List.
From Verif Require Import Base.Modeq Base.PrimeCheck Base.Pocklington Ec.Model_util.
Import ListNotations.
Local Open Scope Z_scope.
""" % Q)
# ---- Q
q1, q2 = 25537, 47521
F = q1 * q2; R = (Q - 1) // F; c, d = divmod(R, F)
assert c < d - 1 and (Q - 1) % F == 0
a = next(a for a in range(2, 99) if all(math.gcd(pow(a, (Q - 1) // q, Q) - 1, Q) == 1 for q in (q1, q2)))
emit("Definition pQ : Z := %d.\nDefinition Qr : Z := %d." % (Q, R))
g, eg = step("Qg", Q, "pQ", a, "1", str(a), a, R, "Qr")
x1, e1 = step("Qa", Q, "pQ", a, eg, "Qg", g, q2, str(q2))
x2, e2 = step("Qb", Q, "pQ", a, eg, "Qg", g, q1, str(q1))
x3, e3 = step("Qo", Q, "pQ", a, e1, "Qa", x1, q1, str(q1)); assert x3 == 1
vm("pQ_exp", "%s = pQ - 1" % e3)
emit("Lemma pQ_one : is_pow pQ %d (pQ - 1) 1. Proof. exact (is_pow_exp _ _ _ _ _ Qo_pow pQ_exp). Qed." % a)
for q in (q1, q2): emit("Lemma prime_%d : prime %d. Proof. apply prime_check_sound. vm_compute. reflexivity. Qed." % (q, q))
wit("Qw1", Q, "pQ", a, q1, str(q1), 1, x1, "Qa", e1, "Qo", e3, "prime_%d" % q1)
wit("Qw2", Q, "pQ", a, q2, str(q2), 1, x2, "Qb", e2, "Qo", e3, "prime_%d" % q2)
vm("pQ_shape", "pQ = (%d * (%d * %d) + %d) * (%d * %d) + 1" % (c, q1, q2, d, q1, q2))
emit("""Lemma prime_Q : prime pQ.
Proof.
  apply (bls pQ (%d * %d) %d %d); [reflexivity | discriminate | split; [discriminate | reflexivity] | reflexivity | exact pQ_shape |].
  intros r Pr Dr. apply mul_divides; [vm_compute; reflexivity | |].
  - exact (witness_divides_1 pQ _ _ r eq_refl Qw1 Pr Dr).
  - exact (witness_divides_1 pQ _ _ r eq_refl Qw2 Pr Dr).
Qed.
""" % (q1, q2, c, d))
# ---- p
q1, q2 = 499, 2557
F = 2**46 * Q * q1 * q2; R = (p - 1) // F; c, d = divmod(R, F); a = 5
assert c < d - 1 and (p - 1) % F == 0
emit("Definition pN : Z := %d.\nDefinition Nr : Z := %d." % (p, R))
P46, P45, q12 = str(2**46), str(2**45), str(q1 * q2)
g, eg = step("Ng", p, "pN", a, "1", str(a), a, R, "Nr")
u, eu = step("Nu", p, "pN", a, eg, "Ng", g, Q, "pQ")
w, ew = step("Nw", p, "pN", a, eu, "Nu", u, 2**46, P46)
s, es = step("Ns", p, "pN", a, ew, "Nw", w, q2, str(q2))
t, et = step("Nt", p, "pN", a, ew, "Nw", w, q1, str(q1))
o, eo = step("No", p, "pN", a, es, "Ns", s, q1, str(q1)); assert o == 1
h, eh = step("Nh", p, "pN", a, eg, "Ng", g, q1 * q2, q12)
y, ey = step("Ny", p, "pN", a, eh, "Nh", h, 2**46, P46)
v, ev = step("Nv", p, "pN", a, eu, "Nu", u, q1 * q2, q12)
z, ez = step("Nz", p, "pN", a, ev, "Nv", v, 2**45, P45); assert z == p - 1
vm("pN_exp", "%s = pN - 1" % eo)
emit("Lemma pN_one : is_pow pN %d (pN - 1) 1. Proof. exact (is_pow_exp _ _ _ _ _ No_pow pN_exp). Qed." % a)
for q in (q1, q2): emit("Lemma prime_%d : prime %d. Proof. apply prime_check_sound. vm_compute. reflexivity. Qed." % (q, q))
wit("Nw1", p, "pN", a, 2, "2", 46, z, "Nz", ez, "No", eo, "prime_2")
wit("Nw2", p, "pN", a, Q, "pQ", 1, y, "Ny", ey, "No", eo, "prime_Q")
wit("Nw3", p, "pN", a, q1, str(q1), 1, s, "Ns", es, "No", eo, "prime_%d" % q1)
wit("Nw4", p, "pN", a, q2, str(q2), 1, t, "Nt", et, "No", eo, "prime_%d" % q2)
Fs = "(2 ^ 46 * pQ * %d * %d)" % (q1, q2)
emit("Definition NF : Z := %d." % F)
vm("NF_split", "NF = 2 ^ 46 * pQ * %d * %d" % (q1, q2))
vm("pN_shape", "pN = (%d * NF + %d) * NF + 1" % (c, d))
emit("""Lemma prime_pN : prime pN.
Proof.
  apply (bls pN NF %d %d); [reflexivity | discriminate | split; [discriminate | reflexivity] | reflexivity | exact pN_shape |].
  intros r Pr Dr. rewrite NF_split. apply mul_divides; [vm_compute; reflexivity | apply mul_divides; [vm_compute; reflexivity | apply mul_divides; [vm_compute; reflexivity | |] |] |].
  - exact (witness_divides pN _ _ _ r eq_refl Nw1 Pr Dr).
  - exact (witness_divides_1 pN _ _ r eq_refl Nw2 Pr Dr).
  - exact (witness_divides_1 pN _ _ r eq_refl Nw3 Pr Dr).
  - exact (witness_divides_1 pN _ _ r eq_refl Nw4 Pr Dr).
Qed.
Theorem prime_377 : prime MODULUS_377_INT.
Proof. exact prime_pN. Qed.
Print Assumptions prime_377.""" % (c, d))
root = os.path.join(os.path.dirname(os.path.abspath(__file__)), "..", "rocq", "theories", "Ec", "Prime377.v")
open(root, "w").write("\n".join(out) + "\n")
