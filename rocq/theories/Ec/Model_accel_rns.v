(** Model of jaxite_ec/elliptic_curve.py:605-897: point operations on residue vectors. A coordinate is a batch (lanes, moduli);
    None is an exception. The packed array of shape (4, lanes, moduli) is the quadruple of its coordinates. *)
From Coq Require Import ZArith List.
From Verif Require Import Base.Word Base.Lists Ec.Model_util Ec.Model_field Ec.Model_field_rns Ec.Model_accel.
Import ListNotations.
Local Open Scope Z_scope.

(** jnp.vstack of batches of the same width *)
Definition vstack (l : list batch) : batch := concat l.
(** jnp.vsplit(outputs, k): k equal parts, an error when the number of rows is not a multiple of k *)
Definition vsplit (k : nat) (a : batch) : option (list batch) := if (length a mod k =? 0)%nat then Some (rows k (length a / k) a) else None.
(** finite_field.py:857, 890: the default moduli_sub *)
Definition neg_rns (a : batch) : batch := negate_rns_for_var_add a MODULI_SUB.
Definition neg_rns_zc (a : batch) : batch := negate_rns_for_var_add_zero_check a MODULI_SUB.
(** finite_field.py:809-830, 833-854, 931: the default moduli_t *)
Definition sum_rns (l : list batch) : option batch := add_sub_rns_var l RNS_MODULI_T.
Definition add2_rns (a b : batch) : option batch := add_rns_2u16 a b RNS_MODULI_T.
Definition add3_rns (a b c : batch) : option batch := add_rns_3u16 a b c RNS_MODULI_T.

(** elliptic_curve.py:606-685 *)
Definition padd_rns_xyzz (p1 p2 : coords) : option coords :=
  let '(x1, y1, zz1, zzz1) := p1 in let '(x2, y2, zz2, zzz2) := p2 in
  do o <- mod_mul_rns_377 (vstack [x1; y1; zz1; zzz1; zz1; zzz1]) (vstack [zz2; zzz2; zz2; zzz2; x2; y2]);
  do o <- vsplit 6 o;
  match o with
  | [u1; s1; zz1_zz2; zzz1_zzz2; u2; s2] =>
    do p <- sum_rns [u2; neg_rns u1];
    do r <- sum_rns [s2; neg_rns s1];
    do pp <- mod_mul_rns_377 p p;
    do rr <- mod_mul_rns_377 r r;
    do o <- mod_mul_rns_377 (vstack [p; u1; zz1_zz2]) (vstack [pp; pp; pp]);
    do o <- vsplit 3 o;
    match o with
    | [ppp; q; zz3] =>
      do x3 <- sum_rns [rr; neg_rns ppp; neg_rns q; neg_rns q];
      do q_x3 <- sum_rns [q; neg_rns x3];
      do o <- mod_mul_rns_377 (vstack [s1; zzz1_zzz2; r]) (vstack [ppp; ppp; q_x3]);
      do o <- vsplit 3 o;
      match o with
      | [s1_ppp; zzz3; r_q_x3] => do y3 <- sum_rns [r_q_x3; neg_rns s1_ppp]; Some (x3, y3, zz3, zzz3)
      | _ => None
      end
    | _ => None
    end
  | _ => None
  end.
(** elliptic_curve.py:690-755 *)
Definition pdul_rns_xyzz (p1 : coords) : option coords :=
  let '(x1, y1, zz1, zzz1) := p1 in
  do u <- add2_rns y1 y1;
  do v <- mod_mul_rns_377 u u;
  do o <- mod_mul_rns_377 (vstack [x1; u; x1]) (vstack [x1; v; v]);
  do o <- vsplit 3 o;
  match o with
  | [x1x1; w; s] =>
    do m <- add3_rns x1x1 x1x1 x1x1;
    do o <- mod_mul_rns_377 (vstack [m; w; v; w]) (vstack [m; y1; zz1; zzz1]);
    do o <- vsplit 4 o;
    match o with
    | [mm; w_y1; zz3; zzz3] =>
      do x3 <- sum_rns [mm; neg_rns s; neg_rns s];
      do s_x3 <- sum_rns [s; neg_rns mm; s; s];
      do m_s_x3 <- mod_mul_rns_377 m s_x3;
      do y3 <- sum_rns [m_s_x3; neg_rns w_y1];
      Some (x3, y3, zz3, zzz3)
    | _ => None
    end
  | _ => None
  end.
(** elliptic_curve.py:773-830 with the default twist_d; the constant is broadcast to the shape of c (803-805) *)
Definition padd_rns_twisted (p1 p2 : coords) : option coords :=
  let '(x1, y1, z1, t1) := p1 in let '(x2, y2, z2, t2) := p2 in
  do o <- mod_mul_rns_377 (vstack [x1; y1; z1; t1]) (vstack [x2; y2; z2; t2]);
  do o <- vsplit 4 o;
  match o with
  | [a; b; d; c] =>
    do e1 <- add2_rns x1 y1;
    do e2 <- add2_rns x2 y2;
    let twist_d_here := broadcast c TWIST_D_RNS in
    do o <- mod_mul_rns_377 (vstack [e1; c]) (vstack [e2; twist_d_here]);
    do o <- vsplit 2 o;
    match o with
    | [e3; c] =>
      do e <- sum_rns [e3; neg_rns_zc a; neg_rns_zc b];
      do f <- sum_rns [d; neg_rns_zc c];
      do g <- add2_rns d c;
      do h <- add2_rns a b;
      do o <- mod_mul_rns_377 (vstack [e; g; f; e]) (vstack [f; h; g; h]);
      do o <- vsplit 4 o;
      match o with [x3; y3; z3; t3] => Some (x3, y3, z3, t3) | _ => None end
    | _ => None
    end
  | _ => None
  end.
(** elliptic_curve.py:835-877 *)
Definition pdul_rns_twisted (p1 : coords) : option coords :=
  let '(x1, y1, z1, t1) := p1 in
  do et <- add2_rns x1 y1;
  let inputsl := vstack [x1; y1; z1; et] in
  do o <- mod_mul_rns_377 inputsl inputsl;
  do o <- vsplit 4 o;
  match o with
  | [a; b; ct; et2] =>
    do e <- sum_rns [et2; neg_rns a; neg_rns b];
    do g <- sum_rns [b; neg_rns a];
    do f <- sum_rns [g; neg_rns ct; neg_rns ct];
    do h <- sum_rns [neg_rns a; neg_rns b];
    do o <- mod_mul_rns_377 (vstack [e; g; f; e]) (vstack [f; h; g; h]);
    do o <- vsplit 4 o;
    match o with [x3; y3; z3; t3] => Some (x3, y3, z3, t3) | _ => None end
  | _ => None
  end.
(** elliptic_curve.py:892-897, one lane: rns_constant(0), rns_constant(1), ... *)
Definition rns_twist_zero : option coords :=
  match rns_constant 0 NUM_MODULI, rns_constant 1 NUM_MODULI with
  | Some z, Some o => Some ([z], [o], [o], [z])
  | _, _ => None
  end.
