(** Model of jaxite_ec/elliptic_curve.py: point addition and doubling on batches of chunk vectors, with Barrett and with lazy
    modular multiplication. A coordinate is a batch (batch, chunks); None is an exception. *)
From Coq Require Import ZArith List.
From Verif Require Import Base.Word Ec.Model_util Ec.Model_field.
Import ListNotations.
Local Open Scope Z_scope.

(** a point in extended coordinates, the tuples of elliptic_curve.py *)
Definition coords : Type := (batch * batch * batch * batch)%type.
(** finite_field.py defaults (lines 304-307, 336-340) *)
Definition cond_sub_b (a b : batch) : option batch := cond_sub_2u16 a b MODULUS_377_INT_CHUNK U16_CHUNK_NUM.
Definition cond_sub_mod_b (a : batch) : option batch := cond_sub_mod_u16 a MODULUS_377_INT_CHUNK U16_CHUNK_NUM.
(** elliptic_curve.py:44-107 *)
Definition padd_barret_xyzz (p1 p2 : coords) : option coords :=
  let '(x1, y1, zz1, zzz1) := p1 in let '(x2, y2, zz2, zzz2) := p2 in
  do u1 <- mod_mul_barrett_2u16 x1 zz2;
  do u2 <- mod_mul_barrett_2u16 x2 zz1;
  do s1 <- mod_mul_barrett_2u16 y1 zzz2;
  do s2 <- mod_mul_barrett_2u16 y2 zzz1;
  do zz1_zz2 <- mod_mul_barrett_2u16 zz1 zz2;
  do zzz1_zzz2 <- mod_mul_barrett_2u16 zzz1 zzz2;
  do p <- cond_sub_b u2 u1;
  do r <- cond_sub_b s2 s1;
  do pp <- mod_mul_barrett_2u16 p p;
  do rr <- mod_mul_barrett_2u16 r r;
  do ppp <- mod_mul_barrett_2u16 pp p;
  do q <- mod_mul_barrett_2u16 u1 pp;
  do zz3 <- mod_mul_barrett_2u16 zz1_zz2 pp;
  do ppp_q_2 <- add_3u16 ppp q q;
  do ppp_q_2 <- cond_sub_mod_b ppp_q_2;
  do ppp_q_2 <- cond_sub_mod_b ppp_q_2;
  do x3 <- cond_sub_b rr ppp_q_2;
  do q_x3 <- cond_sub_b q x3;
  do s1_ppp <- mod_mul_barrett_2u16 s1 ppp;
  do zzz3 <- mod_mul_barrett_2u16 zzz1_zzz2 ppp;
  do y3 <- mod_mul_barrett_2u16 r q_x3;
  do y3 <- cond_sub_b y3 s1_ppp;
  Some (x3, y3, zz3, zzz3).
(** elliptic_curve.py:111-161 *)
Definition pdul_barret_xyzz (p1 : coords) : option coords :=
  let '(x1, y1, zz1, zzz1) := p1 in
  do u <- add_2u16 y1 y1;
  do u <- cond_sub_mod_b u;
  do x1x1 <- mod_mul_barrett_2u16 x1 x1;
  do v <- mod_mul_barrett_2u16 u u;
  do w <- mod_mul_barrett_2u16 u v;
  do s <- mod_mul_barrett_2u16 x1 v;
  do s_2 <- add_2u16 s s;
  do s_2 <- cond_sub_mod_b s_2;
  do m <- add_3u16 x1x1 x1x1 x1x1;
  do m <- cond_sub_mod_b m;
  do m <- cond_sub_mod_b m;
  do mm <- mod_mul_barrett_2u16 m m;
  do w_y1 <- mod_mul_barrett_2u16 w y1;
  do zz3 <- mod_mul_barrett_2u16 v zz1;
  do zzz3 <- mod_mul_barrett_2u16 w zzz1;
  do x3 <- cond_sub_b mm s_2;
  do s_x3 <- cond_sub_b s x3;
  do y3 <- mod_mul_barrett_2u16 m s_x3;
  do y3 <- cond_sub_b y3 w_y1;
  Some (x3, y3, zz3, zzz3).

(** elliptic_curve.py:250-259: the conditional subtractions with the modulus shifted by 16 bits and 25 chunks *)
Definition cond_sub_ext (a b : batch) : option batch := cond_sub_2u16 a b MODULUS_377_S16_INT_CHUNK U16_EXT_CHUNK_NUM.
Definition cond_sub_mod_ext (a : batch) : option batch := cond_sub_mod_u16 a MODULUS_377_S16_INT_CHUNK U16_EXT_CHUNK_NUM.
(** elliptic_curve.py:217-292 *)
Definition padd_lazy_xyzz (p1 p2 : coords) : option coords :=
  let '(x1, y1, zz1, zzz1) := p1 in let '(x2, y2, zz2, zzz2) := p2 in
  do u1 <- mod_mul_lazy_377 x1 zz2;
  do u2 <- mod_mul_lazy_377 x2 zz1;
  do s1 <- mod_mul_lazy_377 y1 zzz2;
  do s2 <- mod_mul_lazy_377 y2 zzz1;
  do zz1_zz2 <- mod_mul_lazy_377 zz1 zz2;
  do zzz1_zzz2 <- mod_mul_lazy_377 zzz1 zzz2;
  do p <- cond_sub_ext u2 u1;
  do r <- cond_sub_ext s2 s1;
  do pp <- mod_mul_lazy_377 p p;
  do rr <- mod_mul_lazy_377 r r;
  do ppp <- mod_mul_lazy_377 pp p;
  do q <- mod_mul_lazy_377 u1 pp;
  do zz3 <- mod_mul_lazy_377 zz1_zz2 pp;
  do ppp_q_2 <- add_3u16 ppp q q;
  do ppp_q_2 <- cond_sub_mod_ext ppp_q_2;
  do ppp_q_2 <- cond_sub_mod_ext ppp_q_2;
  do x3 <- cond_sub_ext rr ppp_q_2;
  do q_x3 <- cond_sub_ext q x3;
  do s1_ppp <- mod_mul_lazy_377 s1 ppp;
  do zzz3 <- mod_mul_lazy_377 zzz1_zzz2 ppp;
  do y3 <- mod_mul_lazy_377 r q_x3;
  do y3 <- cond_sub_ext y3 s1_ppp;
  Some (x3, y3, zz3, zzz3).
(** elliptic_curve.py:296-359 *)
Definition pdul_lazy_xyzz (p1 : coords) : option coords :=
  let '(x1, y1, zz1, zzz1) := p1 in
  do u <- add_2u16 y1 y1;
  do u <- cond_sub_mod_ext u;
  do x1x1 <- mod_mul_lazy_377 x1 x1;
  do v <- mod_mul_lazy_377 u u;
  do w <- mod_mul_lazy_377 u v;
  do s <- mod_mul_lazy_377 x1 v;
  do s_2 <- add_2u16 s s;
  do s_2 <- cond_sub_mod_ext s_2;
  do m <- add_3u16 x1x1 x1x1 x1x1;
  do m <- cond_sub_mod_ext m;
  do m <- cond_sub_mod_ext m;
  do mm <- mod_mul_lazy_377 m m;
  do w_y1 <- mod_mul_lazy_377 w y1;
  do zz3 <- mod_mul_lazy_377 v zz1;
  do zzz3 <- mod_mul_lazy_377 w zzz1;
  do x3 <- cond_sub_ext mm s_2;
  do s_x3 <- cond_sub_ext s x3;
  do y3 <- mod_mul_lazy_377 m s_x3;
  do y3 <- cond_sub_ext y3 w_y1;
  Some (x3, y3, zz3, zzz3).
(** elliptic_curve.py:389-463 with the default twisted_d_chunk; the constant is broadcast to the batch (line 436) *)
Definition padd_lazy_twisted (p1 p2 : coords) : option coords :=
  let '(x1, y1, z1, t1) := p1 in let '(x2, y2, z2, t2) := p2 in
  let twisted_d := broadcast x1 TWIST_D_INT_CHUNK in
  do a <- mod_mul_lazy_377 x1 x2;
  do b <- mod_mul_lazy_377 y1 y2;
  do d <- mod_mul_lazy_377 z1 z2;
  do c <- mod_mul_lazy_377 t1 t2;
  do c <- mod_mul_lazy_377 c twisted_d;
  do h <- add_2u16 a b;
  do h <- cond_sub_mod_ext h;
  do e1 <- add_2u16 x1 y1;
  do e1 <- cond_sub_mod_ext e1;
  do e2 <- add_2u16 x2 y2;
  do e2 <- cond_sub_mod_ext e2;
  do e <- mod_mul_lazy_377 e1 e2;
  do e <- cond_sub_ext e h;
  do f <- cond_sub_ext d c;
  do g <- add_2u16 d c;
  do g <- cond_sub_mod_ext g;
  do x3 <- mod_mul_lazy_377 e f;
  do y3 <- mod_mul_lazy_377 g h;
  do z3 <- mod_mul_lazy_377 f g;
  do t3 <- mod_mul_lazy_377 e h;
  Some (x3, y3, z3, t3).
(** elliptic_curve.py:466-527; the one-dimensional modulus (line 501) is broadcast against the batch (line 513) *)
Definition pdul_lazy_twisted (p1 : coords) : option coords :=
  let '(x1, y1, z1, t1) := p1 in
  do a <- mod_mul_lazy_377 x1 x1;
  do b <- mod_mul_lazy_377 y1 y1;
  do ct <- mod_mul_lazy_377 z1 z1;
  do ct2 <- add_2u16 ct ct;
  do ct2 <- cond_sub_mod_ext ct2;
  do h <- add_2u16 a b;
  do h <- cond_sub_ext (broadcast h MODULUS_377_S16_INT_CHUNK) h;
  do et <- add_2u16 x1 y1;
  do et <- cond_sub_mod_ext et;
  do e <- mod_mul_lazy_377 et et;
  do e <- add_2u16 e h;
  do e <- cond_sub_mod_ext e;
  do g <- cond_sub_ext b a;
  do f <- cond_sub_ext g ct2;
  do x3 <- mod_mul_lazy_377 e f;
  do y3 <- mod_mul_lazy_377 g h;
  do z3 <- mod_mul_lazy_377 f g;
  do t3 <- mod_mul_lazy_377 e h;
  Some (x3, y3, z3, t3).
(** elliptic_curve.py:530-569 *)
Definition pneg_lazy_twisted (p1 : coords) : option coords :=
  let '(x1, y1, z1, t1) := p1 in
  do x3 <- sub_2u16 (broadcast x1 MODULUS_377_S16_INT_CHUNK) x1 U16_MASK U16_EXT_CHUNK_NUM;
  do t3 <- sub_2u16 (broadcast t1 MODULUS_377_S16_INT_CHUNK) t1 U16_MASK U16_EXT_CHUNK_NUM;
  Some (x3, y1, z1, t3).
