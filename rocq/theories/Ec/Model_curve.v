(** Model of jaxite_ec/algorithm/elliptic_curve.py: the reference coordinate systems over FiniteFieldElement.
    Coordinates are [fe] values (Model_reffield); an exception is None.
    Simplified: the attributes order and generator of a system, which no method reads, and __str__ are left out. *)
From Coq Require Import ZArith List Bool.
From Verif Require Import Ec.Model_reffield.
Import ListNotations.
Local Open Scope Z_scope.

Notation "'let*' x ':=' e 'in' k" := (match e with Some x => k | None => None end) (at level 200, x name, e at level 100, k at level 200).

(** CoordinateSystemType, elliptic_curve.py:22-38 *)
Inductive kind := AFFINE | PROJECTIVE | XYZZ.
Definition kind_eqb (a b : kind) : bool := match a, b with AFFINE, AFFINE | PROJECTIVE, PROJECTIVE | XYZZ, XYZZ => true | _, _ => false end.

(** a coordinate is given as an int or as a field element, elliptic_curve.py:197, 265, 453, 619 *)
Inductive coord := CInt (v : Z) | CFe (x : fe).

(** ECPoint, elliptic_curve.py:41-55: the zero flag, the coordinates (None for the Weierstrass zero) and the type *)
Record pt := Pt { pt_zero : bool; pt_coords : option (list fe); pt_type : kind }.

(** EllipticCurveCoordinateSystem.__init__ and ECCSWeierstrass.__init__, elliptic_curve.py:119-132, 166-188 *)
Record wcs := WCS { w_zero : fe; w_one : fe; w_a : fe; w_b : fe }.
Definition wcs_new (prime a b : Z) : option wcs :=
  let* zero := fe_new 0 prime in
  let* one := fe_new 1 prime in
  Some (WCS zero one (fe_copy zero (Some a)) (fe_copy zero (Some b))).

(** the loop of generate_formal_coordinates, elliptic_curve.py:195-200, 263-267, 451-455 *)
Definition formal (zero : fe) (coordinates : list coord) : list fe :=
  map (fun c => match c with CFe x => x | CInt v => fe_copy zero (Some v) end) coordinates.
(** ECCSWeierstrass.generate_formal_coordinates, elliptic_curve.py:190-201 (used by the projective system) *)
Definition formal_weierstrass (s : wcs) (coordinates : list coord) (zero : bool) : option (option (list fe)) :=
  if zero then Some None else Some (Some (formal (w_zero s) coordinates)).
(** ECCSWeierstrassAffine.generate_formal_coordinates, elliptic_curve.py:254-269 *)
Definition formal_affine (s : wcs) (coordinates : list coord) (zero : bool) : option (option (list fe)) :=
  if zero then Some None
  else let n := length coordinates in
       if negb ((n =? 2)%nat || (n =? 3)%nat) then None
       else let f := formal (w_zero s) coordinates in
            if (n =? 2)%nat && negb (length f =? 3)%nat then None else Some (Some f).
(** ECCSWeierstrassXYZZ.generate_formal_coordinates, elliptic_curve.py:444-461 *)
Definition formal_xyzz (s : wcs) (coordinates : list coord) (zero : bool) : option (option (list fe)) :=
  if zero then Some None
  else let n := length coordinates in
       if negb ((n =? 2)%nat || (n =? 4)%nat) then None
       else let f := formal (w_zero s) coordinates in
            let f := if (n =? 2)%nat then f ++ [fe_copy (w_one s) None; fe_copy (w_one s) None] else f in
            if negb (length f =? 4)%nat then None else Some (Some f).

(** ECPoint.__init__, elliptic_curve.py:44-55, and generate_point, 143-148 *)
Definition new_affine (s : wcs) (c : list coord) (zero : bool) : option pt := let* f := formal_affine s c zero in Some (Pt zero f AFFINE).
Definition new_projective (s : wcs) (c : list coord) (zero : bool) : option pt := let* f := formal_weierstrass s c zero in Some (Pt zero f PROJECTIVE).
Definition new_xyzz (s : wcs) (c : list coord) (zero : bool) : option pt := let* f := formal_xyzz s c zero in Some (Pt zero f XYZZ).

(** ECPoint.__eq__, elliptic_curve.py:65-69: list equality (elementwise __eq__, equal lengths), None equals None only *)
Fixpoint list_eq (x y : list fe) : bool :=
  match x, y with
  | [], [] => true
  | a :: x', b :: y' => fe_eq a b && list_eq x' y'
  | _, _ => false
  end.
Definition pt_eq (p q : pt) : bool :=
  match pt_coords p, pt_coords q with
  | Some x, Some y => list_eq x y
  | None, None => true
  | _, _ => false
  end.
(** ECPoint.copy, elliptic_curve.py:98-104 *)
Definition pt_copy (new_formal : list coord -> bool -> option (option (list fe))) (p : pt) : option pt :=
  if pt_zero p then Some p
  else match pt_coords p with
       | None => None
       | Some c => let* f := new_formal (map CFe c) (pt_zero p) in Some (Pt (pt_zero p) f (pt_type p))
       end.

(** ** ECCSWeierstrassAffine, elliptic_curve.py:204-269 *)
(** add_general, elliptic_curve.py:216-220 *)
Definition affine_add_general (s : wcs) (p q : pt) : option pt :=
  match pt_coords p, pt_coords q with
  | Some (x1 :: y1 :: _), Some (x2 :: y2 :: _) =>
    let* dy := fe_sub y2 y1 in let* dx := fe_sub x2 x1 in let* slope := fe_div dy dx in
    let* cx := fe_mul slope slope in let* cx := fe_sub cx x1 in let* cx := fe_sub cx x2 in
    let* d := fe_sub x1 cx in let* cy := fe_mul slope d in let* cy := fe_sub cy y1 in
    new_affine s [CFe cx; CFe cy] false
  | _, _ => None
  end.
(** double_general, elliptic_curve.py:222-228: FieldEle * int, where __mul__ reads the int's attribute prime, raises *)
Definition affine_double_general (s : wcs) (p : pt) : option pt := None.
(** point_add, elliptic_curve.py:230-241 *)
Definition affine_point_add (s : wcs) (p q : pt) : option pt :=
  if pt_zero q then pt_copy (formal_affine s) p
  else if pt_zero p then pt_copy (formal_affine s) q
  else if pt_eq p q then affine_double_general s p
  else affine_add_general s p q.

(** ** ECCSWeierstrassProjective, elliptic_curve.py:272-434 *)
(** add_z2_eq_1, elliptic_curve.py:293-313 *)
Definition projective_add_z2_eq_1 (s : wcs) (p q : pt) : option pt :=
  match pt_coords p, pt_coords q with
  | Some (xa :: ya :: za :: ra), Some (xb :: yb :: zb :: rb) =>
    let body x1 y1 z1 x2 y2 :=
      let* u := fe_mul y2 z1 in let* u := fe_sub u y1 in
      let* uu := fe_mul u u in
      let* v := fe_mul x2 z1 in let* v := fe_sub v x1 in
      let* vv := fe_mul v v in
      let* vvv := fe_mul v vv in
      let* r := fe_mul vv x1 in
      let* t := fe_mul uu z1 in let* t := fe_sub t vvv in let* rr := fe_add r r in let* a := fe_sub t rr in
      let* x3 := fe_mul v a in
      let* t := fe_sub r a in let* t := fe_mul u t in let* t' := fe_mul vvv y1 in let* y3 := fe_sub t t' in
      let* z3 := fe_mul vvv z1 in
      new_projective s [CFe x3; CFe y3; CFe z3] false in
    match ra, rb with
    | [], [] => if fe_eq zb (w_one s) then body xa ya za xb yb
                else if fe_eq za (w_one s) then body xb yb zb xa ya
                else None
    | _, _ => None
    end
  | _, _ => None
  end.
(** add_general, elliptic_curve.py:315-358 *)
Definition projective_add_general (s : wcs) (p q : pt) : option pt :=
  match pt_coords p, pt_coords q with
  | Some [x1; y1; z1], Some [x2; y2; z2] =>
    let* b3 := fe_mul (w_b s) (fe_copy (w_zero s) (Some 3)) in
    let a := w_a s in
    let* t0 := fe_mul x1 x2 in
    let* t1 := fe_mul y1 y2 in
    let* t2 := fe_mul z1 z2 in
    let* s1 := fe_add x1 y1 in let* s2 := fe_add x2 y2 in let* t3 := fe_mul s1 s2 in
    let* t4 := fe_add t0 t1 in
    let* t3 := fe_sub t3 t4 in
    let* s1 := fe_add x1 z1 in let* s2 := fe_add x2 z2 in let* t4 := fe_mul s1 s2 in
    let* t5 := fe_add t0 t2 in
    let* t4 := fe_sub t4 t5 in
    let* s1 := fe_add y1 z1 in let* s2 := fe_add y2 z2 in let* t5 := fe_mul s1 s2 in
    let* x3 := fe_add t1 t2 in
    let* t5 := fe_sub t5 x3 in
    let* z3 := fe_mul a t4 in
    let* x3 := fe_mul b3 t2 in
    let* z3 := fe_add x3 z3 in
    let* x3 := fe_sub t1 z3 in
    let* z3 := fe_add t1 z3 in
    let* y3 := fe_mul x3 z3 in
    let* t1 := fe_add t0 t0 in
    let* t1 := fe_add t1 t0 in
    let* t2 := fe_mul a t2 in
    let* t4 := fe_mul b3 t4 in
    let* t1 := fe_add t1 t2 in
    let* t2 := fe_sub t0 t2 in
    let* t2 := fe_mul a t2 in
    let* t4 := fe_add t4 t2 in
    let* t0 := fe_mul t1 t4 in
    let* y3 := fe_add y3 t0 in
    let* t0 := fe_mul t5 t4 in
    let* x3 := fe_mul t3 x3 in
    let* x3 := fe_sub x3 t0 in
    let* t0 := fe_mul t3 t1 in
    let* z3 := fe_mul t5 z3 in
    let* z3 := fe_add z3 t0 in
    new_projective s [CFe x3; CFe y3; CFe z3] false
  | _, _ => None
  end.
(** double_general, elliptic_curve.py:360-380 *)
Definition projective_double_general (s : wcs) (p : pt) : option pt :=
  match pt_coords p with
  | Some [x1; y1; z1] =>
    let a := w_a s in
    let ff2 := fe_copy (w_zero s) (Some 2) in
    let* xx := fe_mul x1 x1 in
    let* zz := fe_mul z1 z1 in
    let* w1 := fe_mul a zz in let* w2 := fe_mul xx (fe_copy (w_zero s) (Some 3)) in let* w := fe_add w1 w2 in
    let* s0 := fe_mul y1 z1 in let* s0 := fe_mul s0 ff2 in
    let* ss := fe_mul s0 s0 in
    let* sss := fe_mul s0 ss in
    let* r := fe_mul y1 s0 in
    let* rr := fe_mul r r in
    let* b1 := fe_add x1 r in let* b2 := fe_mul b1 b1 in let* b2 := fe_sub b2 xx in let* b := fe_sub b2 rr in
    let* ww := fe_mul w w in let* b' := fe_mul b ff2 in let* h := fe_sub ww b' in
    let* x3 := fe_mul h s0 in
    let* t := fe_sub b h in let* t := fe_mul w t in let* t' := fe_mul rr ff2 in let* y3 := fe_sub t t' in
    new_projective s [CFe x3; CFe y3; CFe sss] false
  | _ => None
  end.
(** point_add, elliptic_curve.py:382-396; indexing [2] of a shorter list raises *)
Definition projective_point_add (s : wcs) (p q : pt) : option pt :=
  if pt_zero q then pt_copy (formal_weierstrass s) p
  else if pt_zero p then pt_copy (formal_weierstrass s) q
  else if pt_eq p q then projective_double_general s p
  else match pt_coords p, pt_coords q with
       | Some (_ :: _ :: za :: _), Some (_ :: _ :: zb :: _) =>
         if fe_eq za (w_one s) || fe_eq zb (w_one s) then projective_add_z2_eq_1 s p q else projective_add_general s p q
       | _, _ => None
       end.
(** convert_to_affine, elliptic_curve.py:422-434 *)
Definition projective_convert_to_affine (s : wcs) (p : pt) : option pt :=
  if negb (kind_eqb (pt_type p) PROJECTIVE) then None
  else let* n := pt_copy (formal_weierstrass s) p in
       match pt_coords n with
       | None => Some n
       | Some _ => match pt_coords p with
                   | Some (x :: y :: z :: _) =>
                     let* z_invert := fe_div (w_one s) z in
                     let* x' := fe_mul x z_invert in let* y' := fe_mul y z_invert in
                     Some (Pt (pt_zero n) (Some [x'; y'; w_one s]) AFFINE)
                   | _ => None
                   end
       end.

(** ** ECCSWeierstrassXYZZ, elliptic_curve.py:437-574 *)
(** add_general, elliptic_curve.py:478-496 *)
Definition xyzz_add_general (s : wcs) (p q : pt) : option pt :=
  match pt_coords p, pt_coords q with
  | Some [x1; y1; zz1; zzz1], Some [x2; y2; zz2; zzz2] =>
    let* u1 := fe_mul x1 zz2 in
    let* u2 := fe_mul x2 zz1 in
    let* s1 := fe_mul y1 zzz2 in
    let* s2 := fe_mul y2 zzz1 in
    let* p := fe_sub u2 u1 in
    let* r := fe_sub s2 s1 in
    let* pp := fe_mul p p in
    let* ppp := fe_mul p pp in
    let* q := fe_mul u1 pp in
    let* t := fe_mul r r in let* t := fe_sub t ppp in let* t' := fe_add q q in let* x3 := fe_sub t t' in
    let* t := fe_sub q x3 in let* t := fe_mul r t in let* t' := fe_mul s1 ppp in let* y3 := fe_sub t t' in
    let* t := fe_mul zz1 zz2 in let* zz3 := fe_mul t pp in
    let* t := fe_mul zzz1 zzz2 in let* zzz3 := fe_mul t ppp in
    new_xyzz s [CFe x3; CFe y3; CFe zz3; CFe zzz3] false
  | _, _ => None
  end.
(** double_general, elliptic_curve.py:498-522 *)
Definition xyzz_double_general (s : wcs) (p : pt) : option pt :=
  match pt_coords p with
  | Some [x1; y1; zz1; zzz1] =>
    let a := w_a s in
    let* u := fe_add y1 y1 in
    let* v := fe_mul u u in
    let* w := fe_mul u v in
    let* s0 := fe_mul x1 v in
    let* x1_sq := fe_mul x1 x1 in
    let* m := fe_add x1_sq x1_sq in let* m := fe_add m x1_sq in let* t := fe_mul zz1 zz1 in let* t := fe_mul a t in let* m := fe_add m t in
    let* t := fe_mul m m in let* t' := fe_add s0 s0 in let* x3 := fe_sub t t' in
    let* t := fe_sub s0 x3 in let* t := fe_mul m t in let* t' := fe_mul w y1 in let* y3 := fe_sub t t' in
    let* zz3 := fe_mul v zz1 in
    let* zzz3 := fe_mul w zzz1 in
    new_xyzz s [CFe x3; CFe y3; CFe zz3; CFe zzz3] false
  | _ => None
  end.
(** point_add, elliptic_curve.py:524-536 *)
Definition xyzz_point_add (s : wcs) (p q : pt) : option pt :=
  if pt_zero q then pt_copy (formal_xyzz s) p
  else if pt_zero p then pt_copy (formal_xyzz s) q
  else if pt_eq p q then xyzz_double_general s p
  else xyzz_add_general s p q.
(** convert_to_affine, elliptic_curve.py:559-574 *)
Definition xyzz_convert_to_affine (s : wcs) (p : pt) : option pt :=
  if negb (kind_eqb (pt_type p) XYZZ) then None
  else let* n := pt_copy (formal_xyzz s) p in
       match pt_coords n with
       | None => Some n
       | Some _ => match pt_coords p with
                   | Some (x :: y :: zz :: zzz :: _) =>
                     let* a := fe_div (w_one s) zzz in
                     let* b := fe_mul zz a in
                     let* b_sq := fe_mul b b in
                     let* x' := fe_mul x b_sq in let* y' := fe_mul y a in
                     Some (Pt (pt_zero n) (Some [x'; y'; w_one s; w_one s]) AFFINE)
                   | _ => None
                   end
       end.

(** point_lshift, elliptic_curve.py:243-249, 398-404, 538-544, 672-678: [for _ in range(shift)], which is empty for a negative shift;
    ECPoint.__lshift__, 74-77, only adds the same test *)
Fixpoint double_times (double : pt -> option pt) (n : nat) (p : pt) : option pt :=
  match n with O => Some p | S k => let* q := double p in double_times double k q end.
Definition point_lshift (double : pt -> option pt) (new_formal : list coord -> bool -> option (option (list fe))) (p : pt) (shift : Z) : option pt :=
  if pt_zero p then pt_copy new_formal p else double_times double (Z.to_nat shift) p.

(** ** ECCSTwistedEdwardsExtended, elliptic_curve.py:577-765 *)
Record tcs := TCS { t_zero : fe; t_one : fe; t_a : fe; t_d : fe; t_alpha : fe; t_s : fe; t_ma : fe; t_mb : fe; t_t : fe; t_k : fe }.
(** __init__, elliptic_curve.py:580-590 *)
Definition tcs_new (prime a d alpha s ma mb t : Z) : option tcs :=
  let* zero := fe_new 0 prime in
  let* one := fe_new 1 prime in
  let c v := fe_copy zero (Some v) in
  let* k := fe_add (c d) (c d) in
  Some (TCS zero one (c a) (c d) (c alpha) (c s) (c ma) (c mb) (c t) k).
(** zero, elliptic_curve.py:740-741 *)
Definition twisted_zero (s : tcs) : list fe := [t_zero s; t_one s; t_one s; t_zero s].
(** generate_formal_coordinates, elliptic_curve.py:608-628 *)
Definition formal_twisted (s : tcs) (coordinates : list coord) (zero : bool) : option (option (list fe)) :=
  let coordinates := if zero then map CFe (twisted_zero s) else coordinates in
  let n := length coordinates in
  if negb ((n =? 2)%nat || (n =? 4)%nat) then None
  else let f := formal (t_zero s) coordinates in
       if (n =? 2)%nat then
         match f with
         | x :: y :: _ => let* t := fe_mul x y in Some (Some (f ++ [fe_copy (t_one s) None; t]))
         | _ => None
         end
       else Some (Some f).
(** the type attribute is WEIERSTRASS_PROJECTIVE, elliptic_curve.py:582 *)
Definition new_twisted (s : tcs) (c : list coord) (zero : bool) : option pt := let* f := formal_twisted s c zero in Some (Pt zero f PROJECTIVE).
(** twist, elliptic_curve.py:680-697: the outer option is the exception (unpacking, mixed primes), the inner one the returned None *)
Definition twist (s : tcs) (p : list fe) : option (option (list fe)) :=
  match p with
  | [x; y] =>
    let* xm := fe_sub x (t_alpha s) in let* xm := fe_mul (t_s s) xm in
    let* ym := fe_mul (t_s s) y in
    if fe_eq ym (t_zero s) then Some None
    else let* xt := fe_div xm ym in
         let* yt_denom := fe_add xm (t_one s) in
         if fe_eq yt_denom (t_zero s) then Some None
         else let* n := fe_sub xm (t_one s) in let* yt := fe_div n yt_denom in
              let* xt := fe_mul xt (t_t s) in
              Some (Some [xt; yt])
  | _ => None
  end.
(** generate_point, elliptic_curve.py:592-606: a twist that returns None makes the constructor raise (len(None)) unless zero is set *)
Definition twisted_generate_point (s : tcs) (c : list coord) (zero do_twist : bool) : option pt :=
  if do_twist then
    let* r := twist s (formal (t_zero s) c) in
    match r with
    | Some l => new_twisted s (map CFe l) zero
    | None => if zero then new_twisted s [] zero else None
    end
  else new_twisted s c zero.
(** point_add, elliptic_curve.py:630-650 *)
Definition twisted_point_add (s : tcs) (p q : pt) : option pt :=
  match pt_coords p, pt_coords q with
  | Some [x1; y1; z1; t1], Some [x2; y2; z2; t2] =>
    let* a := fe_mul x1 x2 in
    let* b := fe_mul y1 y2 in
    let* c := fe_mul (t_d s) t1 in let* c := fe_mul c t2 in
    let* d := fe_mul z1 z2 in
    let* h := fe_add b a in
    let* e1 := fe_add x1 y1 in let* e2 := fe_add x2 y2 in let* e := fe_mul e1 e2 in let* e := fe_sub e h in
    let* f := fe_sub d c in
    let* g := fe_add d c in
    let* x3 := fe_mul e f in
    let* y3 := fe_mul g h in
    let* z3 := fe_mul f g in
    let* t3 := fe_mul e h in
    new_twisted s [CFe x3; CFe y3; CFe z3; CFe t3] false
  | _, _ => None
  end.
(** double_general, elliptic_curve.py:652-670 *)
Definition twisted_double_general (s : tcs) (p : pt) : option pt :=
  match pt_coords p with
  | Some [x1; y1; z1; _] =>
    let* a := fe_mul x1 x1 in
    let* b := fe_mul y1 y1 in
    let* ct := fe_mul z1 z1 in
    let* h := fe_sub (t_zero s) a in let* h := fe_sub h b in
    let* et := fe_add x1 y1 in
    let* e := fe_mul et et in let* e := fe_add e h in
    let* g := fe_sub b a in
    let* f := fe_sub g ct in let* f := fe_sub f ct in
    let* x3 := fe_mul e f in
    let* y3 := fe_mul g h in
    let* z3 := fe_mul f g in
    let* t3 := fe_mul e h in
    new_twisted s [CFe x3; CFe y3; CFe z3; CFe t3] false
  | _ => None
  end.
(** untwist, elliptic_curve.py:699-712 *)
Definition untwist (s : tcs) (p : list fe) : option (list fe) :=
  match p with
  | [xt; yt] =>
    let* xt := fe_div xt (t_t s) in
    let* n := fe_add (t_one s) yt in
    let* m := fe_sub (t_one s) yt in
    let* xm := fe_div n m in
    let* mx := fe_mul m xt in let* ym := fe_div n mx in
    let three := fe_copy (t_zero s) (Some 3) in
    let* q1 := fe_div xm (t_mb s) in let* d3 := fe_mul three (t_mb s) in let* q2 := fe_div (t_ma s) d3 in let* x := fe_add q1 q2 in
    let* y := fe_div ym (t_mb s) in
    Some [x; y]
  | _ => None
  end.
(** convert_to_twisted_edwards_affine, elliptic_curve.py:718-732. ECPoint.copy (98-104) shares the list of a point flagged zero, so clear()
    empties the argument's list too and the unpacking of point_a[:3] raises *)
Definition twisted_to_edwards_affine (s : tcs) (p : pt) : option pt :=
  if pt_zero p then None
  else let* n := pt_copy (formal_twisted s) p in
       match pt_coords p with
       | Some (x :: y :: z :: _) =>
         let* inv_z := fe_div (t_one s) z in
         let* x2 := fe_mul x inv_z in let* y2 := fe_mul y inv_z in
         Some (Pt (pt_zero n) (Some [x2; y2; t_one s; t_one s]) (pt_type n))
       | _ => None
       end.
(** convert_to_affine, elliptic_curve.py:734-738 *)
Definition twisted_convert_to_affine (s : tcs) (p : pt) : option pt :=
  let* n := twisted_to_edwards_affine s p in
  match pt_coords n with
  | Some (x :: y :: rest) => let* u := untwist s [x; y] in Some (Pt (pt_zero n) (Some (u ++ rest)) (pt_type n))
  | _ => None
  end.
(** twist_int_coordinates, elliptic_curve.py:743-752 *)
Definition twist_int_coordinates (s : tcs) (coordinates : list Z) : option (list Z) :=
  let* r := twist s (map (fun v => fe_copy (t_zero s) (Some v)) coordinates) in
  match r with
  | None => Some [0; 1; 1; 0]
  | Some (x :: y :: _) => let* t := fe_mul x y in Some [fe_value x; fe_value y; fe_value (fe_copy (t_one s) None); fe_value t]
  | Some _ => None
  end.
(** twist_projective, elliptic_curve.py:754-765 *)
Definition twist_projective (s : tcs) (p : list fe) : option (list fe) :=
  match p with
  | [x; y; z] =>
    let* xm := fe_sub x (t_alpha s) in let* xm := fe_mul (t_s s) xm in
    let* ym := fe_mul (t_s s) y in
    let* d := fe_add xm (t_one s) in
    let* zt := fe_mul z ym in let* zt := fe_mul zt d in
    let* xt := fe_mul xm d in
    let* n := fe_sub xm (t_one s) in let* yt := fe_mul n ym in
    let* xt := fe_mul xt (t_t s) in
    Some [xt; yt; zt]
  | _ => None
  end.
