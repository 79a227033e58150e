(** Model of jaxite_ec/algorithm/big_integer.py: GMPBigInteger, with Python's operator dispatch, and of the constructors of
    algorithm/finite_field.py as they handle arguments that are ints or GMPBigIntegers.
    None is an exception. Not modelled: __str__, __repr__, hex_value_str, and memory exhaustion. *)
From Coq Require Import ZArith Bool.
From Verif Require Import Ec.Model_reffield.
Local Open Scope Z_scope.

(** a Python value: int, GMPBigInteger, gmpy2.mpz, gmpy2.mpfr, anything else (None, float, str, ...) *)
Inductive pv := PInt (z : Z) | PBig (z : Z) | PMpz (z : Z) | PMpfr | POther.
(** what a special method returns: an exception, NotImplemented, or a value *)
Inductive ret (A : Type) := Raises | NotImpl | Returns (x : A).
Arguments Raises {A}. Arguments NotImpl {A}. Arguments Returns {A} x.

(** __init__, big_integer.py:12-18 *)
Definition big_init (value : pv) : option pv :=
  match value with
  | PInt z | PMpz z => Some (PBig z)
  | PBig z => Some (PBig z)
  | _ => None
  end.
Definition big_ret (value : pv) : ret pv := match big_init value with Some x => Returns x | None => Raises end.
(** isinstance(other, (GMPBigInteger, int)), and the operand the methods compute with, as in big_integer.py:21-26 *)
Definition operand (other : pv) : option Z := match other with PBig z | PInt z => Some z | _ => None end.
Definition with_operand {A} (other : pv) (f : Z -> ret A) : ret A := match operand other with Some z => f z | None => NotImpl end.

(** __add__, __sub__, __mul__, big_integer.py:20-48 *)
Definition m_add (self : Z) (other : pv) : ret pv := with_operand other (fun z => big_ret (PMpz (self + z))).
Definition m_sub (self : Z) (other : pv) : ret pv := with_operand other (fun z => big_ret (PMpz (self - z))).
Definition m_mul (self : Z) (other : pv) : ret pv := with_operand other (fun z => big_ret (PMpz (self * z))).
(** __truediv__, big_integer.py:50-63 *)
Definition m_truediv (self : Z) (other : pv) : ret pv := with_operand other (fun z => if z =? 0 then Raises else big_ret (PMpz (self / z))).
(** __mod__, big_integer.py:65-73: gmpy2 raises ZeroDivisionError; the sign is the divisor's *)
Definition m_mod (self : Z) (other : pv) : ret pv := with_operand other (fun z => if z =? 0 then Raises else big_ret (PMpz (self mod z))).
(** __eq__ ... __ge__, big_integer.py:75-115 *)
Definition m_eq (self : Z) (other : pv) : ret bool := with_operand other (fun z => Returns (self =? z)).
Definition m_ne (self : Z) (other : pv) : ret bool := with_operand other (fun z => Returns (negb (self =? z))).
Definition m_lt (self : Z) (other : pv) : ret bool := with_operand other (fun z => Returns (self <? z)).
Definition m_le (self : Z) (other : pv) : ret bool := with_operand other (fun z => Returns (self <=? z)).
Definition m_gt (self : Z) (other : pv) : ret bool := with_operand other (fun z => Returns (z <? self)).
Definition m_ge (self : Z) (other : pv) : ret bool := with_operand other (fun z => Returns (z <=? self)).
(** __pow__, big_integer.py:117-130. mpz ** negative is an mpfr (or raises, depending on gmpy2's version); gmpy2.powmod is Model_reffield.powmod;
    the modulus is an int or a GMPBigInteger here. *)
Definition exponent_of (e : pv) : option Z := match e with PBig z | PInt z | PMpz z => Some z | _ => None end.
Definition m_pow (self : Z) (exponent : pv) (modulus : option pv) : ret pv :=
  match exponent_of exponent with
  | None => Raises
  | Some e => match modulus with
              | None => big_ret (if e <? 0 then PMpfr else PMpz (self ^ e))
              | Some m => match operand m with
                          | None => Raises
                          | Some m => match powmod self e m with Some r => big_ret (PMpz r) | None => Raises end
                          end
              end
  end.
(** __lshift__, __rshift__, big_integer.py:132-142: a GMP shift count is a non-negative 64-bit integer, anything else raises *)
Definition shift_count (s : pv) : option Z :=
  match exponent_of s with Some z => if (z <? 0) || (2 ^ 64 <=? z) then None else Some z | None => None end.
Definition m_lshift (self : Z) (shift : pv) : ret pv := match shift_count shift with Some s => big_ret (PMpz (Z.shiftl self s)) | None => Raises end.
Definition m_rshift (self : Z) (shift : pv) : ret pv := match shift_count shift with Some s => big_ret (PMpz (Z.shiftr self s)) | None => Raises end.
(** __and__, big_integer.py:144-152 *)
Definition m_and (self : Z) (other : pv) : ret pv := with_operand other (fun z => big_ret (PMpz (Z.land self z))).
(** ceil_log2, big_integer.py:154-158: gmpy2.ceil returns an mpfr *)
Definition ceil_log2 (self : Z) : option pv := if self <=? 0 then None else big_init PMpfr.
(** __int__, big_integer.py:160-161 *)
Definition m_int (self : Z) : Z := self.

(** Python's evaluation of [a op b]: the method of the left operand; NotImplemented, which int's methods return for a
    GMPBigInteger, falls back to the reflected method of the right operand: GMPBigInteger defines none for the arithmetic
    operators, and its comparison methods are each other's reflections. [ints] is the operation of two ints; other left operands
    are not modelled. *)
Definition binop (m : Z -> pv -> ret pv) (ints : Z -> Z -> option pv) (a b : pv) : option pv :=
  match a with
  | PBig x => match m x b with Returns r => Some r | _ => None end
  | PInt x => match b with PInt y => ints x y | _ => None end
  | _ => None
  end.
Definition nonneg (s : Z) (r : pv) : option pv := if s <? 0 then None else Some r.
Definition py_add := binop m_add (fun x y => Some (PInt (x + y))).
Definition py_sub := binop m_sub (fun x y => Some (PInt (x - y))).
Definition py_mul := binop m_mul (fun x y => Some (PInt (x * y))).
(** int / int is a float *)
Definition py_truediv := binop m_truediv (fun x y => if y =? 0 then None else Some POther).
Definition py_mod := binop m_mod (fun x y => if y =? 0 then None else Some (PInt (x mod y))).
(** int ** negative int is a float (0 ** negative raises) *)
Definition py_pow := binop (fun x e => m_pow x e None) (fun x y => if y <? 0 then if x =? 0 then None else Some POther else Some (PInt (x ^ y))).
Definition py_lshift := binop m_lshift (fun x y => nonneg y (PInt (Z.shiftl x y))).
Definition py_rshift := binop m_rshift (fun x y => nonneg y (PInt (Z.shiftr x y))).
Definition py_and := binop m_and (fun x y => Some (PInt (Z.land x y))).
(** a comparison; [other] is what is returned when both sides return NotImplemented: identity for == and !=, else TypeError *)
Definition cmpop (m m' : Z -> pv -> ret bool) (ints : Z -> Z -> bool) (other : option bool) (a b : pv) : option bool :=
  match a with
  | PBig x => match m x b with Returns r => Some r | NotImpl => other | Raises => None end
  | PInt x => match b with
              | PInt y => Some (ints x y)
              | PBig y => match m' y a with Returns r => Some r | NotImpl => other | Raises => None end
              | _ => None
              end
  | _ => None
  end.
Definition py_eq := cmpop m_eq m_eq Z.eqb (Some false).
Definition py_ne := cmpop m_ne m_ne (fun x y => negb (x =? y)) (Some true).
Definition py_lt := cmpop m_lt m_gt Z.ltb None.
Definition py_le := cmpop m_le m_ge Z.leb None.
Definition py_gt := cmpop m_gt m_lt Z.gtb None.
Definition py_ge := cmpop m_ge m_le Z.geb None.

(** ** the constructors of finite_field.py *)
Definition bind {A B} (x : option A) (f : A -> option B) : option B := match x with Some x => f x | None => None end.
Notation "x <- a ; b" := (bind a (fun x => b)) (at level 61, a at next level, right associativity).
Definition is_big (v : pv) : bool := match v with PBig _ => true | _ => false end.
(** FiniteFieldElement.__init__, finite_field.py:14-26: the pair of the attributes value and prime *)
Definition init_field (value prime : pv) : option (pv * pv) :=
  v <- (if is_big value then Some value else big_init value);
  p <- (if is_big prime then Some prime else big_init prime);
  lo <- py_lt v (PInt 0);
  hi <- (if lo : bool then Some true else py_ge v p);
  if hi : bool then None else Some (v, p).
(** math.ceil(math.log2(prime)) of an int, positive where it is called. Simplified as in Model_reffield: the exact logarithm rounded up *)
Definition int_log2 (prime : pv) : option pv := match prime with PInt p => if p <=? 0 then None else Some (PInt (Z.log2_up p)) | _ => None end.
(** FiniteFieldElementBarrett.__init__, finite_field.py:121-130: value, prime, two_k, mu. k is None or a value other than None *)
Definition init_barrett (value prime : pv) (k : option pv) : option (pv * pv * pv * pv) :=
  vp <- init_field value prime;
  two_k <- match k with
           | None => match prime with
                     | PBig p => l <- ceil_log2 p; py_mul l (PInt 2)
                     | _ => l <- int_log2 prime; b <- big_init l; py_mul b (PInt 2)
                     end
           | Some k => d <- py_mul (PInt 2) k; big_init d
           end;
  t <- py_pow (PBig 2) two_k;
  mu <- py_truediv t prime;
  Some (vp, two_k, mu).
(** [not k], finite_field.py:198: None, 0; a GMPBigInteger has neither __bool__ nor __len__, so it is always true *)
Definition not_k (k : option pv) : bool := match k with None => true | Some (PInt z) => z =? 0 | Some _ => false end.
(** FiniteFieldElementMontgomery.__init__, finite_field.py:196-213: value, prime, k, n_prime. r and r_mask are functions of k; one_bar
    is not used by the other methods *)
Definition init_montgomery (value prime : pv) (k : option pv) : option (pv * pv * pv * pv) :=
  vp <- init_field value prime;
  let (v, p) := vp in
  kk <- (if not_k k then
           match prime with
           | PBig q => ceil_log2 q
           | _ => l <- int_log2 prime; big_init l
           end
         else bind k big_init);
  r <- py_pow (PBig 2) kk;
  e <- py_sub p (PInt 2);
  r_inverse <- match r with PBig rz => match m_pow rz e (Some p) with Returns x => Some x | _ => None end | _ => None end;
  t <- py_mul r r_inverse;
  t <- py_sub t (PInt 1);
  n_prime <- py_truediv t p;
  w <- py_mul v r;
  w <- py_mod w p;
  Some (w, p, kk, n_prime).
