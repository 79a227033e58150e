(** Model of jaxite_ec/algorithm/finite_field.py: the reference field elements.
    An object is a record of the attributes its methods read; a method that raises returns None.
    GMPBigInteger (algorithm/big_integer.py) wraps gmpy2.mpz one operator at a time, so its values are Z here:
    / is floor division (big_integer.py:50-63), % and >> and & are Z.modulo, Z.shiftr, Z.land (65-73, 137-151). That this is what
    the objects do, and which constructor arguments raise, is C64 (Model_bigint.v, Prop_bigint.v); here the prime is an int when k is omitted. *)
From Coq Require Import ZArith List Bool Zpow_facts.
From Verif Require Import Base.Egcd.
Import ListNotations.
Local Open Scope Z_scope.

(** gmpy2.powmod as called from big_integer.py:117-126: a negative exponent takes the inverse and raises if there is none *)
Definition powmod (b e m : Z) : option Z :=
  if m =? 0 then None
  else if e <? 0 then match inverse b m with Some i => Some (Zpow_mod i (- e) m) | None => None end
  else Some (Zpow_mod b e m).

(** ** FiniteFieldElement, finite_field.py:11-115 *)
Record fe := FE { fe_value : Z; fe_prime : Z }.
(** __init__, finite_field.py:14-26 *)
Definition fe_new (value prime : Z) : option fe := if (value <? 0) || (prime <=? value) then None else Some (FE value prime).
(** set_value, finite_field.py:28-38: the new state, None for the ValueError *)
Definition fe_set_value (x : fe) (value : Z) : option fe := if (value <? 0) || (fe_prime x <=? value) then None else Some (FE value (fe_prime x)).
(** copy, finite_field.py:46-67, with an int or no argument: [not value] holds for None and for 0; the value is not validated *)
Definition fe_copy (x : fe) (value : option Z) : fe :=
  match value with
  | None => x
  | Some v => if v =? 0 then x else FE v (fe_prime x)
  end.
(** __add__, __sub__, __mul__, finite_field.py:69-85 *)
Definition fe_add (x y : fe) : option fe := if negb (fe_prime x =? fe_prime y) then None else fe_new ((fe_value x + fe_value y) mod fe_prime x) (fe_prime x).
Definition fe_sub (x y : fe) : option fe := if negb (fe_prime x =? fe_prime y) then None else fe_new ((fe_value x - fe_value y) mod fe_prime x) (fe_prime x).
Definition fe_mul (x y : fe) : option fe := if negb (fe_prime x =? fe_prime y) then None else fe_new ((fe_value x * fe_value y) mod fe_prime x) (fe_prime x).
(** __truediv__, finite_field.py:87-93 *)
Definition fe_div (x y : fe) : option fe :=
  if negb (fe_prime x =? fe_prime y) then None
  else match powmod (fe_value y) (fe_prime x - 2) (fe_prime x) with
       | None => None
       | Some inverse => fe_new ((fe_value x * inverse) mod fe_prime x) (fe_prime x)
       end.
(** __pow__, finite_field.py:95-97 *)
Definition fe_pow (x : fe) (exponent : Z) : option fe :=
  match powmod (fe_value x) exponent (fe_prime x) with None => None | Some r => fe_new r (fe_prime x) end.
(** __eq__, finite_field.py:99-100 *)
Definition fe_eq (x y : fe) : bool := (fe_value x =? fe_value y) && (fe_prime x =? fe_prime y).

(** ** FiniteFieldElementBarrett, finite_field.py:118-190 *)
Record fb := FB { fb_value : Z; fb_prime : Z; fb_two_k : Z; fb_mu : Z }.
(** __init__, finite_field.py:121-130. Simplified: math.ceil(math.log2(prime)), a float computation, is the exact logarithm rounded up; see Model_reflog.v *)
Definition fb_new (value prime : Z) (k : option Z) : option fb :=
  if (value <? 0) || (prime <=? value) then None
  else let two_k := match k with None => 2 * Z.log2_up prime | Some k => 2 * k end in
       if two_k <? 0 then None else Some (FB value prime two_k (2 ^ two_k / prime)).
Definition fb_with (x : fb) (v : Z) : fb := FB v (fb_prime x) (fb_two_k x) (fb_mu x).
(** barrett_reduction, finite_field.py:132-139 *)
Definition fb_reduce (x : fb) (v : Z) : Z :=
  let q := Z.shiftr (v * fb_mu x) (fb_two_k x) in
  let r := v - q * fb_prime x in
  if fb_prime x <=? r then r - fb_prime x else r.
(** __add__, finite_field.py:141-149: the comparison is strict *)
Definition fb_add (x y : fb) : option fb :=
  if negb (fb_prime x =? fb_prime y) then None
  else let result := fb_value x + fb_value y in
       Some (fb_with x (if fb_prime x <? result then result - fb_prime x else result)).
(** __sub__, finite_field.py:151-160 *)
Definition fb_sub (x y : fb) : option fb :=
  if negb (fb_prime x =? fb_prime y) then None
  else Some (fb_with x (if fb_value x <? fb_value y then fb_value x + fb_prime x - fb_value y else fb_value x - fb_value y)).
(** __mul__, finite_field.py:162-169 *)
Definition fb_mul (x y : fb) : option fb := if negb (fb_prime x =? fb_prime y) then None else Some (fb_with x (fb_reduce x (fb_value x * fb_value y))).
(** __truediv__, finite_field.py:171-179 *)
Definition fb_div (x y : fb) : option fb :=
  if negb (fb_prime x =? fb_prime y) then None
  else match powmod (fb_value y) (fb_prime x - 2) (fb_prime x) with
       | None => None
       | Some inverse => Some (fb_with x (fb_reduce x (fb_value x * inverse)))
       end.
(** copy, finite_field.py:181-190 *)
Definition fb_copy (x : fb) (value : option Z) (reduction : bool) : fb :=
  match value with
  | None => x
  | Some v => if v =? 0 then x else fb_with x (if reduction then fb_reduce x v else v)
  end.
(** __eq__, inherited, finite_field.py:99-100 *)
Definition fb_eq (x y : fb) : bool := (fb_value x =? fb_value y) && (fb_prime x =? fb_prime y).

(** ** FiniteFieldElementMontgomery, finite_field.py:193-304 *)
Record fm := FM { fm_value : Z; fm_prime : Z; fm_k : Z; fm_n_prime : Z; fm_form : bool }.
Definition fm_r (x : fm) : Z := 2 ^ fm_k x.
Definition fm_with (x : fm) (v : Z) : fm := FM v (fm_prime x) (fm_k x) (fm_n_prime x) (fm_form x).
(** montgomeryize, finite_field.py:222-224 *)
Definition montgomeryize (r prime x : Z) : Z := (x * r) mod prime.
(** __init__, finite_field.py:196-213; same simplification for the logarithm; [not k] holds for 0 *)
Definition fm_new (value prime : Z) (k : option Z) : option fm :=
  if (value <? 0) || (prime <=? value) then None
  else let k := match k with None => Z.log2_up prime | Some 0 => Z.log2_up prime | Some k => k end in
       if k <? 0 then None
       else let r := 2 ^ k in
            match powmod r (prime - 2) prime with
            | None => None
            | Some r_inverse => Some (FM (montgomeryize r prime value) prime k ((r * r_inverse - 1) / prime) true)
            end.
(** montgomery_reduction, finite_field.py:215-220 *)
Definition fm_reduce (x : fm) (v : Z) : Z :=
  let mask := fm_r x - 1 in
  let m := Z.land (Z.land v mask * fm_n_prime x) mask in
  let u := Z.shiftr (v + m * fm_prime x) (fm_k x) in
  if fm_prime x <=? u then u - fm_prime x else u.
(** de_montgomeryize, finite_field.py:226-228 *)
Definition de_montgomeryize (x : fm) (v : Z) : Z := fm_reduce x v.
(** change_montgomery_form, finite_field.py:230-237 *)
Definition change_montgomery_form (x : fm) : fm :=
  if fm_form x then FM (de_montgomeryize x (fm_value x)) (fm_prime x) (fm_k x) (fm_n_prime x) false
  else FM (montgomeryize (fm_r x) (fm_prime x) (fm_value x)) (fm_prime x) (fm_k x) (fm_n_prime x) true.
(** __add__, __sub__, __mul__, finite_field.py:239-270: the other operand must be in Montgomery form *)
Definition fm_add (x y : fm) : option fm :=
  if negb (fm_prime x =? fm_prime y) || negb (fm_form y) then None
  else let result := fm_value x + fm_value y in
       Some (fm_with x (if fm_prime x <? result then result - fm_prime x else result)).
Definition fm_sub (x y : fm) : option fm :=
  if negb (fm_prime x =? fm_prime y) || negb (fm_form y) then None
  else Some (fm_with x (if fm_value x <? fm_value y then fm_value x + fm_prime x - fm_value y else fm_value x - fm_value y)).
Definition fm_mul (x y : fm) : option fm :=
  if negb (fm_prime x =? fm_prime y) || negb (fm_form y) then None else Some (fm_with x (fm_reduce x (fm_value x * fm_value y))).
(** __truediv__, finite_field.py:272-289 *)
Definition fm_div (x y : fm) : option fm :=
  if negb (fm_prime x =? fm_prime y) then None
  else let other := if fm_form y then de_montgomeryize x (fm_value y) else fm_value y in
       match powmod other (fm_prime x - 2) (fm_prime x) with
       | None => None
       | Some inverse => Some (fm_with x (fm_reduce x (fm_value x * montgomeryize (fm_r x) (fm_prime x) inverse)))
       end.
(** __pow__, inherited, finite_field.py:95-97: a plain element holding the power of the stored value *)
Definition fm_pow (x : fm) (exponent : Z) : option fe :=
  match powmod (fm_value x) exponent (fm_prime x) with None => None | Some r => fe_new r (fm_prime x) end.
(** copy, finite_field.py:291-304 *)
Definition fm_copy (x : fm) (value : option Z) (transform reduction : bool) : fm :=
  match value with
  | None => x
  | Some v => if v =? 0 then x
              else fm_with x (if reduction then fm_reduce x v else if transform then montgomeryize (fm_r x) (fm_prime x) v else v)
  end.
Definition fm_eq (x y : fm) : bool := (fm_value x =? fm_value y) && (fm_prime x =? fm_prime y).
