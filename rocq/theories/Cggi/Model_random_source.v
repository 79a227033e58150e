(** Model of jaxite/jaxite_cggi/random_source.py.  A generator with its hidden state is a function S -> Z * S (the value drawn and the next
    state); Python's random.Random and random.SystemRandom are such functions, left arbitrary.  An array is the row-major list of its elements.
    None is an exception; the state is returned also when an exception is raised. *)
From Coq Require Import ZArith List Bool.
Import ListNotations.
Local Open Scope Z_scope.

(** an integer dtype: signedness and width *)
Record dtype := { unsigned : bool; bits : Z }.
Definition uint32 : dtype := {| unsigned := true; bits := 32 |}.
Definition int32 : dtype := {| unsigned := false; bits := 32 |}.

(** random_source.py:15-30, _normalize_value *)
Definition normalize_value (value : Z) (dt : dtype) : Z := if unsigned dt then value mod 2 ^ bits dt else value.
(** jnp.array([...], dtype): out-of-range Python integers raise *)
Definition in_range (dt : dtype) (v : Z) : bool :=
  if unsigned dt then (0 <=? v) && (v <? 2 ^ bits dt) else (- 2 ^ (bits dt - 1) <=? v) && (v <? 2 ^ (bits dt - 1)).

(** [generator() for _ in range(n)] *)
Fixpoint draws {S} (gen : S -> Z * S) (n : nat) (s : S) : list Z * S :=
  match n with
  | O => ([], s)
  | Datatypes.S n' => let '(v, s1) := gen s in let '(l, s2) := draws gen n' s1 in (v :: l, s2)
  end.
(** functools.reduce(operator.mul, shape, 1) *)
Definition num_elements (shape : list Z) : Z := fold_left Z.mul shape 1.
(** random_source.py:33-63, _shape_generator *)
Definition shape_generator {S} (gen : S -> Z * S) (shape : list Z) (dt : dtype) (s : S) : option (list Z) * S :=
  if existsb (fun d => d <? 0) shape then (None, s) else
  let '(l, s') := draws gen (Z.to_nat (num_elements shape)) s in
  let l := map (fun v => normalize_value v dt) l in
  (if forallb (in_range dt) l then Some l else None, s').

(** random_source.py:88-113, CycleRng: bin(n)[2:], the digits of a positive integer from the top; the state is the number of values drawn so far *)
Fixpoint bin_digits (p : positive) (low : list Z) : list Z :=
  match p with
  | xH => 1 :: low
  | xO p' => bin_digits p' (0 :: low)
  | xI p' => bin_digits p' (1 :: low)
  end.
Definition bin (n : Z) : list Z := match n with Zpos p => bin_digits p [] | _ => [0] end.
Definition cycle_data : list Z := bin (13 ^ (39 ^ 2) / 53).
Definition cycle_next (data : list Z) (k : nat) : Z * nat := (nth (k mod length data) data 0, S k).
Definition cycle_uniform (shape : list Z) (dt : dtype) (k : nat) : option (list Z) * nat := shape_generator (cycle_next cycle_data) shape dt k.
Definition cycle_sk_uniform (shape : list Z) (dt : dtype) (k : nat) : option (list Z) * nat := cycle_uniform shape dt k.
Definition cycle_rounded_normal (const_normal_noise : Z) (shape : list Z) (dt : dtype) (k : nat) : option (list Z) * nat :=
  shape_generator (fun k => (const_normal_noise, k)) shape dt k.

(** random_source.py:116-181, SystemRandomSource and PseudorandomSource: [randint lo hi] and [normal std] draw from the underlying generator *)
Definition rng_uniform {S} (randint : Z -> Z -> S -> Z * S) (bounds : Z * Z) (shape : list Z) (dt : dtype) (s : S) : option (list Z) * S :=
  shape_generator (randint (fst bounds) (snd bounds)) shape dt s.
Definition rng_rounded_normal {S} (normal : Z -> S -> Z * S) (normal_std : Z) (shape : list Z) (dt : dtype) (s : S) : option (list Z) * S :=
  shape_generator (normal normal_std) shape dt s.
Definition rng_sk_uniform {S} (randint : Z -> Z -> S -> Z * S) (shape : list Z) (dt : dtype) (s : S) : option (list Z) * S :=
  shape_generator (randint 0 1) shape dt s.
(** jnp.zeros(shape), jnp.ones(shape) * c (NormalOnlyRng, ConstantUniformRng, ZeroRng; lines 184-258): a negative dimension or a constant outside the dtype raises *)
Definition constant_uniform (c : Z) (shape : list Z) (dt : dtype) : option (list Z) :=
  if existsb (fun d => d <? 0) shape then None else if in_range dt c then Some (repeat c (Z.to_nat (num_elements shape))) else None.

(** one object used for a sequence of calls of the same kind *)
Fixpoint calls {S} (call : list Z -> S -> option (list Z) * S) (shapes : list (list Z)) (s : S) : list (option (list Z)) * S :=
  match shapes with
  | [] => ([], s)
  | sh :: rest => let '(r, s1) := call sh s in let '(rs, s2) := calls call rest s1 in (r :: rs, s2)
  end.
