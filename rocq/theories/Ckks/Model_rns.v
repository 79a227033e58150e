(** Model of jaxite/jaxite_ckks/rns.py: the reference NTT and RNS polynomials (Python integers).  None is an exception. *)
From Coq Require Import ZArith List Bool.
From Verif Require Import Base.Lists Base.Word Ckks.Model_rns_utils.
Import ListNotations.
Local Open Scope Z_scope.

(** rns.py:14-22, _mod_exp: the square-and-multiply loop on the bits of n (the last squaring is not used) *)
Fixpoint mod_exp_loop (result x : Z) (n : positive) (q : Z) : Z :=
  match n with
  | xH => (result * x) mod q
  | xO p => mod_exp_loop result ((x * x) mod q) p q
  | xI p => mod_exp_loop ((result * x) mod q) ((x * x) mod q) p q
  end.
Definition mod_exp (x n q : Z) : Z :=
  match n with Zpos p => mod_exp_loop 1 x p q | _ => 1 end.

(** rns.py:25-45, _primitive_root; [fuel] runs over range(2, q) *)
Fixpoint primitive_root_loop (fuel : nat) (t n k q : Z) : option Z :=
  match fuel with
  | O => None
  | S f => let candidate := mod_exp t k q in
           if negb (mod_exp candidate n q =? 1) then Some candidate else primitive_root_loop f (t + 1) n k q
  end.
Definition primitive_root (m q : Z) : option Z :=
  if negb (is_power_of_two m) then None
  else if negb ((q - 1) mod m =? 0) then None
  else primitive_root_loop (Z.to_nat (q - 2)) 2 (Z.shiftr m 1) ((q - 1) / m) q.

(** rns.py:48-65, class Ntt *)
Record ntt_params := { nt_n : nat; nt_q : Z; nt_n_inv : Z; nt_psis : list Z; nt_psis_inv : list Z }.

(** rns.py:67-92, __post_init__.  [l[:1:] + l[:0:-1]] is the first entry followed by the others in reverse;
    [psis_inv_bitrev[1]] is an IndexError for n = 1. *)
Definition mk_ntt (n : nat) (q : Z) : option ntt_params :=
  if negb (is_power_of_two (Z.of_nat n)) then None
  else if negb (q mod (2 * Z.of_nat n) =? 1) then None
  else match inverse_mod (Z.of_nat n) q, primitive_root (2 * Z.of_nat n) q with
  | Some n_inv, Some psi =>
      let psis := map (fun i => mod_exp psi (Z.of_nat i) q) (seq 0 n) in
      let inv0 := firstn 1 psis ++ rev (skipn 1 psis) in
      if (length inv0 <? 2)%nat then None
      else
        let neg_psi_inv := nth 1 inv0 0 in
        let psi_inv := (- neg_psi_inv) mod q in
        let inv1 := bit_reversal_array 0 inv0 in
        let inv2 := map (fun i => if (i =? 0)%nat then (nth 0 inv1 0 * psi_inv) mod q
                                  else (nth i inv1 0 * neg_psi_inv) mod q) (seq 0 n) in
        Some {| nt_n := n; nt_q := q; nt_n_inv := n_inv; nt_psis := bit_reversal_array 0 psis; nt_psis_inv := inv2 |}
  | _, _ => None
  end.

(** the two butterflies: rns.py:116-120 and 135-140; (new coeffs[k+j], new coeffs[k+j+half_m]) *)
Definition ct_butterfly (q w u v : Z) : Z * Z := let t := v * w in ((u + t) mod q, (u - t) mod q).
Definition gs_butterfly (q w u v : Z) : Z * Z := ((u + v) mod q, ((u - v) * w) mod q).

(** the loop over j, rns.py:115-120, 134-140, in place *)
Definition pass_block (bf : Z -> Z -> Z -> Z * Z) (w : Z) (half : nat) (k : nat) (c : list Z) : list Z :=
  fold_left (fun l j =>
    let r := bf w (nth (k + j) l 0) (nth (k + j + half) l 0) in
    upd (k + j + half) (snd r) (upd (k + j) (fst r) l)) (seq 0 half) c.
(** the loop over k, rns.py:114-121, 133-141: range(0, len, 2*half); the state is (coeffs, index into the table) *)
Definition pass (bf : Z -> Z -> Z -> Z * Z) (table : list Z) (half : nat) (st : list Z * nat) : list Z * nat :=
  let m := (2 * half)%nat in
  fold_left (fun s b => (pass_block bf (nth (snd s) table 0) half (b * m) (fst s), S (snd s)))
    (seq 0 ((length (fst st) + m - 1) / m)) st.

(** rns.py:104-121, _iterative_cooley_tukey: i from log_len - 1 down to 0 *)
Definition iterative_cooley_tukey (p : ntt_params) (coeffs : list Z) (log_len : nat) : list Z :=
  fst (fold_left (fun st i => pass (ct_butterfly (nt_q p)) (nt_psis p) (2 ^ i) st) (rev (seq 0 log_len)) (coeffs, 1%nat)).
(** rns.py:123-141, _iterative_gentleman_sande: i from 0 to log_len - 1 *)
Definition iterative_gentleman_sande (p : ntt_params) (coeffs : list Z) (log_len : nat) : list Z :=
  fst (fold_left (fun st i => pass (gs_butterfly (nt_q p)) (nt_psis_inv p) (2 ^ i) st) (seq 0 log_len) (coeffs, 0%nat)).

(** rns.py:94-96 *)
Definition forward (p : ntt_params) (coeffs : list Z) : list Z :=
  iterative_cooley_tukey p coeffs (num_bits (length coeffs)).
(** rns.py:98-102 *)
Definition backward (p : ntt_params) (coeffs : list Z) : list Z :=
  map (fun c => (c * nt_n_inv p) mod nt_q p) (iterative_gentleman_sande p coeffs (num_bits (length coeffs))).

(** rns.py:161-175, class RnsPolynomial *)
Record rns_poly := { rp_degree : nat; rp_moduli : list Z; rp_coeffs : list (list Z); rp_is_ntt : bool }.

(** rns.py:144-158, RnsParams.ntt_params *)
Definition mk_rns_params (degree : nat) (moduli : list Z) : option (list ntt_params) :=
  sequence_opt (map (mk_ntt degree) moduli).

(** rns.py:177-191, in place; rows beyond the list of moduli are left alone *)
Definition transform_rows (f : ntt_params -> list Z -> list Z) (params : list ntt_params) (a : rns_poly) : list (list Z) :=
  map2 f (firstn (length (rp_moduli a)) params) (firstn (length (rp_moduli a)) (rp_coeffs a)) ++ skipn (length (rp_moduli a)) (rp_coeffs a).
Definition to_ntt_form (params : list ntt_params) (a : rns_poly) : rns_poly :=
  if rp_is_ntt a then a
  else {| rp_degree := rp_degree a; rp_moduli := rp_moduli a; rp_coeffs := transform_rows forward params a; rp_is_ntt := true |}.
Definition to_coeffs_form (params : list ntt_params) (a : rns_poly) : rns_poly :=
  if negb (rp_is_ntt a) then a
  else {| rp_degree := rp_degree a; rp_moduli := rp_moduli a; rp_coeffs := transform_rows backward params a; rp_is_ntt := false |}.

(** rns.py:209-236, _check_compatible: false is the ValueError *)
Definition check_compatible (a b : rns_poly) : bool :=
  (rp_degree a =? rp_degree b)%nat && (length (rp_moduli a) =? length (rp_moduli b))%nat &&
  forallb (fun i => nth i (rp_moduli a) 0 =? nth i (rp_moduli b) 0) (seq 0 (length (rp_moduli a))) &&
  (length (rp_coeffs a) =? length (rp_coeffs b))%nat && Bool.eqb (rp_is_ntt a) (rp_is_ntt b).

(** the double loops of rns.py:203-206, 244-247, 256-259, 271-274 *)
Definition pointwise (f : Z -> Z -> Z) (a b : rns_poly) : list (list Z) :=
  map (fun i => map (fun j => f (nth j (nth i (rp_coeffs a) []) 0) (nth j (nth i (rp_coeffs b) []) 0) mod nth i (rp_moduli a) 0)
                    (seq 0 (rp_degree a))) (seq 0 (length (rp_moduli a))).
Definition rebuild (a : rns_poly) (c : list (list Z)) : rns_poly :=
  {| rp_degree := rp_degree a; rp_moduli := rp_moduli a; rp_coeffs := c; rp_is_ntt := rp_is_ntt a |}.

(** rns.py:201-207, __neg__ *)
Definition rp_neg (a : rns_poly) : rns_poly := rebuild a (pointwise (fun x _ => - x) a a).
(** rns.py:238-248, __add__ *)
Definition rp_add (a b : rns_poly) : option rns_poly :=
  if check_compatible a b then Some (rebuild a (pointwise Z.add a b)) else None.
(** rns.py:250-260, __sub__ *)
Definition rp_sub (a b : rns_poly) : option rns_poly :=
  if check_compatible a b then Some (rebuild a (pointwise Z.sub a b)) else None.
(** rns.py:262-275, __mul__ *)
Definition rp_mul (a b : rns_poly) : option rns_poly :=
  if check_compatible a b
  then if negb (rp_is_ntt a) || negb (rp_is_ntt b) then None else Some (rebuild a (pointwise Z.mul a b))
  else None.

(** rns.py:278-285, gen_rns_polynomial *)
Definition gen_rns_polynomial (degree : nat) (coeffs : list Z) (moduli : list Z) : rns_poly :=
  {| rp_degree := degree; rp_moduli := moduli; rp_coeffs := map (fun q => map (fun c => c mod q) coeffs) moduli; rp_is_ntt := false |}.
(** rns.py:288-296, gen_rns_polynomial_from_jnp_array *)
Definition gen_rns_polynomial_from_jnp_array (degree : nat) (rns_coeffs : list (list Z)) (moduli : list Z) (is_ntt : bool) : rns_poly :=
  {| rp_degree := degree; rp_moduli := moduli; rp_coeffs := rns_coeffs; rp_is_ntt := is_ntt |}.
