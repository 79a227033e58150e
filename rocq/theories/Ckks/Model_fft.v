(** Model of jaxite/jaxite_ckks/encode.py: the canonical embedding and the encode/decode kernels.  Complex numbers are pairs of
    reals: binary64 rounding is not modelled (exact arithmetic), everything else is.  None is an exception. *)
From Coq Require Import Reals ZArith List Bool.
From Verif Require Import Base.Lists Base.Word Base.Cplx Ckks.Model_rns_utils Ckks.Model_ntt_cpu Ckks.Model_encode.
Import ListNotations.
Local Open Scope R_scope.

(** encode.py:15-16, _roots: np.exp(2j * np.pi * np.arange(m) / m) *)
Definition roots (m : nat) : list cplx := map (fun k => cis (2 * PI * INR k / INR m)) (seq 0 m).
(** encode.py:19-23, _rot_group *)
Fixpoint rot_group_loop (n : nat) (last g m : Z) : list Z :=
  match n with O => [] | S n' => let x := ((last * g) mod m)%Z in x :: rot_group_loop n' x g m end.
Definition rot_group (m : Z) (nh : nat) (g : Z) : list Z := 1%Z :: rot_group_loop (nh - 1) 1 g m.

(** NumPy broadcasting of one row operation: a halves of a row must have the same length *)
Definition zip2 {A B C} (f : A -> B -> C) (a : list A) (b : list B) : list C := map (fun p => f (fst p) (snd p)) (combine a b).
(** encode.py:55-59, one row of the inverse stage: [u | t] -> [u + t | (u - t) * current_roots] *)
Definition inv_row (current_roots : list cplx) (half : nat) (row : list cplx) : list cplx :=
  let u := firstn half row in
  let t := skipn half row in
  zip2 cadd u t ++ zip2 cmul (zip2 csub u t) current_roots.
(** encode.py:96-100, one row of the forward stage: [u | t] -> [u + v | u - v] with v = t * current_roots *)
Definition fwd_row (current_roots : list cplx) (half : nat) (row : list cplx) : list cplx :=
  let u := firstn half row in
  let v := zip2 cmul (skipn half row) current_roots in
  zip2 cadd u v ++ zip2 csub u v.
(** vals.reshape(-1, length), the row operation, stored back in place: an error unless length divides len(vals) and the two halves
    have the same size *)
Definition stage (f : list cplx -> list cplx) (len : nat) (vals : list cplx) : option (list cplx) :=
  if ((length vals mod len =? 0) && (len mod 2 =? 0))%nat then Some (concat (map f (rows (length vals / len) len vals))) else None.
(** encode.py:48-53: the roots used by the inverse stage; the indices are below m, so the array access succeeds *)
Definition inv_roots (m len : nat) (rg : list Z) : list cplx :=
  let half := (len / 2)%nat in
  let lenq := Z.of_nat (len * 4) in
  let step := (Z.of_nat m / lenq)%Z in
  map (fun r => let mod_ := (r mod lenq)%Z in nth (Z.to_nat (((lenq - mod_) mod lenq) * step)) (roots m) c0) (firstn half rg).
(** encode.py:89-94 *)
Definition fwd_roots (m len : nat) (rg : list Z) : list cplx :=
  let half := (len / 2)%nat in
  let lenq := Z.of_nat (len * 4) in
  let step := (Z.of_nat m / lenq)%Z in
  map (fun r => let mod_ := (r mod lenq)%Z in nth (Z.to_nat (mod_ * step)) (roots m) c0) (firstn half rg).
(** encode.py:46-60: while length >= 2; [fuel] bounds the number of iterations, which is at most log2 of the length *)
Fixpoint inv_loop (fuel m len : nat) (rg : list Z) (vals : list cplx) : option (list cplx) :=
  match fuel with
  | O => None
  | S f =>
      if (2 <=? len)%nat then
        match stage (inv_row (inv_roots m len rg) (len / 2)) len vals with
        | None => None
        | Some v => inv_loop f m (len / 2) rg v
        end
      else Some vals
  end.
(** encode.py:26-63, fft_special_inv; the mutated array is the result; 1.0 / 0 raises *)
Definition fft_special_inv (vals : list cplx) (cycl_order : nat) : option (list cplx) :=
  let nh := length vals in
  let rg := rot_group (Z.of_nat cycl_order) nh 5 in
  if (nh =? 0)%nat then None
  else match inv_loop (S nh) cycl_order nh rg vals with
       | None => None
       | Some v => Some (bit_reversal_array c0 (map (cscale (1 / INR nh)) v))
       end.
(** encode.py:87-101: while length <= nh *)
Fixpoint fwd_loop (fuel m len nh : nat) (rg : list Z) (vals : list cplx) : option (list cplx) :=
  match fuel with
  | O => None
  | S f =>
      if (len <=? nh)%nat then
        match stage (fwd_row (fwd_roots m len rg) (len / 2)) len vals with
        | None => None
        | Some v => fwd_loop f m (len * 2) nh rg v
        end
      else Some vals
  end.
(** encode.py:66-101, fft_special *)
Definition fft_special (vals : list cplx) (cycl_order : nat) : option (list cplx) :=
  let nh := length vals in
  let rg := rot_group (Z.of_nat cycl_order) nh 5 in
  fwd_loop (S nh) cycl_order 2 nh rg (bit_reversal_array c0 vals).

(** np.round: to the nearest integer, ties to even *)
Definition np_round (x : R) : Z :=
  let f := (up x - 1)%Z in
  if Rlt_dec (x - IZR f) (1 / 2) then f
  else if Rlt_dec (1 / 2) (x - IZR f) then (f + 1)%Z
  else if Z.even f then f else (f + 1)%Z.

(** encode.py:134-159, Encode.encode: one column of residues per modulus, in NTT form.  np.array(moduli, dtype=np.uint32) raises
    for a modulus of 2^32 or more.  The float remainder is exact. *)
Definition encode (degree : nat) (moduli : list Z) (scale : R) (slots : list cplx) : option (list (list Z)) :=
  let nh := (degree / 2)%nat in
  let y := if (length slots <? nh)%nat then slots ++ repeat c0 (nh - length slots) else slots in
  match fft_special_inv y (degree * 2) with
  | None => None
  | Some y =>
      let coeffs := map fst y ++ map snd y in
      let scaled_coeffs := map (fun c => np_round (c * scale)) coeffs in
      if forallb (fun q => (0 <=? q)%Z && (q <? 2 ^ 32)%Z) moduli then ntt_negacyclic_poly (encode_residues scaled_coeffs moduli) moduli
      else None
  end.

(** encode.py:169-195, Decode.decode on a plaintext given by its columns; coeffs[:nh] + 1j * coeffs[nh:] needs two halves of equal
    length (or a broadcast from length one, which needs degree 3 and is left out) *)
Definition decode (scale : R) (num_slots : nat) (columns : list (list Z)) (moduli : list Z) (is_slot_form : bool) : option (list cplx) :=
  let degree := length (nth 0 columns []) in
  match (if is_slot_form then intt_negacyclic_poly columns moduli else Some columns) with
  | None => None
  | Some poly =>
      match decode_integers poly moduli with
      | None => None
      | Some combined =>
          let coeffs := map (fun c => IZR c / scale) combined in
          let nh := (degree / 2)%nat in
          if (length (skipn nh coeffs) =? nh)%nat then
            match fft_special (combine (firstn nh coeffs) (skipn nh coeffs)) (degree * 2) with
            | None => None
            | Some y => Some (firstn num_slots y)
            end
          else None
      end
  end.
