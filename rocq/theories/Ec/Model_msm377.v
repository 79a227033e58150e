(** Model of a whole multi-scalar multiplication on BLS12-377 in twisted Edwards coordinates, as a caller runs it
    (jaxite_ec/msm_test.py:205-333 and 342-480): twist the points, MSMPippengerTwisted or MSMPippengerTwistedSigned
    (jaxite_ec/pippenger.py) with the lazy point operations, unpack, convert to affine coordinates. *)
From Coq Require Import ZArith List Bool.
From Verif Require Import Base.Word Ckks.Model_rns_utils Ec.Model_util Ec.Model_reffield Ec.Model_curve Ec.Model_accel Ec.Model_pippenger.
Import ListNotations.
Local Open Scope Z_scope.

(** config_BLS12_377_t, algorithm/config_file.py:16-46 *)
Definition S_377 : Z := 10189023633222963290707194929886294091415157242906428298294512798502806398782149227503530278436336312243746741931.
Definition MA_377 : Z := 228097355113300204138531148905234651262148041026195375645000724271212049151994375092458297304264351187709081232384.
Definition T_377 : Z := 23560188534917577818843641916571445935985386319233886518929971599490231428764380923487987729215299304184915158756.
(** ECCSTwistedEdwardsExtended(config_BLS12_377_t), algorithm/elliptic_curve.py:580-590 *)
Definition tcs_377 : option tcs := tcs_new MODULUS_377_INT (-1) TWIST_D_INT (-1) S_377 MA_377 S_377 T_377.

(** One lane of a packed array is a batch of one point. The code computes all lanes of an array at once; the operations work lane
    by lane, so the lanes are modelled separately. *)
(** util.int_list_to_array(coordinates, BASE, U16_EXT_CHUNK_NUM), pippenger.py:902-904, 948-951, 1172-1174, 1211-1214 *)
Definition pack (coordinates : list Z) : option coords :=
  match int_list_to_array coordinates 16 U16_EXT_CHUNK_NUM with Some [x; y; z; t] => Some ([x], [y], [z], [t]) | _ => None end.
(** util.jax_point_pack_to_int_point, util.py:199-206 *)
Definition unpack (c : coords) : list Z := let '(x, y, z, t) := c in map (fun a => array_to_int (hd [] a) 16) [x; y; z; t].
(** pippenger.py:902-904: the blank point *)
Definition blank_377 : coords := match pack [0; 1; 1; 0] with Some c => c | None => ([], [], [], []) end.
(** a point operation that raises stops the whole run; no theorem depends on the value given here, because none of them does *)
Definition or_blank (o : option coords) : coords := match o with Some c => c | None => blank_377 end.
(** jec.padd_lazy_twisted_pack, pdul_lazy_twisted_pack and pneg_lazy_twisted_pack, pippenger.py:722-734, 1066-1072 *)
Definition padd_377 (p q : coords) : coords := or_blank (padd_lazy_twisted p q).
Definition pdul_377 (p : coords) : coords := or_blank (pdul_lazy_twisted p).
Definition pneg_377 (p : coords) : coords := or_blank (pneg_lazy_twisted p).
(** jnp.all(partial_sum == single_point, axis=(0, 2)), pippenger.py:731-733 *)
Fixpoint list_eqb {A} (eqb : A -> A -> bool) (a b : list A) : bool :=
  match a, b with [], [] => true | x :: a', y :: b' => eqb x y && list_eqb eqb a' b' | _, _ => false end.
Definition beq_377 (p q : coords) : bool :=
  let '(x1, y1, z1, t1) := p in let '(x2, y2, z2, t2) := q in let e := list_eqb (list_eqb Z.eqb) in e x1 x2 && e y1 y2 && e z1 z2 && e t1 t2.

(** msm_test.py:56-66 twist_coordinates_list, then the conversion of initialize *)
Definition load (s : tcs) (points : list (Z * Z)) : option (list coords) :=
  sequence_opt (map (fun q => match twist_int_coordinates s [fst q; snd q] with Some c => pack c | None => None end) points).
(** msm_test.py:306-315: generate_point(result, twist=False).convert_to_affine() and the two values *)
Definition finish (s : tcs) (r : coords) : option (Z * Z) :=
  match twisted_generate_point s (map CInt (unpack r)) false false with
  | None => None
  | Some o => match twisted_convert_to_affine s o with
              | Some (Pt _ (Some (x :: y :: _)) _) => Some (fe_value x, fe_value y)
              | _ => None
              end
  end.
Definition msm_377 (c : Z) (point_parallel : nat) (scalars : list Z) (points : list (Z * Z)) : option (Z * Z) :=
  match tcs_377 with
  | None => None
  | Some s =>
    match load s points with
    | None => None
    | Some ps =>
      match msm_twisted coords padd_377 pdul_377 beq_377 blank_377 c point_parallel scalars ps (new_buckets coords blank_377 c point_parallel) with
      | None => None
      | Some (_, r) => finish s r
      end
    end
  end.
Definition msm_377_signed (c : Z) (point_parallel : nat) (scalars : list Z) (points : list (Z * Z)) : option (Z * Z) :=
  match tcs_377 with
  | None => None
  | Some s =>
    match load s points with
    | None => None
    | Some ps =>
      match msm_twisted_signed coords padd_377 pdul_377 pneg_377 beq_377 blank_377 c point_parallel scalars ps (new_buckets_signed coords blank_377 c point_parallel) with
      | None => None
      | Some (_, r) => finish s r
      end
    end
  end.
