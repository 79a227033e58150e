(** Model of jaxite_ec/pippenger.py: the bucket method for multi-scalar multiplication, over an abstract set of packed points.
    pippenger_rns.py (lines 147-1058) repeats the same code with the RNS point operations.

    The axes are modelled as lists: a packed array of shape (coordinate, lanes, chunks) is a list of lanes, each an element of
    [pnt], because every point operation works lane by lane. An array of buckets (coordinate, lanes, buckets, chunks) is a list of
    lanes of lists of buckets. The jit-compiled functions the caller passes are the ones of this file, with the static
    arguments the tests give them (msm_test.py). *)
From Coq Require Import ZArith List Bool.
From Verif Require Import Base.Word Base.Lists.
Import ListNotations.
Local Open Scope Z_scope.

(** int(math.ceil(254 / slice_length)), pippenger.py:509, 892, 1153: the binary64 quotient of integers this small never rounds across an
    integer, so the exact ceiling is used. slice_length <= 0 raises (division by zero, or a negative number of windows) *)
Definition window_num (c : Z) : nat := Z.to_nat ((254 + c - 1) / c).
(** (scalar >> (w * slice_length)) & slice_mask, pippenger.py:672, 1055-1057, 1306 *)
Definition slice_digit (c s : Z) (w : nat) : Z := Z.land (Z.shiftr s (Z.of_nat w * c)) (2 ^ c - 1).
(** x[i] with an index out of range clamps; x.at[i].set(v) with an index out of range is dropped *)
Definition gather {A} (d : A) (l : list A) (i : Z) : A := nth (Z.to_nat (Z.min i (Z.of_nat (length l) - 1))) l d.
Definition scatter {A} (l : list A) (i : Z) (v : A) : list A := if i <? Z.of_nat (length l) then upd (Z.to_nat i) v l else l.
Fixpoint map3 {A B C D} (f : A -> B -> C -> D) (a : list A) (b : list B) (c : list C) : list D :=
  match a, b, c with x :: a', y :: b', z :: c' => f x y z :: map3 f a' b' c' | _, _, _ => [] end.
(** reshape((-1, k)) of the leading axis *)
Definition reshape {A} (k : nat) (l : list A) : list (list A) := rows (length l / k) k l.

(** ** the sign-free twisted version *)
(** construct_ba_selection, pippenger.py:1049-1060 *)
Definition ba_selection (c : Z) (s : Z) : list Z := map (fun w => slice_digit c s w - 1) (seq 0 (window_num c)).
(** jnp.array(...).astype(jnp.uint32), pippenger.py:962-964 *)
Definition to_u32 (z : Z) : Z := z mod 2 ^ 32.

(** construct_ba_selection_with_sign, pippenger.py:1300-1318: the windows of one scalar, least significant first *)
Fixpoint signed_windows (c : Z) (s : Z) (ws : list nat) (carry : Z) : list (Z * Z) * Z :=
  match ws with
  | [] => ([], carry)
  | w :: ws' =>
    let slice_index := slice_digit c s w + carry in
    let (new_slice_index, carry') := if 2 ^ (c - 1) <=? slice_index then (Z.abs (slice_index - 2 ^ c), 1) else (slice_index, 0) in
    let (r, last) := signed_windows c s ws' carry' in
    ((new_slice_index - 1, carry') :: r, last)
  end.
(** the selection_index and selection_sign lists; None when the assertion fails *)
Definition ba_selection_with_sign (c : Z) (s : Z) : option (list (Z * Z)) :=
  let (l, carry) := signed_windows c s (seq 0 (window_num c)) 0 in if carry =? 0 then Some l else None.
Fixpoint all_selections (c : Z) (scalars : list Z) : option (list (list (Z * Z))) :=
  match scalars with
  | [] => Some []
  | s :: r => match ba_selection_with_sign c s, all_selections c r with Some l, Some ls => Some (l :: ls) | _, _ => None end
  end.

Section Points.
Variable pnt : Type.
Variable padd : pnt -> pnt -> pnt.
Variables pdul pneg : pnt -> pnt.
Variable beq : pnt -> pnt -> bool.
Variable blank : pnt.

(** padd_with_pdul_check, pippenger.py:726-734 *)
Definition padd_with_pdul_check (partial_sum single_point : pnt) : pnt :=
  if beq partial_sum single_point then pdul partial_sum else padd partial_sum single_point.
(** padd_with_sign, pippenger.py:1066-1072 *)
Definition padd_with_sign (partial_sum single_point : pnt) (sign : Z) : pnt :=
  padd partial_sum (if sign =? 1 then pneg single_point else single_point).
(** the point of a batch repeated for its windows, pippenger.py:753-758, 1091-1096 *)
Definition broadcast_points (windows : nat) (ps : list pnt) : list pnt := flat_map (fun q => repeat q windows) ps.
(** bucket_accumulation_index_scan_parallel_algorithm_twisted, pippenger.py:737-776 *)
Definition ba_body (buckets : list (list pnt)) (x : list pnt * list Z) : list (list pnt) :=
  let (point, selection_index) := x in
  let single_window_dim := (length buckets / length point)%nat in
  map3 (fun bs q i => scatter bs i (padd (gather blank bs i) q)) buckets (broadcast_points single_window_dim point) selection_index.
Definition bucket_accumulation (buckets : list (list pnt)) (points : list (list pnt)) (selection : list (list Z)) : list (list pnt) :=
  fold_left ba_body (combine points selection) buckets.
(** bucket_accumulation_signed_index_scan_parallel_algorithm_twisted, pippenger.py:1075-1114 *)
Definition ba_body_signed (buckets : list (list pnt)) (x : list pnt * list (Z * Z)) : list (list pnt) :=
  let (point, selection) := x in
  let single_window_dim := (length buckets / length point)%nat in
  map3 (fun bs q i => scatter bs (fst i) (padd_with_sign (gather blank bs (fst i)) q (snd i))) buckets (broadcast_points single_window_dim point) selection.
Definition bucket_accumulation_signed (buckets : list (list pnt)) (points : list (list pnt)) (selection : list (list (Z * Z))) : list (list pnt) :=
  fold_left ba_body_signed (combine points selection) buckets.
(** bucket_reduction_scan_algorithm_twisted, pippenger.py:779-801, in one lane: the buckets are flipped, so the last one comes first *)
Definition br_body (x : pnt * pnt) (bucket : pnt) : pnt * pnt :=
  let (temp_sum, window_sum) := x in
  let temp_sum := padd temp_sum bucket in
  (temp_sum, padd_with_pdul_check window_sum temp_sum).
Definition bucket_reduction (bucket_num : nat) (buckets : list (list pnt)) : list pnt :=
  map (fun bs => snd (fold_left br_body (firstn bucket_num (rev bs)) (blank, blank))) buckets.
(** batch_window_summation_algorithm_twisted, pippenger.py:804-823 *)
Definition batch_window_summation (windows point_parallel : nat) (all_window_sum : list pnt) : list pnt :=
  fold_left (map2 padd) (rows point_parallel windows all_window_sum) (repeat blank windows).
(** window_merge_scan_algorithm_twisted, pippenger.py:826-855 *)
Definition window_merge (c : Z) (window_sum : list pnt) : pnt :=
  fold_left (fun r w => padd (Nat.iter (Z.to_nat c) pdul r) w) (rev (removelast window_sum)) (last window_sum blank).

(** ** MSMPippengerTwisted, pippenger.py:858-1060 *)
(** __init__, pippenger.py:902-916: the buckets of a new object *)
Definition new_buckets (c : Z) (point_parallel : nat) : list (list pnt) :=
  repeat (repeat blank (Z.to_nat (2 ^ c - 1))) (point_parallel * window_num c).
(** initialize (pippenger.py:934-997), bucket_accumulation, bucket_reduction, batch_window_summation and window_merge (999-1047) in the
    order of msm_test.py. [buckets] is self.all_buckets before the run; the pair returned is self.all_buckets after it and the
    result. None: the constructor, the reshape (pippenger.py:968-973) or the scan raises *)
Definition msm_twisted (c : Z) (point_parallel : nat) (scalars : list Z) (points : list pnt) (buckets : list (list pnt)) : option (list (list pnt) * pnt) :=
  let n := length scalars in
  if (c <=? 0) || (point_parallel =? 0)%nat || (n =? 0)%nat || negb (length points =? n)%nat || negb (n mod point_parallel =? 0)%nat then None
  else
    let w := window_num c in
    let selection := map to_u32 (concat (map (ba_selection c) scalars)) in
    let all_buckets := bucket_accumulation buckets (reshape point_parallel points) (reshape (w * point_parallel) selection) in
    let window_sum := bucket_reduction (Z.to_nat (2 ^ c - 1)) all_buckets in
    let window_sum := batch_window_summation w point_parallel window_sum in
    Some (all_buckets, window_merge c window_sum).

(** ** MSMPippengerTwistedSigned, pippenger.py:1117-1319 *)
(** __init__, pippenger.py:1155-1175 *)
Definition new_buckets_signed (c : Z) (point_parallel : nat) : list (list pnt) :=
  repeat (repeat blank (Z.to_nat (2 ^ (c - 1)))) (point_parallel * window_num c).
(** initialize (1194-1234) and the four steps (1236-1287) *)
Definition msm_twisted_signed (c : Z) (point_parallel : nat) (scalars : list Z) (points : list pnt) (buckets : list (list pnt)) : option (list (list pnt) * pnt) :=
  let n := length scalars in
  if (c <=? 0) || (point_parallel =? 0)%nat || (n =? 0)%nat || negb (length points =? n)%nat || negb (n mod point_parallel =? 0)%nat then None
  else
    match all_selections c scalars with
    | None => None
    | Some sel =>
      let w := window_num c in
      let selection := map (fun x => (to_u32 (fst x), snd x)) (concat sel) in
      let all_buckets := bucket_accumulation_signed buckets (reshape point_parallel points) (reshape (w * point_parallel) selection) in
      let window_sum := bucket_reduction (Z.to_nat (2 ^ (c - 1))) all_buckets in
      let window_sum := batch_window_summation w point_parallel window_sum in
      Some (all_buckets, window_merge c window_sum)
    end.

(** ** MSMPippenger, pippenger.py:147-714: XYZZ points with explicit zero states *)
(** padd_with_zero_alter, pippenger.py:196-202 *)
Definition padd_with_zero_alter (partial_sum single_point : pnt) (ps_is_zero : Z) : pnt :=
  if ps_is_zero =? 1 then single_point else padd partial_sum single_point.
(** padd_with_zero, pippenger.py:171-193 *)
Definition padd_with_zero (partial_sum single_point : pnt) (ps_is_zero sp_is_zero : Z) : pnt :=
  let result_1 := if sp_is_zero =? 1 then partial_sum else single_point in
  if (sp_is_zero =? 1) || (ps_is_zero =? 1) then result_1 else padd partial_sum single_point.
(** padd_with_zero_and_pdul_check, pippenger.py:205-236 *)
Definition padd_with_zero_and_pdul_check (partial_sum single_point : pnt) (ps_is_zero sp_is_zero : Z) : pnt :=
  let result_1 := if sp_is_zero =? 1 then partial_sum else single_point in
  let result_2 := if (sp_is_zero =? 1) || (ps_is_zero =? 1) then result_1 else padd partial_sum single_point in
  if beq partial_sum single_point then pdul partial_sum else result_2.
(** selective_padd_with_zero, pippenger.py:147-168 *)
Definition selective_padd_with_zero (partial_sum single_point : pnt) (select is_zero : Z) : pnt :=
  let sum_result := if select =? 1 then padd partial_sum single_point else partial_sum in
  if (select =? 1) && (is_zero =? 1) then single_point else sum_result.
(** construct_ba_zero_states_and_selection, pippenger.py:649-680. One scalar: the zero states, the one-hot selection and the indices *)
Definition zero_states_step (c : Z) (zero_states : list (list Z)) (s : Z) : list (list Z) :=
  map2 (fun z w => upd (Z.to_nat (slice_digit c s w)) 0 z) zero_states (seq 0 (window_num c)).
Definition zero_states_init (c : Z) : list (list Z) := repeat (repeat 1 (Z.to_nat (2 ^ c))) (window_num c).
Definition selection_of (c : Z) (s : Z) : list (list Z) := map (fun w => upd (Z.to_nat (slice_digit c s w)) 1 (repeat 0 (Z.to_nat (2 ^ c)))) (seq 0 (window_num c)).
Definition selection_index_of (c : Z) (s : Z) : list Z := map (fun w => slice_digit c s w) (seq 0 (window_num c)).
Fixpoint zero_states_list (c : Z) (zero_states : list (list Z)) (scalars : list Z) : list (list (list Z)) :=
  zero_states :: match scalars with [] => [] | s :: r => zero_states_list c (zero_states_step c zero_states s) r end.
(** bucket_accumulation_index_scan_algorithm, pippenger.py:316-350 (the loop version, pippenger.py:287-313, is the same) *)
Definition ba_index_body (buckets : list (list pnt)) (x : pnt * list Z * list (list Z)) : list (list pnt) :=
  let '(point, selection_index, zero_states) := x in
  map3 (fun bs i z => scatter bs i (padd_with_zero_alter (gather blank bs i) point (gather 0 z i))) buckets selection_index zero_states.
Definition bucket_accumulation_index (buckets : list (list pnt)) (points : list pnt) (selection : list (list Z)) (zero_states : list (list (list Z))) : list (list pnt) :=
  fold_left ba_index_body (combine (combine points selection) zero_states) buckets.
(** bucket_accumulation_scan_algorithm, pippenger.py:258-284 (loop version 239-255): every bucket is a lane *)
Definition ba_onehot_body (buckets : list pnt) (x : pnt * list Z * list Z) : list pnt :=
  let '(point, selection, zero_states) := x in
  map3 (fun b s z => selective_padd_with_zero b point s z) buckets selection zero_states.
Definition bucket_accumulation_onehot (buckets : list pnt) (points : list pnt) (selection : list (list Z)) (zero_states : list (list Z)) : list pnt :=
  fold_left ba_onehot_body (combine (combine points selection) zero_states) buckets.
(** construct_br_zero_states, pippenger.py:682-714, in one lane: after flipping, the running conjunctions *)
Fixpoint br_states (t w : Z) (bz : list Z) : list (Z * Z) :=
  (t, w) :: match bz with [] => [] | b :: r => let t' := Z.land t b in br_states t' (Z.land w t') r end.
(** bucket_reduction_scan_algorithm, pippenger.py:380-422, in one lane: bucket 0 is left out *)
Definition br_zero_body (x : pnt * pnt) (y : pnt * Z * (Z * Z) * Z) : pnt * pnt :=
  let (temp_sum, window_sum) := x in
  let '(bucket, bucket_zero, (temp_zero, window_zero), temp_zero1) := y in
  let temp_sum := padd_with_zero temp_sum bucket temp_zero bucket_zero in
  (temp_sum, padd_with_zero_and_pdul_check window_sum temp_sum window_zero temp_zero1).
Definition br_zero_lane (bucket_num : nat) (bs : list pnt) (bz : list Z) : pnt :=
  let bz := rev bz in
  let st := firstn bucket_num (br_states 1 1 bz) in
  snd (fold_left br_zero_body (firstn (bucket_num - 1) (combine (combine (combine (rev bs) bz) st) (map fst (tl st)))) (blank, blank)).
Definition bucket_reduction_zero (bucket_num : nat) (buckets : list (list pnt)) (bucket_zero : list (list Z)) : list pnt := map2 (br_zero_lane bucket_num) buckets bucket_zero.
(** initialize (546-596), bucket_accumulation, bucket_reduction and window_merge (598-647) *)
Definition new_buckets_xyzz (c : Z) : list (list pnt) := repeat (repeat blank (Z.to_nat (2 ^ c))) (window_num c).
Definition msm_xyzz (c : Z) (scalars : list Z) (points : list pnt) (buckets : list (list pnt)) : option (list (list pnt) * pnt) :=
  let n := length scalars in
  if (c <=? 0) || (n =? 0)%nat || negb (length points =? n)%nat then None
  else
    let zs := zero_states_list c (zero_states_init c) scalars in
    let all_buckets := bucket_accumulation_index buckets points (map (selection_index_of c) scalars) (firstn n zs) in
    let window_sum := bucket_reduction_zero (Z.to_nat (2 ^ c)) all_buckets (last zs []) in
    Some (all_buckets, window_merge c window_sum).
End Points.
