(** Model of the pytree methods of jaxite_ckks (types.py, barrett.py, add.py, mul.py, ntt.py, basis_conversion.py, key_switching.py,
    conjugate.py, rescale.py, blind_rotate.py), and of jax.tree_util.tree_flatten and tree_unflatten, which jit, vmap, scan and
    tree_map use to take objects apart and rebuild them. None is an exception.
    Simplified: array contents are opaque, except one-dimensional uint32 arrays (VArr); the children of a node are ordered as returned. *)
From Coq Require Import ZArith List Bool String.
Import ListNotations.
Local Open Scope string_scope.
Local Open Scope list_scope.
Local Open Scope Z_scope.

(** the classes decorated with register_pytree_node_class: types.py:8-103, barrett.py:14, add.py:21-100, mul.py:27-118, ntt.py:53, 106,
    basis_conversion.py:61, 90, key_switching.py:26, conjugate.py:26, rescale.py:58, blind_rotate.py:30 *)
Inductive cls :=
  | Plaintext | Ciphertext | HMuxRotKey | MuxRotationKey | EvaluationKeys | BarrettConstants | AddSimple | AddModularBarrett
  | AddModularSubtract | MulSimple | MulBarrett | NTTBarrettConstants | NTTBarrett | BasisConstants | BasisConversionBarrett
  | KeySwitcher | Conjugation | Rescale | BlindRotation | Mul.
(** Python values: None, int (and bool), one-dimensional uint32 array, anything that is not a registered class (other arrays, tracers,
    placeholders, and types.PublicKey, SecretKey and EvaluationKeys), list, tuple, an instance of a registered class with its
    attributes in the order of [fields], and the absence of an attribute *)
Inductive val :=
  | VNone | VInt (z : Z) | VArr (l : list Z) | VOther (id : nat) | VList (l : list val) | VTuple (l : list val)
  | VObj (c : cls) (attributes : list val) | VMissing.

(** the attributes of the instances: types.py:11-14, 27-30, 76-77, 96; mul.py:104-106; barrett.py:19-22; add.py:58, 84; mul.py:70; ntt.py:58-67,
    111; basis_conversion.py:66-69, 95; key_switching.py:30-32; conjugate.py:31; rescale.py:85-94; blind_rotate.py:34-40; mul.py:134-374 *)
Definition fields (c : cls) : list string :=
  match c with
  | Plaintext | Ciphertext => ["data"; "moduli"]
  | HMuxRotKey => ["key0"; "key1"]
  | MuxRotationKey => ["keys"]
  | EvaluationKeys => ["a"; "b"; "moduli"]
  | BarrettConstants => ["m"; "moduli"; "w"; "s_w"]
  | AddSimple | MulSimple => []
  | AddModularBarrett | MulBarrett => ["barrett_constants"]
  | AddModularSubtract => ["moduli"]
  | NTTBarrettConstants => ["ntt_bat_tf_step1"; "ntt_tf_step2"; "ntt_bat_tf_step3"; "intt_bat_tf_step1"; "intt_tf_step2"; "intt_bat_tf_step3";
                            "barrett_constants"; "r"; "c"; "moduli"]
  | NTTBarrett => ["constants"]
  | BasisConstants => ["q_hat_inv_mod_q"; "q_hat_mod_p_bat"; "origin_barrett"; "target_barrett"]
  | BasisConversionBarrett => ["precomputed_constants"]
  | KeySwitcher => ["ntt_kernels_q"; "ntt_kernels_out"]
  | Conjugation => ["key_switcher"]
  | Rescale => ["moduli"; "num_rescales"; "r"; "c"; "gammas_stacked"; "betas_stacked"; "thresholds"; "ntt_last_limb_kernels"; "ntt_remaining_limbs_kernels"]
  | BlindRotation => ["key_switcher"; "bc_kernel"; "mul_kernel"; "rescale_kernel"; "ntt_q"; "ntt_p"]
  | Mul => ["is_initialized"; "_injected_bconv"; "_injected_ntt_current"; "_injected_ntt_extend"; "_injected_ntt_factory"; "_injected_full_ntt";
            "original_moduli"; "extend_moduli"; "dnum"; "r"; "c"; "degree"; "composite_degree"; "drop_last_moduli"; "drop_last_extend_moduli";
            "ks_alpha"; "ks_num_parts_ql"; "ks_select_tower_index_overall"; "ks_non_select_tower_index_overall"; "ks_restore_indices"; "bconv";
            "full_ntt_constants"; "ntt_current"; "ntt_extend"; "drop_last_extend_moduli_jax"; "ks_ntt_kernels"; "PInvModq"; "q_correction";
            "q_correction_uint32"; "barrett_constants"; "full_barrett_constants"]
  end.
Definition bind {A B} (x : option A) (f : A -> option B) : option B := match x with Some x => f x | None => None end.
Notation "x <- a ; b" := (bind a (fun x => b)) (at level 61, a at next level, right associativity).
(** obj.name, with AttributeError, and obj.name = v *)
Definition present (v : val) : option val := match v with VMissing => None | v => Some v end.
Fixpoint lookup (names : list string) (vs : list val) (name : string) : option val :=
  match names, vs with
  | n :: names, v :: vs => if String.eqb n name then present v else lookup names vs name
  | _, _ => None
  end.
Fixpoint assign (names : list string) (vs : list val) (name : string) (v : val) : list val :=
  match names, vs with
  | n :: names, w :: vs => if String.eqb n name then v :: vs else w :: assign names vs name v
  | _, _ => vs
  end.
Definition get (c : cls) (vs : list val) (name : string) : option val := lookup (fields c) vs name.
Definition set (c : cls) (name : string) (v : val) (vs : list val) : list val := assign (fields c) vs name v.
Fixpoint gets (c : cls) (vs : list val) (names : list string) : option (list val) :=
  match names with [] => Some [] | n :: names => v <- get c vs n; r <- gets c vs names; Some (v :: r) end.
(** (obj.a, obj.b, ...) = values: the lengths must agree *)
Fixpoint unpack (c : cls) (names : list string) (values : list val) (vs : list val) : option (list val) :=
  match names, values with
  | [], [] => Some vs
  | n :: names, v :: values => unpack c names values (set c n v vs)
  | _, _ => None
  end.
Definition item (l : list val) (i : nat) : option val := nth_error l i.
(** the constructor of a dataclass, applied to as many arguments as it has fields *)
Definition construct (c : cls) (args : list val) : option val :=
  if (Datatypes.length args =? Datatypes.length (fields c))%nat then Some (VObj c args) else None.

(** jnp.array(list(x), dtype=uint32), add.py:84: a placeholder cannot be iterated *)
Definition array_uint32 (x : val) : option val := match x with VArr l => Some (VArr (map (fun z => z mod 2 ^ 32) l)) | _ => None end.
(** the children of Mul, mul.py:581-596, in this order *)
Definition mul_children : list string :=
  ["bconv"; "ks_select_tower_index_overall"; "ks_non_select_tower_index_overall"; "ks_restore_indices"; "full_ntt_constants"; "ks_ntt_kernels";
   "PInvModq"; "q_correction"; "barrett_constants"; "full_barrett_constants"; "ntt_current"; "ntt_extend"; "drop_last_extend_moduli_jax";
   "q_correction_uint32"].
(** Mul(): mul.py:134-147 with the default arguments *)
Definition new_mul : list val := VInt 0 :: repeat VNone 5 ++ repeat VMissing 25.
(** l[:-d], Python slicing *)
Definition slice_but (l : list val) (d : Z) : list val :=
  if d =? 0 then [] else if 0 <? d then firstn (Datatypes.length l - Z.to_nat d) l else firstn (Z.to_nat (- d)) l.
(** tuple(x), list(x) of a list or tuple *)
Definition to_tuple (x : val) : option val := match x with VList l | VTuple l => Some (VTuple l) | _ => None end.
Definition items_of (x : val) : option (list val) := match x with VList l | VTuple l => Some l | _ => None end.
Definition truthy (x : val) : bool := match x with VInt z => negb (z =? 0) | VNone => false | _ => true end.

(** tree_flatten of each class: children and aux_data. types.py:16-17, 32-33, 79-80, 98-99; mul.py:44-45, 90-91, 108-110; barrett.py:24-27;
    add.py:35-36, 66-67, 94-95; ntt.py:69-82, 113-116; basis_conversion.py:71-79, 97-100; key_switching.py:68-71; conjugate.py:43-46;
    rescale.py:227-236; blind_rotate.py:42-52; mul.py:576-608 *)
Definition node_flatten (c : cls) (vs : list val) : option (list val * val) :=
  match c with
  | AddSimple | MulSimple => Some ([], VNone)
  | EvaluationKeys => ch <- gets c vs ["a"; "b"; "moduli"]; Some (ch, VTuple [])
  | NTTBarrettConstants =>
      ch <- gets c vs ["ntt_bat_tf_step1"; "ntt_tf_step2"; "ntt_bat_tf_step3"; "intt_bat_tf_step1"; "intt_tf_step2"; "intt_bat_tf_step3"; "barrett_constants"; "moduli"];
      aux <- gets c vs ["r"; "c"]; Some (ch, VTuple aux)
  | Rescale =>
      ch <- gets c vs ["gammas_stacked"; "betas_stacked"; "thresholds"; "ntt_last_limb_kernels"; "ntt_remaining_limbs_kernels"];
      aux <- gets c vs ["moduli"; "num_rescales"; "r"; "c"]; Some (ch, VTuple aux)
  | Mul =>
      i <- get c vs "is_initialized";
      if negb (truthy i) then Some (repeat VNone 14, VTuple [VInt 0])
      else ch <- gets c vs mul_children;
           o <- get c vs "original_moduli"; o <- to_tuple o;
           e <- get c vs "extend_moduli"; e <- to_tuple e;
           aux <- gets c vs ["dnum"; "r"; "c"; "composite_degree"; "ks_alpha"; "ks_num_parts_ql"];
           Some (ch, VTuple (VInt 1 :: o :: e :: aux))
  | c => ch <- gets c vs (fields c); Some (ch, VNone)
  end.
(** tree_unflatten of each class: types.py:20-21, 36-37, 83-84, 102-103; mul.py:48-49, 94-96, 113-115; barrett.py:30-31; add.py:39-40,
    70-72, 98-100; ntt.py:85-86, 119-123; basis_conversion.py:82-84, 103-107; key_switching.py:74-79; conjugate.py:49-53; rescale.py:239-249;
    blind_rotate.py:55-64; mul.py:611-653 *)
Definition node_unflatten (c : cls) (aux : val) (children : list val) : option val :=
  match c with
  | AddSimple | MulSimple => Some (VObj c [])
  | Plaintext | Ciphertext | HMuxRotKey => a <- item children 0; b <- item children 1; Some (VObj c [a; b])
  | MuxRotationKey | AddModularBarrett | MulBarrett => a <- item children 0; Some (VObj c [a])
  | AddModularSubtract => a <- item children 0; a <- array_uint32 a; Some (VObj c [a])
  | EvaluationKeys | BarrettConstants | BasisConstants => construct c children
  | NTTBarrettConstants => aux <- items_of aux; last <- item children 7; construct c (firstn 7 children ++ aux ++ [last])
  | NTTBarrett => a <- item children 0; Some (VObj c (set c "constants" a [VNone]))
  | BasisConversionBarrett => a <- item children 0; Some (VObj c (set c "precomputed_constants" a [VList []]))
  | KeySwitcher => a <- item children 0; b <- item children 1; Some (VObj c (set c "ntt_kernels_out" b (set c "ntt_kernels_q" a [VList []; VList []])))
  | Conjugation => a <- item children 0; Some (VObj c (set c "key_switcher" a [VObj KeySwitcher [VList []; VList []]]))
  | Rescale =>
      aux <- items_of aux;
      o <- unpack c ["moduli"; "num_rescales"; "r"; "c"] aux [VNone; VInt 1; VNone; VNone; VNone; VNone; VNone; VList []; VList []];
      o <- unpack c ["gammas_stacked"; "betas_stacked"; "thresholds"; "ntt_last_limb_kernels"; "ntt_remaining_limbs_kernels"] children o;
      Some (VObj c o)
  | BlindRotation =>
      a0 <- item children 0; a1 <- item children 1; a2 <- item children 2; a3 <- item children 3; a4 <- item children 4; a5 <- item children 5;
      Some (VObj c (set c "ntt_p" a5 (set c "ntt_q" a4 (set c "rescale_kernel" a3 (set c "mul_kernel" a2 (set c "bc_kernel" a1 (set c "key_switcher" a0
        [VObj KeySwitcher [VList []; VList []]; VObj BasisConversionBarrett [VList []]; VObj MulBarrett [VNone];
         VObj Rescale [VNone; VInt 1; VNone; VNone; VNone; VNone; VNone; VList []; VList []]; VObj NTTBarrett [VNone]; VObj NTTBarrett [VNone]])))))))
  | Mul =>
      aux <- items_of aux;
      i <- item aux 0;
      if negb (truthy i) then Some (VObj c new_mul)
      else o <- unpack c mul_children children new_mul;
           match aux with
           | [_; original_moduli; extend_moduli; dnum; r; cc; composite_degree; ks_alpha; ks_num_parts_ql] =>
               let o := set c "dnum" dnum (set c "r" r (set c "c" cc (set c "composite_degree" composite_degree
                        (set c "ks_alpha" ks_alpha (set c "ks_num_parts_ql" ks_num_parts_ql o))))) in
               om <- items_of original_moduli; em <- items_of extend_moduli;
               match r, cc, composite_degree with
               | VInt rz, VInt cz, VInt d =>
                   let drop := slice_but om d in
                   Some (VObj c (set c "is_initialized" (VInt 1) (set c "degree" (VInt (rz * cz)) (set c "drop_last_extend_moduli" (VList (drop ++ em))
                     (set c "drop_last_moduli" (VList drop) (set c "extend_moduli" (VList em) (set c "original_moduli" (VList om) o)))))))
               | _, _, _ => None
               end
           | _ => None
           end
  end.

(** the attributes of Mul after precompute_constants, mul.py:197-374: [arrays] are the fourteen arrays, kernels and constants in the order of
    [mul_children], [injected] what the constructor was given *)
Definition ready_mul (injected : list val) (original extend : list val) (dnum r c composite_degree alpha parts : Z) (arrays : list val) : list val :=
  match injected, arrays with
  | [i1; i2; i3; i4; i5], [bconv; sel; nonsel; rest; full; kernels; pinv; qc; bar; fbar; cur; ext; dlj; qc32] =>
      [VInt 1; i1; i2; i3; i4; i5; VList original; VList extend; VInt dnum; VInt r; VInt c; VInt (r * c); VInt composite_degree;
       VList (slice_but original composite_degree); VList (slice_but original composite_degree ++ extend); VInt alpha; VInt parts;
       sel; nonsel; rest; bconv; full; cur; ext; dlj; kernels; pinv; qc; qc32; bar; fbar]
  | _, _ => []
  end.

(** ** jax.tree_util *)
Inductive treedef := TLeaf | TNone | TList (l : list treedef) | TTuple (l : list treedef) | TNode (c : cls) (aux : val) (l : list treedef).
Definition flatten_all (F : val -> option (list val * treedef)) : list val -> option (list val * list treedef) :=
  fix many (l : list val) :=
    match l with
    | [] => Some ([], [])
    | v :: l => a <- F v; b <- many l; Some (fst a ++ fst b, snd a :: snd b)
    end.
(** tree_flatten; the first argument bounds the nesting *)
Fixpoint flatten (n : nat) (v : val) : option (list val * treedef) :=
  match n with
  | O => None
  | S n =>
    match v with
    | VNone => Some ([], TNone)
    | VList l => r <- flatten_all (flatten n) l; Some (fst r, TList (snd r))
    | VTuple l => r <- flatten_all (flatten n) l; Some (fst r, TTuple (snd r))
    | VObj c vs => p <- node_flatten c vs; r <- flatten_all (flatten n) (fst p); Some (fst r, TNode c (snd p) (snd r))
    | v => Some ([v], TLeaf)
    end
  end.
Definition unflatten_all (U : treedef -> list val -> option (val * list val)) : list treedef -> list val -> option (list val * list val) :=
  fix many (l : list treedef) (leaves : list val) {struct l} :=
    match l with
    | [] => Some ([], leaves)
    | t :: l => a <- U t leaves; b <- many l (snd a); Some (fst a :: fst b, snd b)
    end.
(** tree_unflatten: consumes the leaves from the left *)
Fixpoint unflatten_from (t : treedef) (leaves : list val) {struct t} : option (val * list val) :=
  match t with
  | TLeaf => match leaves with v :: leaves => Some (v, leaves) | [] => None end
  | TNone => Some (VNone, leaves)
  | TList l => r <- unflatten_all unflatten_from l leaves; Some (VList (fst r), snd r)
  | TTuple l => r <- unflatten_all unflatten_from l leaves; Some (VTuple (fst r), snd r)
  | TNode c aux l => r <- unflatten_all unflatten_from l leaves; v <- node_unflatten c aux (fst r); Some (v, snd r)
  end.
Definition unflatten (t : treedef) (leaves : list val) : option val :=
  r <- unflatten_from t leaves; match snd r with [] => Some (fst r) | _ => None end.

(** array.tolist(): a tracer raises *)
Definition tolist (v : val) : option (list Z) := match v with VArr l => Some l | _ => None end.
Definition zs_eqb (a b : list Z) : bool := if list_eq_dec Z.eq_dec a b then true else false.
(** the check at the start of mul, mul.py:36-40 and 72-76: raises, or says that the moduli agree *)
Definition moduli_check (ct pt : val) : option unit :=
  match ct, pt with
  | VObj Ciphertext cv, VObj Plaintext pv =>
      m <- get Ciphertext cv "moduli"; m <- tolist m; m' <- get Plaintext pv "moduli"; m' <- tolist m';
      if zs_eqb m m' then Some tt else None
  | _, _ => None
  end.
