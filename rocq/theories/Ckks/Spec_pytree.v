(** Specification for C65: what an object is after JAX has taken it apart, applied a function to its leaves and put it together again *)
From Coq Require Import ZArith List Bool String.
From Verif Require Import Ckks.Model_pytree.
Import ListNotations.
Local Open Scope string_scope.
Local Open Scope list_scope.
Local Open Scope Z_scope.

(** attributes that are configuration, not data: they stay as they are *)
Definition static (c : cls) (name : string) : bool :=
  let among := existsb (String.eqb name) in
  match c with
  | NTTBarrettConstants => among ["r"; "c"]
  | Rescale => among ["moduli"; "num_rescales"; "r"; "c"]
  | Mul => among ["is_initialized"; "original_moduli"; "extend_moduli"; "dnum"; "r"; "c"; "degree"; "composite_degree"; "drop_last_moduli";
                  "drop_last_extend_moduli"; "ks_alpha"; "ks_num_parts_ql"]
  | _ => false
  end.
(** arguments of Mul's constructor that only precompute_constants reads: they are forgotten *)
Definition forgotten (c : cls) (name : string) : bool :=
  match c with
  | Mul => existsb (String.eqb name) ["_injected_bconv"; "_injected_ntt_current"; "_injected_ntt_extend"; "_injected_ntt_factory"; "_injected_full_ntt"]
  | _ => false
  end.
Definition each (c : cls) (g : val -> val) : list string -> list val -> list val :=
  fix each (names : list string) (vs : list val) {struct vs} : list val :=
    match vs, names with
    | v :: vs, n :: names => (if static c n then v else if forgotten c n then VNone else g v) :: each names vs
    | _, _ => []
    end.
(** every leaf is replaced by its image under f, everything else is kept *)
Fixpoint rebuild (f : val -> val) (v : val) : val :=
  match v with
  | VNone => VNone
  | VMissing => VMissing
  | VList l => VList (map (rebuild f) l)
  | VTuple l => VTuple (map (rebuild f) l)
  | VObj c vs => VObj c (each c (rebuild f) (fields c) vs)
  | leaf => f leaf
  end.
Definition uint32s (l : list Z) : Prop := Forall (fun z => 0 <= z < 2 ^ 32) l.
(** the objects a program can hold: instances with all their attributes, kernels after their constructor and, for Mul, after
    precompute_constants *)
Inductive good : val -> Prop :=
  | good_none : good VNone
  | good_int z : good (VInt z)
  | good_arr l : good (VArr l)
  | good_other i : good (VOther i)
  | good_list l : Forall good l -> good (VList l)
  | good_tuple l : Forall good l -> good (VTuple l)
  | good_obj c vs : c <> Mul -> c <> AddModularSubtract -> Datatypes.length vs = Datatypes.length (fields c) -> Forall good vs -> good (VObj c vs)
  | good_subtract l : uint32s l -> good (VObj AddModularSubtract [VArr l])
  | good_mul injected original extend dnum r c composite_degree alpha parts arrays :
      Datatypes.length injected = 5%nat -> Datatypes.length arrays = 14%nat -> Forall good arrays ->
      good (VObj Mul (ready_mul injected original extend dnum r c composite_degree alpha parts arrays)).
Definition is_leaf (v : val) : Prop := match v with VInt _ | VArr _ | VOther _ => True | _ => False end.
(** how deeply objects are nested *)
Fixpoint nesting (v : val) : nat :=
  match v with
  | VList l | VTuple l | VObj _ l => S (list_max (map nesting l))
  | _ => 1%nat
  end.
(** no kernel inside was given kernels of its own to its constructor *)
Inductive uninjected : val -> Prop :=
  | un_leaf v : is_leaf v -> uninjected v
  | un_none : uninjected VNone
  | un_list l : Forall uninjected l -> uninjected (VList l)
  | un_tuple l : Forall uninjected l -> uninjected (VTuple l)
  | un_obj c vs : c <> Mul -> Forall uninjected vs -> uninjected (VObj c vs)
  | un_mul original extend dnum r c composite_degree alpha parts arrays : Forall uninjected arrays ->
      uninjected (VObj Mul (ready_mul (repeat VNone 5) original extend dnum r c composite_degree alpha parts arrays)).
