(** What multi-scalar multiplication means: sums of multiples in an abelian group. *)
From Coq Require Import ZArith List.
Import ListNotations.
Local Open Scope Z_scope.

Record abelian_group := AG {
  G :> Type; gadd : G -> G -> G; gzero : G; gopp : G -> G;
  gadd_assoc : forall x y z, gadd x (gadd y z) = gadd (gadd x y) z;
  gadd_comm : forall x y, gadd x y = gadd y x;
  gadd_zero : forall x, gadd gzero x = x;
  gadd_opp : forall x, gadd x (gopp x) = gzero
}.
Arguments gadd {_}. Arguments gzero {_}. Arguments gopp {_}.
(** n x for an integer n *)
Definition gmul {g : abelian_group} (n : Z) (x : g) : g :=
  match n with Z0 => gzero | Zpos p => Pos.iter (gadd x) gzero p | Zneg p => gopp (Pos.iter (gadd x) gzero p) end.
Definition gsum {g : abelian_group} (l : list g) : g := fold_right gadd gzero l.
(** s_1 P_1 + ... + s_n P_n *)
Fixpoint msm {g : abelian_group} (scalars : list Z) (points : list g) : g :=
  match scalars, points with s :: ss, p :: ps => gadd (gmul s p) (msm ss ps) | _, _ => gzero end.

(** what the point operations must do, for packed points that stand for group elements *)
Record implements {g : abelian_group} {pnt : Type} (rep : pnt -> g -> Prop) (padd : pnt -> pnt -> pnt) (pdul : pnt -> pnt) (beq : pnt -> pnt -> bool) (blank : pnt) : Prop := {
  rep_fun : forall a x y, rep a x -> rep a y -> x = y;
  rep_add : forall a b x y, rep a x -> rep b y -> rep (padd a b) (gadd x y);
  rep_dul : forall a x, rep a x -> rep (pdul a) (gadd x x);
  rep_beq : forall a b, beq a b = true -> a = b;
  rep_blank : rep blank gzero
}.
