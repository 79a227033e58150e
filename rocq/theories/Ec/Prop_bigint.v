(** C64: big integer objects compute with integers. [value] and [object] are in Spec_bigint: the integer an expression stands for, and
    that int literals stand only to the right of an operator. *)
From Coq Require Import ZArith Bool Lia.
From Verif Require Import Ec.Model_reffield Ec.Model_bigint Ec.Spec_bigint.
Local Open Scope Z_scope.

(** evaluation of the expression by the interpreter *)
Definition py_op (o : op) : pv -> pv -> option pv :=
  match o with
  | OAdd => py_add | OSub => py_sub | OMul => py_mul | ODiv => py_truediv | OMod => py_mod
  | OPow => py_pow | OShl => py_lshift | OShr => py_rshift | OAnd => py_and
  end.
Fixpoint run (e : expr) : option pv :=
  match e with
  | Object z => big_init (PInt z)
  | Int z => Some (PInt z)
  | Op o a b => x <- run a; y <- run b; py_op o x y
  end.

Lemma py_op_ok o x y b : b = PBig y \/ b = PInt y -> py_op o (PBig x) b = option_map PBig (apply o x y).
Proof.
  intros [-> | ->]; destruct o; cbn; try reflexivity;
    try (destruct (y =? 0); reflexivity); try (destruct (y <? 0); reflexivity);
    unfold m_lshift, m_rshift, shift_count; cbn [exponent_of]; destruct (Z.ltb_spec y 0); cbn; try reflexivity;
    match goal with |- context [?c <=? y] => destruct (c <=? y) end; cbn; try reflexivity; rewrite ?Z.shiftl_mul_pow2, ?Z.shiftr_div_pow2 by lia; reflexivity.
Qed.

(** any expression raises exactly where it has no value, and otherwise returns an object holding that value *)
Theorem C64_expressions_partial : forall e, object e -> run e = option_map PBig (value e).
Proof.
  induction e as [z | z | o a IHa b IHb]; cbn [object]; intros H; [reflexivity | contradiction |].
  destruct H as [Ha Hb]. cbn [run value]. rewrite (IHa Ha). destruct (value a) as [x |]; [| reflexivity]. cbn [option_map bind].
  destruct Hb as [Hb | [z ->]].
  - rewrite (IHb Hb). destruct (value b) as [y |]; [| reflexivity]. cbn [option_map bind]. apply py_op_ok. left; reflexivity.
  - cbn [run value bind]. apply py_op_ok. right; reflexivity.
Qed.
Example C64_expressions_partial_example :
  let e := Op OAdd (Op ODiv (Op OSub (Object 3) (Object 10)) (Int 2)) (Op OShl (Object 5) (Int 70)) in
  object e /\ run e = Some (PBig (5 * 2 ^ 70 - 4)).
Proof. cbn [object]. split; [repeat split; try (right; eexists; reflexivity); left; repeat split; right; eexists; reflexivity | vm_compute; reflexivity]. Qed.

(** comparisons agree with the order of the integers, whichever side is an int; __int__ gives the integer back *)
Definition holds (v : pv) (z : Z) : Prop := v = PInt z \/ v = PBig z.
Theorem C64_comparisons : forall a b x y, holds a x -> holds b y ->
  (exists r, py_eq a b = Some r /\ (r = true <-> x = y)) /\ (exists r, py_ne a b = Some r /\ (r = true <-> x <> y)) /\
  (exists r, py_lt a b = Some r /\ (r = true <-> x < y)) /\ (exists r, py_le a b = Some r /\ (r = true <-> x <= y)) /\
  (exists r, py_gt a b = Some r /\ (r = true <-> x > y)) /\ (exists r, py_ge a b = Some r /\ (r = true <-> x >= y)) /\
  (exists z, big_init a = Some (PBig z) /\ m_int z = x).
Proof.
  intros a b x y [-> | ->] [-> | ->]; cbn; repeat split;
    try (eexists; split; [reflexivity |];
         rewrite ?negb_true_iff, ?Z.eqb_eq, ?Z.eqb_neq, ?Z.ltb_lt, ?Z.leb_le, ?Z.gtb_lt, ?Z.geb_le; lia);
    eexists; split; reflexivity.
Qed.
Example C64_comparisons_example : py_lt (PInt 3) (PBig 4) = Some true /\ py_eq (PBig 4) (PInt 4) = Some true /\ py_ge (PInt (-1)) (PBig 0) = Some false.
Proof. repeat split; reflexivity. Qed.

(** an int on the left of an object raises, for every operator and every value *)
Theorem C64_int_left_refuted : forall o x y, value (Op o (Int x) (Object y)) = apply o x y /\ run (Op o (Int x) (Object y)) = None.
Proof. intros o x y. split; [reflexivity | destruct o; reflexivity]. Qed.

(** the rounded-up logarithm is never returned *)
Theorem C64_ceil_log2_refuted : forall z, ceil_log2 z = None.
Proof. intros z. unfold ceil_log2. destruct (z <=? 0); reflexivity. Qed.

(** ** the field constructors *)
Lemma init_field_ok v p zv zp : holds v zv -> holds p zp ->
  init_field v p = if (zv <? 0) || (zp <=? zv) then None else Some (PBig zv, PBig zp).
Proof. intros [-> | ->] [-> | ->]; cbn; destruct (zv <? 0); cbn; try reflexivity; destruct (zp <=? zv); reflexivity. Qed.

Definition of_barrett (r : option fb) : option (pv * pv * pv * pv) :=
  option_map (fun x => (PBig (fb_value x), PBig (fb_prime x), PBig (fb_two_k x), PBig (fb_mu x))) r.
Definition of_montgomery (r : option fm) : option (pv * pv * pv * pv) :=
  option_map (fun x => (PBig (fm_value x), PBig (fm_prime x), PBig (fm_k x), PBig (fm_n_prime x))) r.

(** the constructors accept ints and objects alike and build the element of C49, as long as k is a given int or the prime is an int *)
Theorem C64_constructors_partial : forall v p zv zp, holds v zv -> holds p zp ->
  (init_field v p = option_map (fun x => (PBig (fe_value x), PBig (fe_prime x))) (fe_new zv zp)) /\
  (forall k, init_barrett v p (Some (PInt k)) = of_barrett (fb_new zv zp (Some k))) /\
  (forall k, k <> 0 -> init_montgomery v p (Some (PInt k)) = of_montgomery (fm_new zv zp (Some k))) /\
  (p = PInt zp -> init_barrett v p None = of_barrett (fb_new zv zp None) /\ init_montgomery v p None = of_montgomery (fm_new zv zp None)).
Proof.
  intros v p zv zp Hv Hp. pose proof (init_field_ok v p zv zp Hv Hp) as I.
  unfold init_barrett, init_montgomery, fe_new, fb_new, fm_new. rewrite I.
  destruct (Z.ltb_spec zv 0) as [L | L]; cbn [orb];
    [repeat split; intros; reflexivity |].
  destruct (Z.leb_spec zp zv) as [G | G]; [repeat split; intros; reflexivity |].
  cbn [bind option_map fe_value fe_prime].
  assert (Dp : (zp =? 0) = false) by (apply Z.eqb_neq; lia).
  assert (D : forall x, py_truediv (PBig x) p = Some (PBig (x / zp))) by (intros x; destruct Hp as [-> | ->]; cbn; rewrite Dp; reflexivity).
  assert (B : forall t, bind (py_pow (PBig 2) (PBig t)) (fun u => bind (py_truediv u p) (fun mu => Some (PBig zv, PBig zp, PBig t, mu))) =
                        of_barrett (if t <? 0 then None else Some (FB zv zp t (2 ^ t / zp)))).
  { intros t. change (py_pow (PBig 2) (PBig t)) with (match big_ret (if t <? 0 then PMpfr else PMpz (2 ^ t)) with Returns r => Some r | _ => None end).
    destruct (t <? 0); cbn [big_ret big_init bind of_barrett option_map]; [reflexivity |]. rewrite D. reflexivity. }
  assert (M : forall k,
     bind (py_pow (PBig 2) (PBig k)) (fun r =>
     bind (py_sub (PBig zp) (PInt 2)) (fun e =>
     bind (match r with PBig rz => match m_pow rz e (Some (PBig zp)) with Returns x => Some x | _ => None end | _ => None end) (fun r_inverse =>
     bind (py_mul r r_inverse) (fun t => bind (py_sub t (PInt 1)) (fun t => bind (py_truediv t (PBig zp)) (fun n_prime =>
     bind (py_mul (PBig zv) r) (fun w => bind (py_mod w (PBig zp)) (fun w => Some (w, PBig zp, PBig k, n_prime))))))))) =
     of_montgomery (if k <? 0 then None else
       match powmod (2 ^ k) (zp - 2) zp with
       | None => None
       | Some r_inverse => Some (FM (montgomeryize (2 ^ k) zp zv) zp k ((2 ^ k * r_inverse - 1) / zp) true)
       end)).
  { intros k. change (py_pow (PBig 2) (PBig k)) with (match big_ret (if k <? 0 then PMpfr else PMpz (2 ^ k)) with Returns r => Some r | _ => None end).
    destruct (k <? 0); cbn [big_ret big_init bind of_montgomery option_map]; [reflexivity |].
    change (py_sub (PBig zp) (PInt 2)) with (Some (PBig (zp - 2))). cbn [bind].
    unfold m_pow. cbn [exponent_of operand]. destruct (powmod (2 ^ k) (zp - 2) zp) as [ri |]; [| reflexivity].
    cbn. rewrite ?Dp. unfold montgomeryize. cbn. rewrite ?Dp. cbn. reflexivity. }
  split; [reflexivity |]. split; [| split].
  - intros k. change (py_mul (PInt 2) (PInt k)) with (Some (PInt (2 * k))). cbn [bind big_init]. apply B.
  - intros k Hk. unfold not_k. rewrite (proj2 (Z.eqb_neq k 0) Hk). cbn [bind big_init]. rewrite M. destruct k; [contradiction | reflexivity | reflexivity].
  - intros ->. cbn [not_k int_log2]. replace (zp <=? 0) with false by (symmetry; apply Z.leb_gt; lia). cbn [bind big_init].
    split; [| apply M].
    change (py_mul (PBig (Z.log2_up zp)) (PInt 2)) with (Some (PBig (Z.log2_up zp * 2))). cbn [bind].
    rewrite (Z.mul_comm (Z.log2_up zp) 2). apply B.
Qed.
Example C64_constructors_partial_example :
  init_barrett (PBig 5) (PInt 13) None = Some (PBig 5, PBig 13, PBig 8, PBig 19) /\
  init_montgomery (PInt 5) (PInt 13) None = Some (PBig 2, PBig 13, PBig 4, PBig 11) /\
  init_barrett (PInt 5) (PBig 13) (Some (PInt 4)) = Some (PBig 5, PBig 13, PBig 8, PBig 19).
Proof. vm_compute. repeat split. Qed.

(** with the prime given as an object and no k, or with k given to the Barrett class as an object, no element can be built *)
Theorem C64_object_prime_refuted : forall v p k,
  init_barrett v (PBig p) None = None /\ init_montgomery v (PBig p) None = None /\ init_montgomery v (PBig p) (Some (PInt 0)) = None /\
  (forall q, init_barrett v q (Some (PBig k)) = None).
Proof.
  intros v p k. unfold init_barrett, init_montgomery. rewrite C64_ceil_log2_refuted. cbn [not_k Z.eqb].
  assert (N : forall A (o : option (pv * pv)), bind o (fun _ => @None A) = None) by (intros A [x |]; reflexivity).
  repeat split; try (intros q); cbn [bind]; try apply N; destruct (init_field _ _) as [[a b] |]; reflexivity.
Qed.

Print Assumptions C64_expressions_partial. Print Assumptions C64_comparisons. Print Assumptions C64_int_left_refuted.
Print Assumptions C64_ceil_log2_refuted. Print Assumptions C64_constructors_partial. Print Assumptions C64_object_prime_refuted.
