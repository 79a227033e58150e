(** C65: objects survive being taken apart and rebuilt by JAX. [rebuild f v] (Spec_pytree) is v with f applied to its arrays. *)
From Coq Require Import ZArith List Bool String Lia.
From Verif Require Import Ckks.Model_pytree Ckks.Spec_pytree.
Import ListNotations.
Local Open Scope string_scope.
Local Open Scope list_scope.
Local Open Scope Z_scope.

Lemma present_ok v : v <> VMissing -> present v = Some v.
Proof. destruct v; try reflexivity. intros H; contradiction. Qed.
Lemma good_present v : good v -> present v = Some v.
Proof. intros H. apply present_ok. intros ->. inversion H. Qed.
Lemma map_mod_id l : uint32s l -> map (fun z => z mod 2 ^ 32) l = l.
Proof. intros H. induction H as [| z l B H IH]; [reflexivity |]. cbn [map]. rewrite IH, Z.mod_small by exact B. reflexivity. Qed.

Definition keeps (g : val -> val) : Prop := forall l, uint32s l -> exists l', g (VArr l) = VArr l' /\ uint32s l'.

Ltac spl vs := repeat (destruct vs as [| ? vs]; try discriminate); try (exfalso; cbn in *; lia).
Ltac inv_forall := repeat match goal with H : Forall good (_ :: _) |- _ => inversion H; clear H; subst | H : Forall good [] |- _ => clear H end.
Ltac presents := repeat match goal with |- context [present ?v] => rewrite (good_present v) by assumption; cbn [bind] end.

Lemma node_ok c vs : good (VObj c vs) ->
  exists ch aux, node_flatten c vs = Some (ch, aux) /\ (forall x, In x ch -> In x vs) /\ Forall good ch /\
    (forall g, keeps g -> node_unflatten c aux (map g ch) = Some (VObj c (each c g (fields c) vs))) /\
    (forall g, (forall v, good v -> present (g v) = Some (g v)) -> node_flatten c (each c g (fields c) vs) = Some (map g ch, aux)).
Proof.
  intros G. inversion G as [| | | | | | c' vs' N1 N2 L F | l U | injected original extend dnum r cc d alpha parts arrays Li La F]; subst.
  - destruct c; try contradiction; cbn in L; spl vs; inv_forall;
      (eexists _, _; split; [cbn -[present]; presents; reflexivity |];
       split; [intros x Hx; cbn in Hx; cbn; tauto |];
       split; [repeat constructor; assumption |];
       split; [intros g K; cbn; reflexivity |];
       intros g P; cbn -[present]; repeat (match goal with |- context [present ?v] => first [rewrite (good_present v) by assumption | rewrite P by assumption] end; cbn [bind]); reflexivity).
  - exists [VArr l], VNone. split; [reflexivity |]. split; [intros x Hx; exact Hx |]. split; [repeat constructor |]. split.
    + intros g K. destruct (K l U) as [l' [E U']]. cbn. rewrite E. cbn -[Z.modulo Z.pow]. rewrite map_mod_id by exact U'. reflexivity.
    + intros g P. cbn -[present]. rewrite P by constructor. reflexivity.
  - do 5 (destruct injected as [| ? injected]; [discriminate |]). destruct injected; [| discriminate].
    do 14 (destruct arrays as [| ? arrays]; [discriminate |]). destruct arrays; [| discriminate]. inv_forall.
    eexists _, _. split; [cbn -[present]; unfold present at 1; cbn -[present]; presents; cbn; reflexivity |].
    split; [intros x Hx; cbn in Hx; cbn; tauto |].
    split; [repeat constructor; assumption |].
    split; [intros g K; cbn; reflexivity |].
    intros g P. cbn -[present]. unfold present at 1. cbn -[present].
    repeat (match goal with |- context [present ?v] => first [rewrite (good_present v) by assumption | rewrite P by assumption] end; cbn [bind]). reflexivity.
Qed.

Lemma list_max_in (x : val) l : In x l -> (nesting x <= list_max (map nesting l))%nat.
Proof. intros H. pose proof (proj1 (list_max_le (map nesting l) _) (le_n _)) as F. rewrite Forall_forall in F. apply F. apply in_map. exact H. Qed.

(** what flattening and rebuilding one value gives *)
Definition trip (f : val -> val) (n : nat) (v : val) : Prop := exists leaves td,
  flatten n v = Some (leaves, td) /\ (forall rest, unflatten_from td (map f leaves ++ rest) = Some (rebuild f v, rest)) /\
  ((forall v, is_leaf v -> is_leaf (f v)) -> flatten n (rebuild f v) = Some (map f leaves, td)).

Lemma trip_all f n l : Forall (trip f n) l -> exists leaves tds,
  flatten_all (flatten n) l = Some (leaves, tds) /\ (forall rest, unflatten_all unflatten_from tds (map f leaves ++ rest) = Some (map (rebuild f) l, rest)) /\
  ((forall v, is_leaf v -> is_leaf (f v)) -> flatten_all (flatten n) (map (rebuild f) l) = Some (map f leaves, tds)).
Proof.
  intros H. induction H as [| v l [lv [td [E [U S]]]] H [ls [tds [E' [U' S']]]]].
  - exists [], []. repeat split; reflexivity.
  - exists (lv ++ ls), (td :: tds). split; [| split].
    + cbn [flatten_all]. rewrite E, E'. reflexivity.
    + intros rest. cbn [unflatten_all]. rewrite map_app, <- app_assoc, U. cbn [bind snd fst]. rewrite U'. reflexivity.
    + intros HL. cbn [flatten_all map]. rewrite (S HL), (S' HL), map_app. reflexivity.
Qed.

Lemma is_leaf_flatten n v : is_leaf v -> flatten (S n) v = Some ([v], TLeaf).
Proof. destruct v; cbn; intros H; try contradiction; reflexivity. Qed.
Lemma rebuild_present f v : (forall v, is_leaf v -> is_leaf (f v)) -> good v -> present (rebuild f v) = Some (rebuild f v).
Proof.
  intros HL G. apply present_ok. destruct v; cbn [rebuild]; try discriminate; try (inversion G; fail);
    match goal with |- f ?x <> _ => specialize (HL x I); destruct (f x); try discriminate; contradiction end.
Qed.

Lemma round_trip f : keeps f -> forall n v, good v -> (nesting v <= n)%nat -> trip f n v.
Proof.
  intros K. induction n as [| n IH]; intros v G D; [destruct v; cbn in D; lia |].
  assert (Sub : forall l, Forall good l -> (list_max (map nesting l) <= n)%nat -> Forall (trip f n) l).
  { intros l F M. rewrite Forall_forall in *. intros x Hx. apply IH; [apply F; exact Hx |]. pose proof (list_max_in x l Hx). lia. }
  assert (Lf : is_leaf v -> trip f (S n) v).
  { intros Lv. exists [v], TLeaf. split; [apply is_leaf_flatten; exact Lv |]. split.
    - intros rest. destruct v; try contradiction; reflexivity.
    - intros HL. replace (rebuild f v) with (f v) by (destruct v; try contradiction; reflexivity). apply is_leaf_flatten. apply HL. exact Lv. }
  destruct v as [| z | l | i | l | l | c vs |]; try (apply Lf; exact I).
  - exists [], TNone. repeat split; reflexivity.
  - assert (F : Forall good l) by (inversion G; assumption). cbn [nesting] in D. destruct (trip_all f n l (Sub l F ltac:(lia))) as [ls [tds [E [U S]]]].
    exists ls, (TList tds). split; [| split].
    + cbn [flatten]. rewrite E. reflexivity.
    + intros rest. cbn [unflatten_from rebuild]. rewrite U. reflexivity.
    + intros HL. cbn [flatten rebuild]. rewrite (S HL). reflexivity.
  - assert (F : Forall good l) by (inversion G; assumption). cbn [nesting] in D. destruct (trip_all f n l (Sub l F ltac:(lia))) as [ls [tds [E [U S]]]].
    exists ls, (TTuple tds). split; [| split].
    + cbn [flatten]. rewrite E. reflexivity.
    + intros rest. cbn [unflatten_from rebuild]. rewrite U. reflexivity.
    + intros HL. cbn [flatten rebuild]. rewrite (S HL). reflexivity.
  - destruct (node_ok c vs G) as [ch [aux [E [I [F [U S]]]]]]. cbn [nesting] in D.
    assert (M : Forall (trip f n) ch).
    { rewrite Forall_forall in *. intros x Hx. apply IH; [apply F; exact Hx |]. pose proof (list_max_in x vs (I x Hx)). lia. }
    destruct (trip_all f n ch M) as [ls [tds [E' [U' S']]]].
    assert (K' : keeps (rebuild f)) by (intros l Hl; exact (K l Hl)).
    exists ls, (TNode c aux tds). split; [| split].
    + cbn [flatten]. rewrite E. cbn [bind fst snd]. rewrite E'. reflexivity.
    + intros rest. cbn [unflatten_from rebuild]. rewrite U'. cbn [bind fst snd]. rewrite (U _ K'). reflexivity.
    + intros HL. cbn [flatten rebuild]. rewrite (S (rebuild f)) by (intros v Hv; apply rebuild_present; assumption). cbn [bind fst snd]. rewrite (S' HL). reflexivity.
  - inversion G.
Qed.

(** any object can be taken apart, and putting it together with the images of its leaves gives the object with the images of its arrays; in
    particular (f the identity) the same object. The structure is unchanged, so that a traced loop can carry it. *)
Theorem C65_round_trip_partial : forall f v n, keeps f -> good v -> (nesting v <= n)%nat -> exists leaves td,
  flatten n v = Some (leaves, td) /\ unflatten td (map f leaves) = Some (rebuild f v) /\
  ((forall v, is_leaf v -> is_leaf (f v)) -> flatten n (rebuild f v) = Some (map f leaves, td)).
Proof.
  intros f v n K G D. destruct (round_trip f K n v G D) as [ls [td [E [U S]]]]. exists ls, td. split; [exact E |]. split; [| exact S].
  unfold unflatten. rewrite <- (app_nil_r (map f ls)), U. reflexivity.
Qed.
(** a nested object: a product kernel ready for use, with a basis conversion and transforms inside, in a list with a ciphertext *)
Definition example_barrett : val := VObj BarrettConstants [VOther 1; VOther 2; VOther 3; VOther 4].
Definition example_ntt : val := VObj NTTBarrett [VObj NTTBarrettConstants [VOther 5; VOther 6; VOther 7; VOther 8; VOther 9; VOther 10; example_barrett; VInt 4; VInt 2; VArr [97; 193]]].
Definition example_mul : val :=
  VObj Mul (ready_mul [VNone; VNone; VNone; VNone; VNone] [VInt 97; VInt 193; VInt 257] [VInt 353] 2 4 2 1 1 2
    [VObj BasisConversionBarrett [VList [VObj BasisConstants [VOther 11; VOther 12; example_barrett; example_barrett]]];
     VList [VArr [0]; VArr [1]]; VList [VArr [1; 2]; VArr [0; 2]]; VList [VArr [0; 1; 2]; VArr [1; 0; 2]]; VOther 13; VList [example_ntt; example_ntt];
     VOther 14; VOther 15; example_barrett; example_barrett; example_ntt; example_ntt; VOther 16; VArr [97; 193]]).
Definition example_tree : val := VTuple [VList [example_mul; VObj AddModularSubtract [VArr [97; 193]]]; VNone; VObj Ciphertext [VOther 17; VArr [97; 193]]].
Definition double_entries (v : val) : val := match v with VArr l => VArr (map (fun z => (2 * z) mod 2 ^ 32) l) | v => v end.
Ltac is_good :=
  lazymatch goal with
  | |- Forall good [] => apply Forall_nil
  | |- Forall good (_ :: _) => apply Forall_cons; [is_good | is_good]
  | |- good VNone => apply good_none
  | |- good (VInt _) => apply good_int
  | |- good (VArr _) => apply good_arr
  | |- good (VOther _) => apply good_other
  | |- good (VList _) => apply good_list; is_good
  | |- good (VTuple _) => apply good_tuple; is_good
  | |- good (VObj AddModularSubtract _) => apply good_subtract; repeat constructor; lia
  | |- good (VObj Mul _) => apply good_mul; [reflexivity | reflexivity | is_good]
  | |- good (VObj _ _) => apply good_obj; [discriminate | discriminate | reflexivity | is_good]
  end.
Lemma example_good : good example_tree /\ keeps double_entries /\ (forall v, is_leaf v -> is_leaf (double_entries v)).
Proof.
  split; [unfold example_tree, example_mul, example_ntt, example_barrett; is_good | split].
  - intros l _. eexists. split; [reflexivity |]. apply Forall_forall. intros z Hz. apply in_map_iff in Hz. destruct Hz as [y [<- _]]. apply Z.mod_pos_bound. lia.
  - intros [] H; cbn in *; try contradiction; exact I.
Qed.
Example C65_round_trip_partial_example :
  match flatten 10 example_tree with
  | Some (leaves, td) => Datatypes.length leaves = 76%nat /\ unflatten td leaves = Some example_tree /\
      unflatten td (map double_entries leaves) = Some (rebuild double_entries example_tree)
  | None => False
  end.
Proof. vm_compute. repeat split. Qed.

(** with the leaves unchanged, the same object comes back *)
Lemma each_id c vs : c <> Mul -> Datatypes.length vs = Datatypes.length (fields c) -> forall g, (forall v, In v vs -> g v = v) -> each c g (fields c) vs = vs.
Proof.
  intros N. assert (forall names vs, Datatypes.length vs = Datatypes.length names -> forall g, (forall v, In v vs -> g v = v) -> each c g names vs = vs) as H.
  { intros names. induction names as [| n names IH]; intros [| v l] L g Hg; try discriminate; [reflexivity |]. cbn [each]. rewrite IH; [| cbn in L; lia | intros w Hw; apply Hg; right; exact Hw].
    rewrite (Hg v) by (left; reflexivity). replace (forgotten c n) with false by (destruct c; try reflexivity; contradiction). destruct (static c n); reflexivity. }
  apply H.
Qed.
Lemma map_id_in (g : val -> val) l : (forall v, In v l -> g v = v) -> map g l = l.
Proof. induction l as [| v l IH]; intros H; [reflexivity |]. cbn [map]. rewrite H by (left; reflexivity). rewrite IH; [reflexivity |]. intros w Hw. apply H. right; exact Hw. Qed.
Lemma rebuild_id : forall n v, (nesting v <= n)%nat -> good v -> uninjected v -> rebuild (fun x => x) v = v.
Proof.
  induction n as [| n IH]; intros v D G U; [destruct v; cbn in D; lia |].
  assert (Sub : forall l, (list_max (map nesting l) <= n)%nat -> Forall good l -> Forall uninjected l -> forall v, In v l -> rebuild (fun x => x) v = v).
  { intros l M F F' x Hx. rewrite Forall_forall in *. apply IH; [| apply F; exact Hx | apply F'; exact Hx]. pose proof (list_max_in x l Hx). lia. }
  destruct v as [| z | l | i | l | l | c vs |]; try reflexivity.
  - cbn [rebuild nesting] in *. f_equal. apply map_id_in. apply Sub; [lia | inversion G; assumption | inversion U as [? Lf | | | | |]; [contradiction | assumption]].
  - cbn [rebuild nesting] in *. f_equal. apply map_id_in. apply Sub; [lia | inversion G; assumption | inversion U as [? Lf | | | | |]; [contradiction | assumption]].
  - cbn [rebuild]. f_equal. cbn [nesting] in D.
    inversion U as [? Lf | | | | c' vs' N F | original extend dnum r cc d alpha parts arrays F]; subst; [contradiction | |].
    + inversion G as [| | | | | | c' vs' N1 N2 L Fg | l Ul |]; subst.
      * apply each_id; [exact N | exact L |]. apply Sub; [lia | assumption | assumption].
      * reflexivity.
      * contradiction.
    + inversion G as [| | | | | | c' vs' N1 N2 L Fg | | injected' original' extend' dnum' r' cc' d' alpha' parts' arrays' Li La Fa Eq]; subst; [contradiction |].
      assert (La' : Datatypes.length arrays = 14%nat).
      { do 5 (destruct injected' as [| ? injected']; [discriminate |]). destruct injected'; [| discriminate].
        do 14 (destruct arrays' as [| ? arrays']; [discriminate |]). destruct arrays'; [| discriminate]. cbn in Eq.
        do 14 (destruct arrays as [| ? arrays]; [discriminate |]). destruct arrays; [reflexivity | discriminate]. }
      try rewrite Eq. clear Eq Li La Fa injected' original' extend' dnum' r' cc' d' alpha' parts' arrays'.
      do 14 (destruct arrays as [| ? arrays]; [discriminate |]). destruct arrays; [| discriminate].
      destruct (node_ok _ _ G) as [ch [aux [E [I [Fc _]]]]].
      assert (R : forall x, In x ch -> uninjected x -> rebuild (fun x => x) x = x).
      { intros x Hx Ux. rewrite Forall_forall in Fc. apply IH; [| apply Fc; exact Hx | exact Ux]. pose proof (list_max_in x _ (I x Hx)). lia. }
      repeat match goal with H : Forall uninjected (_ :: _) |- _ => inversion H; clear H; subst end.
      cbn -[present rebuild] in E. unfold present at 1 in E. cbn -[present rebuild] in E.
      repeat match type of E with context [present ?v] => rewrite (present_ok v) in E by (intros ->; match goal with H : uninjected VMissing |- _ => inversion H; subst; contradiction end); cbn [bind] in E end.
      cbn in E. injection E as <- <-. cbn -[rebuild]. repeat rewrite R by (first [cbn; tauto | assumption]). reflexivity.
Qed.
Theorem C65_identity : forall v n, good v -> uninjected v -> (nesting v <= n)%nat -> exists leaves td, flatten n v = Some (leaves, td) /\ unflatten td leaves = Some v.
Proof.
  intros v n G U D. destruct (C65_round_trip_partial (fun x => x) v n) as [ls [td [E [R _]]]]; [intros l Hl; exists l; split; [reflexivity | exact Hl] | exact G | exact D |].
  rewrite map_id in R. rewrite (rebuild_id n v D G U) in R. exists ls, td. split; assumption.
Qed.

Ltac is_uninjected :=
  lazymatch goal with
  | |- Forall uninjected [] => apply Forall_nil
  | |- Forall uninjected (_ :: _) => apply Forall_cons; [is_uninjected | is_uninjected]
  | |- uninjected VNone => apply un_none
  | |- uninjected (VList _) => apply un_list; is_uninjected
  | |- uninjected (VTuple _) => apply un_tuple; is_uninjected
  | |- uninjected (VObj Mul _) => apply un_mul; is_uninjected
  | |- uninjected (VObj _ _) => apply un_obj; [discriminate | is_uninjected]
  | |- uninjected _ => apply un_leaf; exact I
  end.
Example C65_identity_example : good example_tree /\ uninjected example_tree /\ (nesting example_tree <= 10)%nat.
Proof.
  split; [apply example_good |]. split; [| vm_compute; repeat constructor].
  unfold example_tree, example_mul, example_ntt, example_barrett. is_uninjected.
Qed.

(** the kernel AddModularSubtract cannot be rebuilt with placeholders for its leaves, as vmap and tree_map do: its constructor iterates them *)
Theorem C65_placeholder_refuted : forall l i n, uint32s l -> (2 <= n)%nat ->
  let v := VObj AddModularSubtract [VArr l] in
  good v /\ exists td, flatten n v = Some ([VArr l], td) /\ unflatten td [VArr l] = Some v /\ unflatten td [VOther i] = None.
Proof.
  intros l i n H Hn v. split; [apply good_subtract; exact H |]. do 2 (destruct n as [| n]; [lia |]). eexists. split; [reflexivity |]. split; [| reflexivity].
  cbn -[Z.modulo Z.pow]. rewrite map_mod_id by exact H. reflexivity.
Qed.
(** a product kernel that is taken apart before precompute_constants loses the kernels its constructor was given *)
Theorem C65_uninitialised_refuted : forall b n, b <> VNone -> b <> VMissing -> (2 <= n)%nat ->
  let v := VInt 0 :: b :: repeat VNone 4 ++ repeat VMissing 25 in
  exists td w, flatten n (VObj Mul v) = Some ([], td) /\ unflatten td [] = Some (VObj Mul w) /\
    get Mul v "_injected_bconv" = Some b /\ get Mul w "_injected_bconv" = Some VNone.
Proof.
  intros b n Hb Hm Hn v. exists (TNode Mul (VTuple [VInt 0]) (repeat TNone 14)), new_mul. do 2 (destruct n as [| n]; [lia |]).
  split; [reflexivity |]. split; [reflexivity |]. split; [| reflexivity]. cbn -[present]. apply present_ok. exact Hm.
Qed.
(** the product of a plaintext and a ciphertext reads the moduli as numbers, so it raises on traced operands *)
Theorem C65_traced_product_refuted : forall cd pd l i,
  let ct := VObj Ciphertext [cd; VArr l] in let pt := VObj Plaintext [pd; VArr l] in let tracer := fun _ => VOther i in
  moduli_check ct pt = Some tt /\ moduli_check (rebuild tracer ct) (rebuild tracer pt) = None.
Proof. intros cd pd l i ct pt tracer. split; [| reflexivity]. cbn. unfold zs_eqb. destruct (list_eq_dec Z.eq_dec l l); [reflexivity | contradiction]. Qed.

Print Assumptions C65_round_trip_partial. Print Assumptions C65_identity. Print Assumptions C65_placeholder_refuted.
Print Assumptions C65_uninitialised_refuted. Print Assumptions C65_traced_product_refuted.
