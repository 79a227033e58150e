(** Properties C18 and C19: look-up tables and their cache. *)
From Coq Require Import ZArith List Bool String Lia.
From Verif Require Import Base.Modeq Base.Word Cggi.Model_encoding Cggi.Model_rlwe Cggi.Model_test_polynomial.
From Verif Require Import Cggi.Spec_poly Cggi.Spec_rlwe Cggi.Prop_rlwe Cggi.Prop_bootstrap.
From Verif Require Import Bool.Model_lut Bool.Spec_bool Bool.Proof_lut.
Import ListNotations.
Local Open Scope Z_scope.

(** ** C18 *)
Theorem C18_cleartext_list : forall n tb,
  let l := as_cleartext_list {| num_inputs := n; truth_table := tb |} in
  List.length l = (2 ^ n)%nat /\ forall i, (i < 2 ^ n)%nat -> nth_error l i = Some (if table_entry tb i then 1 else 0).
Proof.
  intros n tb l. split; [apply cleartext_length|]. intros i Hi. rewrite (nth_error_nth' l 2) by (unfold l; rewrite cleartext_length; exact Hi).
  unfold l. rewrite cleartext_nth by exact Hi. cbn [truth_table]. destruct (table_entry tb i); reflexivity.
Qed.
Example C18_cleartext_list_ex : as_cleartext_list {| num_inputs := 3; truth_table := 202 |} = [0;1;0;1;0;0;1;1].
Proof. reflexivity. Qed.
Print Assumptions C18_cleartext_list.

Theorem C18_from_callable : forall (f : list bool -> bool) xs,
  let t := from_callable (List.length xs) f in
  num_inputs t = List.length xs /\ table_entry (truth_table t) (row xs) = f xs.
Proof. intros f xs t. split; [reflexivity|]. apply from_callable_entry. Qed.
(** and the table has no other bits *)
Theorem C18_from_callable_range : forall n f, 0 <= truth_table (from_callable n f) < 2 ^ (2 ^ Z.of_nat n).
Proof. exact from_callable_range. Qed.
Example C18_from_callable_ex :
  let majority l := match l with [a;b;c] => (a && b) || (b && c) || (a && c) | _ => false end in
  truth_table (from_callable 3 majority) = 232 /\ row [true;false;true] = 5%nat.
Proof. split; reflexivity. Qed.
Print Assumptions C18_from_callable.
Print Assumptions C18_from_callable_range.

(** every two-input gate name yields the table of its function; no other name except "cmux" is accepted *)
Theorem C18_lut_by_name : forall name,
  match gate_function name with
  | Some f => exists t, lut_by_name name = Some t /\ num_inputs t = 2%nat /\
                        forall x y, table_entry (truth_table t) (row [x; y]) = f x y
  | None => name <> "cmux"%string -> lut_by_name name = None
  end.
Proof.
  intros name. unfold gate_function.
  repeat match goal with |- context [if String.eqb name ?s then _ else _] =>
    destruct (String.eqb_spec name s) as [->|?];
    [eexists; split; [reflexivity|]; split; [reflexivity|]; intros x y; destruct x, y; vm_compute; reflexivity|] end.
  intros Hc. unfold lut_by_name, FUNC_NAME_TO_LUT2. cbn [dict_get].
  repeat match goal with |- context [String.eqb name ?s] => destruct (String.eqb_spec name s); [contradiction|] end. reflexivity.
Qed.
Example C18_lut_by_name_ex : lut_by_name "andyn" = Some {| num_inputs := 2; truth_table := 4 |} /\ lut_by_name "imply" = None.
Proof. split; reflexivity. Qed.
Print Assumptions C18_lut_by_name.

(** the three-input "cmux" table is right as an integer ... *)
Theorem C18_cmux_table : exists t, lut_by_name "cmux" = Some t /\
  forall v1 v0 ctrl : bool, table_entry (truth_table t) (row [v1; v0; ctrl]) = if ctrl then v1 else v0.
Proof. eexists. split; [reflexivity|]. intros [] [] []; vm_compute; reflexivity. Qed.
Print Assumptions C18_cmux_table.
(** ... but finding: the table object obtained by its name claims two inputs, so that half of it is cut off: the list and
    the test polynomial built from it have no entry for v1 = true. *)
Theorem C18_cmux_by_name_refuted : exists t, lut_by_name "cmux" = Some t /\
  ~ (forall v1 v0 ctrl : bool, nth_error (as_cleartext_list t) (row [v1; v0; ctrl]) = Some (if (if ctrl then v1 else v0) then 1 else 0)).
Proof. eexists. split; [reflexivity|]. intros H. specialize (H true false true). vm_compute in H. discriminate. Qed.
Print Assumptions C18_cmux_by_name_refuted.

(** padding to 2^3 entries with the unused cleartext 2; tables of more than three inputs are rejected *)
Theorem C18_padding : forall n tb,
  match padded_coefficients {| num_inputs := n; truth_table := tb |} with
  | Some l => (n <= 3)%nat /\ List.length l = 8%nat /\
      forall i, (i < 8)%nat -> nth i l 0 = if (i <? 2 ^ n)%nat then (if table_entry tb i then 1 else 0) else 2
  | None => (3 < n)%nat
  end.
Proof.
  intros n tb. set (t := {| num_inputs := n; truth_table := tb |}). destruct (Nat.le_gt_cases n 3) as [Hn|Hn].
  - destruct (padded_spec t Hn) as (l & -> & H1 & H2 & H3 & _). split; [exact Hn|]. split; [exact H1|]. intros i Hi.
    destruct (Nat.ltb_spec i (2 ^ n)) as [Hlt|Hge].
    + rewrite (H2 i Hlt). cbn [truth_table t]. destruct (table_entry tb i); reflexivity.
    + apply (H3 i). split; [exact Hge|exact Hi].
  - rewrite (padded_none t Hn). exact Hn.
Qed.
(** the test polynomial is a noiseless encryption, valid under every key, of a polynomial whose rotation by J brings entry
    i to the constant coefficient for every J in the block of i (of width w = N/8, modulo 2N) *)
Theorem C18_test_polynomial : forall tpu n tb d k N w s,
  (n <= 3)%nat -> N = (8 * w)%nat -> (1 <= w)%nat -> is_key N k s ->
  exists ct tp, as_rlwe_test_polynomial tpu (params32 d k N) {| num_inputs := n; truth_table := tb |} = Some ct /\
    rlwe_decrypt_raw tpu ct {| rk_log := 32; rk_degree := N; rk_data := s |} = tp /\
    forall i J delta z, (i < 2 ^ n)%nat -> J = Z.of_nat i * Z.of_nat w + delta + z * (2 * Z.of_nat N) ->
      - Z.of_nat (w / 2) <= delta < Z.of_nat w - Z.of_nat (w / 2) ->
      coeff (mulXpow (- J) tp) 0 == (if table_entry tb i then 1 else 0) * 2 ^ 28 [mod 2 ^ 32].
Proof.
  intros tpu n tb d k N w s Hn HN Hw Hs. set (t := {| num_inputs := n; truth_table := tb |}).
  destruct (padded_spec t Hn) as (l & HP & H1 & H2 & _ & H3).
  destruct (C14_test_polynomial 32 3 1 ENCODING_PARAMS (params32 d k N) l w eq_refl ltac:(lia) ltac:(lia)) as (tp & T1 & T2 & T3 & T4); auto.
  { rewrite H1. reflexivity. }
  { cbn [params32 modulus_degree]. rewrite H1. exact HN. }
  unfold as_rlwe_test_polynomial. rewrite HP. unfold gen_and_encrypt. rewrite T1. eexists. exists tp. split; [reflexivity|]. split.
  - apply (C10_trivial_encryption tpu d k N s tp); auto. lia.
  - intros i J delta z Hi HJ Hd. assert (Hi8 : (i < 8)%nat) by (apply (Nat.lt_le_trans _ _ _ Hi); change 8%nat with (2 ^ 3)%nat; apply Nat.pow_le_mono_r; lia).
    rewrite (T4 i J delta z); [|lia|cbn [params32 modulus_degree]; exact HJ|exact Hd].
    rewrite (H2 i Hi). cbn [truth_table t]. destruct (table_entry tb i); reflexivity.
Qed.
Example C18_padding_ex :
  padded_coefficients {| num_inputs := 2; truth_table := 6 |} = Some [0;1;1;0;2;2;2;2] /\
  padded_coefficients {| num_inputs := 4; truth_table := 6 |} = None.
Proof. split; reflexivity. Qed.
Print Assumptions C18_padding.
Print Assumptions C18_test_polynomial.

(** ** C19 *)
(** the same LutCache objects, nothing cached *)
Definition forget (st : cache_state) : cache_state :=
  {| heap := []; caches := caches st; test_poly_cache := []; lut_lru := []; poly_lru := [] |}.

Theorem C19_cache_transparent : forall tpu history r,
  let st := snd (serve_all tpu history empty_cache) in
  fst (serve tpu r st) = fst (serve tpu r (forget st)).
Proof. exact cache_transparent. Qed.

(** in terms of the functions computed: whatever the history, each answer is the uncached value for the parameters of the
    LutCache asked *)
Theorem C19_answers : forall tpu rs, fst (serve_all tpu rs empty_cache) = fresh_answers tpu [] rs.
Proof. intros tpu rs. apply serve_all_ok, cache_ok_empty. Qed.

Definition ex_sp : scheme_params := {| lwe_dimension := 2; plaintext_modulus := 2 ^ 32; rlwe_dimension := 1; modulus_degree := 8 |}.
(** same truth-table integer requested with different arities, by name and by position, from two caches *)
Definition ex_requests : list request :=
  [NewCache ex_sp; NewCache ex_sp; RLut 0 true 2 8; RLut 0 true 3 8; RLutPoly 0 3 8; RLutPoly 0 2 8; RLutPolyByName 0 "and";
   RLutByName 1 "xor"; RLut 1 false 2 6; RLutPolyByName 1 "imply"; RLutPoly 1 4 8; RLut 0 true 2 8].
Example C19_ex :
  match fst (serve_all 6 ex_requests empty_cache) with
  | [Unit; Unit; Table a; Table b; Poly c; Poly d; Poly e; Table f; Table g; Raised; Raised; Table h] =>
      a = h /\ num_inputs b = 3%nat /\ c <> d /\ d = e /\ f = g
  | _ => False
  end.
Proof. vm_compute. repeat split. discriminate. Qed.
Print Assumptions C19_cache_transparent.
Print Assumptions C19_answers.
