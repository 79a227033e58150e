(** Property C18: what a printed look-up table shows. *)
From Coq Require Import ZArith List Bool String Lia.
From Verif Require Import Cggi.Model_random_source Bool.Model_lut Bool.Model_lutstr Bool.Spec_bool Bool.Proof_lut Bool.Prop_lut.
Import ListNotations.
Local Open Scope string_scope.
Local Open Scope list_scope.
Local Open Scope Z_scope.

(** specification: one line per assignment of the inputs in the order FF, FT, TF, TT, each the inputs from first to last and the value *)
Definition newline : string := String (Ascii.ascii_of_nat 10) "".
Definition show (b : bool) : string := if b then "1" else "0".
Definition table_line (xs : list bool) (v : bool) : string := (String.concat "" (map show xs) ++ " -> " ++ show v)%string.
Fixpoint assignments (n : nat) : list (list bool) :=
  match n with
  | O => [[]]
  | S m => map (cons false) (assignments m) ++ map (cons true) (assignments m)
  end.

Lemma bin_digits_app p : forall low, bin_digits p low = bin_digits p [] ++ low.
Proof.
  induction p as [p IH|p IH|]; intros low; cbn [bin_digits]; [|  |reflexivity].
  - rewrite IH, (IH [1]), <- app_assoc. reflexivity.
  - rewrite IH, (IH [0]), <- app_assoc. reflexivity.
Qed.
Lemma bin_double m b : 0 < m -> bin (2 * m + Z.b2z b) = bin m ++ [Z.b2z b].
Proof.
  intros H. destruct m as [|p|p]; try lia. destruct b; cbn [Z.b2z].
  - change (2 * Z.pos p + 1) with (Z.pos p~1). cbn [bin bin_digits]. apply bin_digits_app.
  - replace (2 * Z.pos p + 0) with (Z.pos p~0) by lia. cbn [bin bin_digits]. apply bin_digits_app.
Qed.
Lemma row_snoc xs b : row (xs ++ [b]) = (2 * row xs + (if b then 1 else 0))%nat.
Proof.
  induction xs as [|x xs IH]; [destruct b; reflexivity|]. cbn [app]. rewrite !row_cons, IH, app_length. cbn [List.length].
  rewrite Nat.pow_add_r. destruct x; cbn [Nat.pow]; lia.
Qed.
Lemma rjust_snoc n l d : rjust0 (S n) (l ++ [d]) = rjust0 n l ++ [d].
Proof. unfold rjust0. rewrite app_length. cbn [List.length]. replace (S n - (List.length l + 1))%nat with (n - List.length l)%nat by lia. apply app_assoc. Qed.
Lemma rjust_zero n : (0 < n)%nat -> rjust0 n [0] = repeat 0 n.
Proof. intros H. unfold rjust0. cbn [List.length]. destruct n as [|n]; [lia|]. replace (S n - 1)%nat with n by lia. change (S n) with (1 + n)%nat. rewrite Nat.add_comm, repeat_app. reflexivity. Qed.
Lemma printed_input xs : xs <> [] -> rjust0 (List.length xs) (bin (Z.of_nat (row xs))) = map Z.b2z xs.
Proof.
  induction xs as [|b xs IH] using rev_ind; [congruence|]. intros _. rewrite row_snoc, app_length, map_app. cbn [List.length map].
  replace (List.length xs + 1)%nat with (S (List.length xs)) by lia.
  replace (Z.of_nat (2 * row xs + (if b then 1 else 0))) with (2 * Z.of_nat (row xs) + Z.b2z b) by (destruct b; cbn [Z.b2z]; lia).
  destruct (Nat.eq_dec (row xs) 0) as [Z|N].
  - rewrite Z. change (2 * Z.of_nat 0 + Z.b2z b) with (Z.b2z b). replace (bin (Z.b2z b)) with ([] ++ [Z.b2z b]) by (destruct b; reflexivity).
    rewrite rjust_snoc. f_equal. unfold rjust0. cbn [List.length]. rewrite Nat.sub_0_r, app_nil_r.
    destruct xs as [|x xs]; [reflexivity|]. rewrite <- IH by discriminate. rewrite Z. change (bin (Z.of_nat 0)) with [0].
    symmetry. apply rjust_zero. cbn. lia.
  - rewrite bin_double by lia. rewrite rjust_snoc. f_equal. apply IH. intros ->. apply N. reflexivity.
Qed.
Lemma assignments_product n : assignments n = product_bools n.
Proof. induction n as [|n IH]; cbn; [reflexivity|]. rewrite IH. reflexivity. Qed.
Lemma product_rows n : map row (product_bools n) = seq 0 (2 ^ n) /\ Forall (fun xs => List.length xs = n) (product_bools n).
Proof.
  induction n as [|n [IH1 IH2]]; [split; [reflexivity|repeat constructor]|]. cbn [product_bools]. split.
  - rewrite map_app, !map_map. replace (2 ^ S n)%nat with (2 ^ n + 2 ^ n)%nat by (cbn [Nat.pow]; lia). rewrite seq_app. f_equal.
    + rewrite <- IH1. apply map_ext. intros xs. rewrite row_cons. reflexivity.
    + cbn [plus]. replace (seq (2 ^ n) (2 ^ n)) with (map (Nat.add (2 ^ n)) (seq 0 (2 ^ n))).
      * rewrite <- IH1, map_map. apply map_ext_in. intros xs Hx. rewrite Forall_forall in IH2. rewrite row_cons, (IH2 xs Hx). reflexivity.
      * clear. generalize (2 ^ n)%nat at 1 3. intros a. generalize (2 ^ n)%nat. intros k. transitivity (seq (a + 0) k); [|f_equal; lia].
        generalize 0%nat. induction k as [|k IHk]; intros s; cbn; [reflexivity|]. f_equal. rewrite IHk. f_equal. lia.
  - apply Forall_app. split; apply Forall_forall; intros xs Hx; apply in_map_iff in Hx; destruct Hx as (ys & <- & Hy); cbn; f_equal;
      rewrite Forall_forall in IH2; apply IH2; exact Hy.
Qed.
Lemma values_entries t : values_from_lsb_to_msb t = map (fun i => Z.b2z (table_entry (truth_table t) i)) (seq 0 (2 ^ num_inputs t)).
Proof. unfold values_from_lsb_to_msb, table_entry. apply map_ext. intros i. apply bit_value. lia. Qed.
Lemma digits_bits xs : digits (map Z.b2z xs) = String.concat "" (map show xs).
Proof. unfold digits. f_equal. rewrite map_map. apply map_ext. intros []; reflexivity. Qed.

(** For every number of inputs from one up and every table: the lines are the assignments in order, each with the table's entry. *)
Theorem C18_printed_table : forall n tb, (1 <= n)%nat ->
  lut_str {| num_inputs := n; truth_table := tb |} =
  String.concat newline (map (fun xs => table_line xs (table_entry tb (row xs))) (assignments n)).
Proof.
  intros n tb Hn. unfold lut_str. rewrite values_entries. cbn [num_inputs truth_table]. rewrite map_length, seq_length. f_equal.
  destruct (product_rows n) as [R F]. rewrite assignments_product. rewrite <- R. clear R.
  induction F as [|xs l Hx F IH]; [reflexivity|]. cbn [map combine]. f_equal; [|exact IH]. cbn [fst snd]. unfold table_line.
  rewrite <- Hx, printed_input, digits_bits by (intros ->; cbn in Hx; lia). destruct (table_entry tb (row xs)); reflexivity.
Qed.
Print Assumptions C18_printed_table.

(** A table made from a callable prints the callable's value next to each list of arguments. *)
Theorem C18_printed_callable : forall n f, (1 <= n)%nat ->
  lut_str (from_callable n f) = String.concat newline (map (fun xs => table_line xs (f xs)) (assignments n)).
Proof.
  intros n f Hn. change (from_callable n f) with {| num_inputs := n; truth_table := truth_table (from_callable n f) |}.
  rewrite C18_printed_table by exact Hn. f_equal. apply map_ext_in. intros xs Hx. f_equal.
  rewrite assignments_product in Hx. destruct (product_rows n) as [_ F]. rewrite Forall_forall in F. rewrite <- (F xs Hx). apply from_callable_entry.
Qed.
Print Assumptions C18_printed_callable.
Example C18_printed_ex : lut_str (from_callable 2 (fun l => match l with [x; y] => negb x && y | _ => false end)) =
  ("00 -> 0" ++ newline ++ "01 -> 1" ++ newline ++ "10 -> 0" ++ newline ++ "11 -> 0")%string.
Proof. reflexivity. Qed.
(** a table without inputs prints an input digit that does not exist *)
Theorem C18_printed_no_inputs_refuted : exists f, lut_str (from_callable 0 f) <> String.concat newline (map (fun xs => table_line xs (f xs)) (assignments 0)).
Proof. exists (fun _ => true). vm_compute. discriminate. Qed.
Print Assumptions C18_printed_no_inputs_refuted.
