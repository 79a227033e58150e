(** Property C68: the consistency checker compares exactly the values stored under the same name. *)
From Coq Require Import List Bool String Lia Arith.
From Verif Require Import Cggi.Model_consistency.
Import ListNotations.

(** a history of store calls, oldest first *)
Definition run {V} (h : list (string * V)) : checker V := fold_left (fun c e => store c (fst e) (snd e)) h new_checker.

(** the values stored under a name, oldest first *)
Definition stored {V} (h : list (string * V)) (name : string) : list V := map snd (filter (fun e => String.eqb name (fst e)) h).

Lemma lookup_app V name (d e : list (string * list V)) :
  lookup name (d ++ e) = match lookup name d with Some v => Some v | None => lookup name e end.
Proof. induction d as [|[k v] d IH]; cbn; [reflexivity|]. destruct (String.eqb name k); auto. Qed.
Lemma lookup_replace V name n (v : list V) d :
  lookup n (replace name v d) = if String.eqb n name then match lookup name d with Some _ => Some v | None => None end else lookup n d.
Proof.
  induction d as [|[k w] d IH]; cbn; [destruct (String.eqb n name); reflexivity|].
  destruct (String.eqb_spec name k) as [->|E]; cbn.
  - destruct (String.eqb_spec n k); reflexivity.
  - destruct (String.eqb_spec n k) as [->|E2]; [destruct (String.eqb_spec k name); congruence|exact IH].
Qed.

Lemma run_snoc V (h : list (string * V)) name v : run (h ++ [(name, v)]) = store (run h) name v.
Proof. unfold run. rewrite fold_left_app. reflexivity. Qed.
Lemma stored_snoc V (h : list (string * V)) name v n :
  stored (h ++ [(name, v)]) n = if String.eqb n name then stored h n ++ [v] else stored h n.
Proof. unfold stored. rewrite filter_app, map_app. cbn. destruct (String.eqb n name); cbn; [reflexivity|apply app_nil_r]. Qed.

Lemma run_lookup V (h : list (string * V)) n :
  lookup n (records (run h)) = match stored h n with [] => None | l => Some l end /\
  (In n (insertion_order (run h)) <-> stored h n <> []).
Proof.
  induction h as [|[name v] h IH] using rev_ind; [cbn; split; [reflexivity|split; [intros []|congruence]]|].
  rewrite run_snoc, stored_snoc. unfold store.
  destruct (String.eqb_spec n name) as [<-|E].
  - destruct IH as [I1 I2]. destruct (lookup n (records (run h))) as [vs|] eqn:L; cbn [records insertion_order].
    + rewrite lookup_replace, String.eqb_refl, L. destruct (stored h n) as [|x l] eqn:S; [discriminate|]. injection I1 as ->.
      split; [reflexivity|]. rewrite I2. split; intros _; discriminate.
    + rewrite lookup_app, L. cbn [lookup]. rewrite String.eqb_refl. destruct (stored h n) as [|x l]; [|discriminate]. cbn [app].
      split; [reflexivity|]. rewrite in_app_iff. split; [discriminate|]. intros _. right. left. reflexivity.
  - destruct IH as [I1 I2]. assert (E' : String.eqb n name = false) by (apply String.eqb_neq; exact E).
    destruct (lookup name (records (run h))) as [vs|] eqn:L; cbn [records insertion_order].
    + rewrite lookup_replace, E'. split; [exact I1|exact I2].
    + rewrite lookup_app. cbn [lookup]. rewrite E'. split; [rewrite I1; destruct (stored h n); reflexivity|].
      rewrite in_app_iff. cbn [In]. split; [intros [H|[H|[]]]; [apply I2; exact H|congruence]|intros H; left; apply I2; exact H].
Qed.

Lemma combinations2_spec V (f : V -> V -> bool) l :
  forallb (fun xy => f (fst xy) (snd xy)) (combinations2 l) = true <->
  forall i j x y, i < j -> nth_error l i = Some x -> nth_error l j = Some y -> f x y = true.
Proof.
  induction l as [|a l IH]; cbn [combinations2].
  - split; [intros _ i j x y _ H; destruct i; discriminate|reflexivity].
  - rewrite forallb_app, andb_true_iff, IH. split.
    + intros [H1 H2] i j x y Hij Hx Hy. destruct j as [|j]; [lia|]. cbn in Hy. destruct i as [|i].
      * cbn in Hx. injection Hx as <-. rewrite forallb_forall in H1. apply (H1 (a, y)). apply in_map. apply (nth_error_In _ _ Hy).
      * cbn in Hx. apply (H2 i j); [lia|exact Hx|exact Hy].
    + intros H. split.
      * apply forallb_forall. intros [u w] Hin. apply in_map_iff in Hin. destruct Hin as (y & E & Hy). injection E as <- <-.
        destruct (In_nth_error _ _ Hy) as [j Hj]. apply (H 0 (S j)); [lia|reflexivity|exact Hj].
      * intros i j x y Hij Hx Hy. apply (H (S i) (S j)); [lia|exact Hx|exact Hy].
Qed.

(** After any history of store calls, check passes exactly when the asserter accepts every two values stored under the same
    name, the earlier one first; values under different names are never compared. *)
Theorem C68_check : forall (V : Type) (h : list (string * V)) (asserter : V -> V -> bool),
  check (run h) (Some asserter) = true <->
  forall i j name x y, i < j -> nth_error h i = Some (name, x) -> nth_error h j = Some (name, y) -> asserter x y = true.
Proof.
  intros V h f.
  assert (A : check (run h) (Some f) = true <-> forall n, forallb (fun xy => f (fst xy) (snd xy)) (combinations2 (stored h n)) = true).
  { cbn [check]. rewrite forallb_forall. split.
    - intros H n. destruct (stored h n) as [|x l] eqn:S; [reflexivity|]. destruct (run_lookup V h n) as [L I].
      specialize (H n (proj2 I ltac:(rewrite S; discriminate))). rewrite L, S in H. exact H.
    - intros H n Hn. destruct (run_lookup V h n) as [L I]. apply I in Hn. rewrite L. specialize (H n).
      destruct (stored h n) as [|x l]; [congruence|exact H]. }
  rewrite A. clear A.
  assert (B : forall n, forallb (fun xy => f (fst xy) (snd xy)) (combinations2 (stored h n)) = true <->
    forall i j x y, i < j -> nth_error h i = Some (n, x) -> nth_error h j = Some (n, y) -> f x y = true).
  { intros n. induction h as [|[k v] h IH].
    - split; [intros _ i j x y _ H; destruct i; discriminate|reflexivity].
    - unfold stored in *. cbn [filter fst]. destruct (String.eqb_spec n k) as [<-|E].
      + cbn [map snd combinations2]. rewrite forallb_app, andb_true_iff, IH. split.
        * intros [H1 H2] i j x y Hij Hx Hy. destruct j as [|j]; [lia|]. cbn in Hy. destruct i as [|i].
          -- cbn in Hx. injection Hx as <-. rewrite forallb_forall in H1. apply (H1 (v, y)). apply in_map.
             apply (in_map snd _ (n, y)). apply filter_In. split; [apply (nth_error_In _ _ Hy)|apply String.eqb_refl].
          -- cbn in Hx. apply (H2 i j); [lia|exact Hx|exact Hy].
        * intros H. split.
          -- apply forallb_forall. intros [u w] Hin. apply in_map_iff in Hin. destruct Hin as (y & E & Hy). injection E as <- <-.
             apply in_map_iff in Hy. destruct Hy as ([k' y'] & E & Hy). cbn in E. subst y'. apply filter_In in Hy. destruct Hy as [Hy Hk].
             cbn in Hk. apply String.eqb_eq in Hk. subst k'. destruct (In_nth_error _ _ Hy) as [j Hj]. apply (H 0 (S j)); [lia|reflexivity|exact Hj].
          -- intros i j x y Hij Hx Hy. apply (H (S i) (S j)); [lia|exact Hx|exact Hy].
      + rewrite IH. split.
        * intros H i j x y Hij Hx Hy. destruct j as [|j]; [lia|]. destruct i as [|i]; [cbn in Hx; congruence|].
          apply (H i j); [lia|exact Hx|exact Hy].
        * intros H i j x y Hij Hx Hy. apply (H (S i) (S j)); [lia|exact Hx|exact Hy]. }
  split; [intros H i j n; apply (proj1 (B n)); apply H|intros H n; apply B; intros i j x y; apply H].
Qed.
Print Assumptions C68_check.

(** without an asserter check raises *)
Theorem C68_needs_asserter : forall (V : Type) (h : list (string * V)), check (run h) None = false.
Proof. reflexivity. Qed.
Print Assumptions C68_needs_asserter.

Open Scope string_scope.
Example C68_ex : check (run [("a", 1); ("b", 2); ("a", 1)]) (Some Nat.eqb) = true /\
  check (run [("a", 1); ("b", 2); ("a", 3)]) (Some Nat.eqb) = false /\ check (run [("a", 1); ("b", 2); ("a", 3)]) (Some Nat.leb) = true.
Proof. repeat split. Qed.
