From Coq Require Import ZArith List Bool Lia.
From Verif Require Import Cggi.Model_batch Cggi.Spec_batch.
Import ListNotations.

Definition pick {A} (j : nat) (arrays : list (list A)) : list A :=
  flat_map (fun a => match nth_error a j with Some x => [x] | None => [] end) arrays.
Fixpoint unb {A} (i : nat) (args : list (argument A)) : list (nat * A) :=
  match args with
  | [] => []
  | Shared x :: r => (i, x) :: unb (S i) r
  | Batched _ :: r => unb (S i) r
  end.

Section Batch.
Context {A : Type}.

Lemma insert_at_app (P Q : list A) x : insert_at (length P) x (P ++ Q) = P ++ x :: Q.
Proof.
  unfold insert_at. rewrite firstn_app, Nat.sub_diag, firstn_all, firstn_O, app_nil_r.
  rewrite skipn_app, Nat.sub_diag, skipn_all. reflexivity.
Qed.

Lemma reinsert j : forall (args : list (argument A)) P,
  Forall (fun xs => j < length xs) (batched_args args) ->
  fold_left (fun a p => insert_at (fst p) (snd p) a) (unb (length P) args) (P ++ pick j (batched_args args)) = P ++ slice_at j args.
Proof.
  induction args as [|[xs|x] args IH]; intros P H; cbn [unb batched_args pick slice_at flat_map fold_left app] in *.
  - reflexivity.
  - inversion H as [|? ? Hx Hr]; subst. destruct (nth_error xs j) as [v|] eqn:E; [|apply nth_error_None in E; lia].
    cbn [app]. specialize (IH (P ++ [v])). rewrite app_length in IH. cbn [length] in IH. rewrite Nat.add_1_r in IH.
    rewrite <- !app_assoc in IH. cbn [app] in IH. apply IH. exact Hr.
  - cbn [fst snd]. rewrite insert_at_app.
    specialize (IH (P ++ [x])). rewrite app_length in IH. cbn [length] in IH. rewrite Nat.add_1_r in IH.
    rewrite <- !app_assoc in IH. cbn [app] in IH. apply IH. exact H.
Qed.

Lemma split_args_spec bs : (0 < bs)%Z -> forall (args : list (argument A)) i,
  split_args bs i args = Some (unb i args,
    map (fun xs => chunks (Z.to_nat (Z.of_nat (length xs) / bs)) (Z.to_nat bs) (firstn (Z.to_nat (Z.of_nat (length xs) / bs * bs)) xs)) (batched_args args),
    map (fun xs => skipn (Z.to_nat (Z.of_nat (length xs) / bs * bs)) xs) (batched_args args)).
Proof.
  intros Hbs. induction args as [|[xs|x] args IH]; intros i; cbn [split_args unb batched_args flat_map map app].
  - reflexivity.
  - unfold preprocess. destruct (Z.leb_spec bs 0); [lia|]. rewrite IH. reflexivity.
  - rewrite IH. reflexivity.
Qed.
Lemma split_args_bad bs : (bs <= 0)%Z -> forall (args : list (argument A)) i, batched_args args <> [] -> split_args bs i args = None.
Proof.
  intros Hbs. induction args as [|[xs|x] args IH]; intros i H; cbn [split_args batched_args flat_map app] in *.
  - congruence.
  - unfold preprocess. destruct (Z.leb_spec bs 0); [reflexivity|lia].
  - rewrite IH by exact H. reflexivity.
Qed.

Lemma chunks_length (c s : nat) : forall l : list A, length (chunks c s l) = c.
Proof. induction c as [|c IH]; intros l; cbn; [reflexivity|]. rewrite IH. reflexivity. Qed.
Lemma nth_error_skipn' n : forall (l : list A) i, nth_error (skipn n l) i = nth_error l (n + i).
Proof. induction n as [|n IH]; intros l i; [reflexivity|]. destruct l as [|x l]; [destruct i; reflexivity|]. cbn. apply IH. Qed.
Lemma nth_error_firstn' n : forall (l : list A) i, i < n -> nth_error (firstn n l) i = nth_error l i.
Proof. induction n as [|n IH]; intros l i H; [lia|]. destruct l as [|x l]; [destruct i; reflexivity|]. destruct i; cbn; [reflexivity|]. apply IH. lia. Qed.
Lemma chunks_nth s : forall c (l : list A) k j, k < c -> j < s -> nth_error (nth k (chunks c s l) []) j = nth_error l (k * s + j).
Proof.
  induction c as [|c IH]; intros l k j Hk Hj; [lia|]. cbn [chunks]. destruct k as [|k]; cbn [nth].
  - apply nth_error_firstn'. exact Hj.
  - rewrite IH by lia. rewrite nth_error_skipn'. f_equal. lia.
Qed.
Lemma chunks_nth_length s : forall c (l : list A) k, length l = c * s -> k < c -> length (nth k (chunks c s l) []) = s.
Proof.
  induction c as [|c IH]; intros l k Hl Hk; [lia|]. cbn [chunks]. destruct k as [|k]; cbn [nth].
  - rewrite firstn_length. lia.
  - apply IH; [rewrite skipn_length; lia|lia].
Qed.

Lemma seq_opt_some {B} (l : list B) : seq_opt (map Some l) = Some l.
Proof. induction l as [|x l IH]; cbn; [reflexivity|]. rewrite IH. reflexivity. Qed.

Lemma map_seq_offset {B} (F : nat -> B) s : forall o, map F (seq o s) = map (fun j => F (o + j)) (seq 0 s).
Proof.
  induction s as [|s IH]; intros o; [reflexivity|]. rewrite !seq_S, !map_app, IH. reflexivity.
Qed.
Lemma seq_blocks {B} (F : nat -> B) s : forall c, concat (map (fun k => map (fun j => F (k * s + j)) (seq 0 s)) (seq 0 c)) = map F (seq 0 (c * s)).
Proof.
  induction c as [|c IH]; [reflexivity|]. rewrite seq_S, map_app, concat_app, IH. cbn [map concat]. rewrite app_nil_r, Nat.add_0_l.
  replace (S c * s) with (c * s + s) by lia. rewrite seq_app, map_app. f_equal. rewrite Nat.add_0_l. symmetry. apply map_seq_offset.
Qed.

Lemma vmap_some {B} (g : list A -> B) arrays m : arrays <> [] -> Forall (fun a => length a = m) arrays ->
  vmap g arrays = Some (map (fun j => g (pick j arrays)) (seq 0 m)).
Proof.
  intros Hne HF. destruct arrays as [|a0 rest]; [congruence|]. unfold vmap. inversion HF as [|? ? H0 HR]; subst.
  replace (forallb _ rest) with true; [reflexivity|]. symmetry. apply forallb_forall. intros a Ha. rewrite Forall_forall in HR.
  apply Nat.eqb_eq, HR, Ha.
Qed.
Lemma vmap_inv {B} (g : list A -> B) arrays out : vmap g arrays = Some out -> arrays <> [] /\ exists m, Forall (fun a => length a = m) arrays.
Proof.
  destruct arrays as [|a0 rest]; [discriminate|]. unfold vmap. destruct (forallb _ rest) eqn:E; [|discriminate]. intros _. split; [discriminate|].
  exists (length a0). constructor; [reflexivity|]. rewrite forallb_forall in E. apply Forall_forall. intros a Ha. apply Nat.eqb_eq, E, Ha.
Qed.

Lemma pick_ext (l l' : list (list A)) j j' : Forall2 (fun a b => nth_error a j = nth_error b j') l l' -> pick j l = pick j' l'.
Proof. induction 1 as [|a b l l' H HF IH]; [reflexivity|]. cbn [pick flat_map]. rewrite H. f_equal. exact IH. Qed.
Lemma Forall2_map_l {X Y} (f : X -> Y) (P : Y -> X -> Prop) l : (forall x, In x l -> P (f x) x) -> Forall2 P (map f l) l.
Proof. induction l as [|x l IH]; intros H; cbn; constructor; [apply H; left; reflexivity|]. apply IH. intros y Hy. apply H. right. exact Hy. Qed.

Theorem batch_vmap_spec {B} (f : list A -> B) bs (args : list (argument A)) n :
  (0 < bs)%Z -> batched_args args <> [] -> Forall (fun xs => length xs = n) (batched_args args) ->
  batch_vmap f bs args = Some (map (fun j => f (slice_at j args)) (seq 0 n)).
Proof.
  intros Hbs Hne HF. unfold batch_vmap. rewrite split_args_spec by exact Hbs.
  set (cnt := Z.to_nat (Z.of_nat n / bs)). set (s := Z.to_nat bs).
  assert (Hcs : Z.to_nat (Z.of_nat n / bs * bs) = cnt * s).
  { unfold cnt, s. rewrite Z2Nat.inj_mul; [reflexivity| |lia]. apply Z.div_pos; lia. }
  assert (Hle : cnt * s <= n).
  { rewrite <- Hcs. apply Nat2Z.inj_le. rewrite Z2Nat.id by (apply Z.mul_nonneg_nonneg; [apply Z.div_pos; lia|lia]).
    pose proof (Z.mul_div_le (Z.of_nat n) bs Hbs). lia. }
  rewrite Forall_forall in HF.
  set (bl := batched_args args) in *.
  rewrite (map_ext_in (fun xs => chunks (Z.to_nat (Z.of_nat (length xs) / bs)) s (firstn (Z.to_nat (Z.of_nat (length xs) / bs * bs)) xs))
    (fun xs => chunks cnt s (firstn (cnt * s) xs)) bl).
  2:{ intros xs Hx. rewrite (HF xs Hx). rewrite Hcs. reflexivity. }
  rewrite (map_ext_in (fun xs => skipn (Z.to_nat (Z.of_nat (length xs) / bs * bs)) xs) (fun xs => skipn (cnt * s) xs) bl).
  2:{ intros xs Hx. rewrite (HF xs Hx). rewrite Hcs. reflexivity. }
  set (F := fun j => f (slice_at j args)).
  assert (HF2 : forall j, j < n -> f2 f (unb 0 args) (pick j bl) = F j).
  { intros j Hj. unfold f2, F. f_equal. apply (reinsert j args []). apply Forall_forall. intros xs Hx. rewrite (HF xs Hx). exact Hj. }
  (* tail *)
  rewrite (vmap_some _ (map (fun xs => skipn (cnt * s) xs) bl) (n - cnt * s)).
  2:{ destruct bl; [congruence|discriminate]. }
  2:{ apply Forall_forall. intros a Ha. apply in_map_iff in Ha. destruct Ha as [xs [<- Hx]]. rewrite skipn_length, (HF xs Hx). reflexivity. }
  (* loop *)
  assert (HL : lax_map (vmap (f2 f (unb 0 args))) (map (fun xs => chunks cnt s (firstn (cnt * s) xs)) bl) =
               Some (map (fun k => map (fun j => F (k * s + j)) (seq 0 s)) (seq 0 cnt))).
  { unfold lax_map. destruct bl as [|x0 bl0] eqn:EB; [congruence|]. rewrite <- EB in *.
    assert (EM : map (fun xs => chunks cnt s (firstn (cnt * s) xs)) bl =
      chunks cnt s (firstn (cnt * s) x0) :: map (fun xs => chunks cnt s (firstn (cnt * s) xs)) bl0) by (rewrite EB; reflexivity).
    rewrite EM. replace (forallb _ _) with true.
    2:{ symmetry. apply forallb_forall. intros a Ha. apply in_map_iff in Ha. destruct Ha as [xs [<- Hx]]. rewrite !chunks_length. apply Nat.eqb_refl. }
    rewrite chunks_length. rewrite <- seq_opt_some. f_equal. rewrite map_map. apply map_ext_in. intros k Hk. apply in_seq in Hk. rewrite <- EM.
    rewrite map_map.
    rewrite (vmap_some _ _ s).
    2:{ rewrite EB. discriminate. }
    2:{ apply Forall_forall. intros a Ha. apply in_map_iff in Ha. destruct Ha as [xs [<- Hx]]. apply chunks_nth_length; [|lia].
        rewrite firstn_length, (HF xs Hx). lia. }
    f_equal. apply map_ext_in. intros j Hj. apply in_seq in Hj.
    assert (k * s + j < cnt * s) by nia.
    rewrite <- HF2 by lia. f_equal. apply pick_ext. apply Forall2_map_l. intros xs Hx. rewrite chunks_nth by lia. apply nth_error_firstn'. lia. }
  rewrite HL. f_equal. rewrite seq_blocks.
  replace n with (cnt * s + (n - cnt * s)) at 2 by lia. rewrite seq_app, map_app. f_equal. rewrite Nat.add_0_l, (map_seq_offset F _ (cnt * s)).
  apply map_ext_in. intros j Hj. apply in_seq in Hj. rewrite <- HF2 by lia. f_equal. apply pick_ext. apply Forall2_map_l. intros xs Hx. apply nth_error_skipn'.
Qed.

Theorem batch_vmap_inv {B} (f : list A -> B) bs (args : list (argument A)) out :
  batch_vmap f bs args = Some out -> (0 < bs)%Z /\ batched_args args <> [] /\ exists n, Forall (fun xs => length xs = n) (batched_args args).
Proof.
  unfold batch_vmap. intros H.
  destruct (split_args bs 0 args) as [[[u lo] ta]|] eqn:E; [|discriminate].
  destruct (lax_map _ lo) as [loop|] eqn:EL; [|discriminate]. destruct (vmap _ ta) as [tl|] eqn:ET; [|discriminate].
  assert (Hb : batched_args args <> [] -> (0 < bs)%Z).
  { intros Hn. destruct (Z.lt_ge_cases 0 bs) as [|Hle]; [assumption|]. rewrite split_args_bad in E by (assumption || lia). discriminate. }
  assert (Hne : batched_args args <> []).
  { intros Hn. assert (Hta : forall (ar : list (argument A)) i u lo ta, batched_args ar = [] -> split_args bs i ar = Some (u, lo, ta) -> ta = []).
    { clear. induction ar as [|[xs|x] ar IH]; intros i u lo ta Hb Hs; cbn in *; [congruence|discriminate|].
      destruct (split_args bs (S i) ar) as [[[u' lo'] ta']|] eqn:E; [|discriminate]. injection Hs as <- <- <-. eapply IH; eassumption. }
    rewrite (Hta _ _ _ _ _ Hn E) in ET. discriminate. }
  split; [exact (Hb Hne)|]. split; [exact Hne|]. specialize (Hb Hne).
  rewrite split_args_spec in E by exact Hb. injection E as <- <- <-.
  apply vmap_inv in ET. destruct ET as [_ [m HT]].
  set (bl := batched_args args) in *. destruct bl as [|x0 bl0] eqn:EB; [congruence|]. cbn [map lax_map] in EL.
  destruct (forallb _ _) eqn:EF; [|discriminate]. rewrite forallb_forall in EF.
  rewrite Forall_forall in HT.
  exists (length x0). constructor; [reflexivity|]. apply Forall_forall. intros xs Hx.
  assert (E1 : (Z.of_nat (length xs) / bs = Z.of_nat (length x0) / bs)%Z).
  { specialize (EF _ (in_map _ _ _ Hx)). apply Nat.eqb_eq in EF. rewrite !chunks_length in EF.
    pose proof (Z.div_pos (Z.of_nat (length xs)) bs). pose proof (Z.div_pos (Z.of_nat (length x0)) bs). lia. }
  assert (E2 : length (skipn (Z.to_nat (Z.of_nat (length xs) / bs * bs)) xs) = m).
  { apply HT. right. apply (in_map (fun xs => skipn (Z.to_nat (Z.of_nat (length xs) / bs * bs)) xs)). exact Hx. }
  assert (E3 : length (skipn (Z.to_nat (Z.of_nat (length x0) / bs * bs)) x0) = m).
  { apply HT. left. reflexivity. }
  rewrite skipn_length in E2, E3. rewrite E1 in E2.
  pose proof (Z.mul_div_le (Z.of_nat (length x0)) bs Hb) as L0. pose proof (Z.mul_div_le (Z.of_nat (length xs)) bs Hb) as L1. rewrite E1 in L1. nia.
Qed.
End Batch.
