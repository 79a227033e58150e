(** Property C21: batched evaluation equals pointwise evaluation. *)
From Coq Require Import ZArith List Bool Lia.
From Verif Require Import Base.Word Cggi.Model_rlwe Cggi.Model_bootstrap Cggi.Model_batch Cggi.Spec_batch Cggi.Proof_batch.
From Verif Require Import Bool.Model_lut Bool.Model_bool.
Import ListNotations.

(** ** batch_vmap.  [batched_args] lists the batched arguments; [slice_at j args] is the argument list of the j-th call:
    shared arguments as they are, batched ones replaced by their j-th element. *)
Theorem C21_batch_vmap : forall A B (f : list A -> B) batch_size (args : list (argument A)) n,
  (0 < batch_size)%Z -> batched_args args <> [] -> Forall (fun xs => length xs = n) (batched_args args) ->
  exists out, batch_vmap f batch_size args = Some out /\ length out = n /\
    forall j, j < n -> nth_error out j = Some (f (slice_at j args)).
Proof.
  intros A B f bs args n H1 H2 H3. exists (map (fun j => f (slice_at j args)) (seq 0 n)).
  split; [apply batch_vmap_spec; assumption|]. split; [rewrite map_length, seq_length; reflexivity|]. intros j Hj.
  rewrite nth_error_map. rewrite (nth_error_nth' (seq 0 n) 0) by (rewrite seq_length; exact Hj). rewrite seq_nth by exact Hj. reflexivity.
Qed.
Print Assumptions C21_batch_vmap.
(** anything else is rejected, never silently truncated *)
Theorem C21_batch_vmap_rejects : forall A B (f : list A -> B) batch_size (args : list (argument A)) out,
  batch_vmap f batch_size args = Some out ->
  (0 < batch_size)%Z /\ batched_args args <> [] /\ exists n, Forall (fun xs => length xs = n) (batched_args args).
Proof. exact (fun A B f bs args out => batch_vmap_inv f bs args out). Qed.
Print Assumptions C21_batch_vmap_rejects.
(** the batch size is not observable *)
Theorem C21_batch_size_irrelevant : forall A B (f : list A -> B) b1 b2 (args : list (argument A)),
  (0 < b1)%Z -> (0 < b2)%Z -> batch_vmap f b1 args = batch_vmap f b2 args.
Proof.
  intros A B f b1 b2 args H1 H2.
  destruct (batch_vmap f b1 args) as [o1|] eqn:E1.
  - destruct (batch_vmap_inv f b1 args o1 E1) as (_ & Hne & n & HF). rewrite (batch_vmap_spec f b2 args n H2 Hne HF).
    rewrite <- E1. rewrite (batch_vmap_spec f b1 args n H1 Hne HF). reflexivity.
  - destruct (batch_vmap f b2 args) as [o2|] eqn:E2; [|reflexivity].
    destruct (batch_vmap_inv f b2 args o2 E2) as (_ & Hne & n & HF). rewrite (batch_vmap_spec f b1 args n H1 Hne HF) in E1. discriminate.
Qed.
Print Assumptions C21_batch_size_irrelevant.
(** seven elements in batches of three: two full batches and a tail; the shared argument keeps its position *)
Example C21_batch_vmap_ex :
  batch_vmap (fun l => match l with [x; c; y] => (c * x + y)%Z | _ => 0%Z end) 3
    [Batched [1;2;3;4;5;6;7]%Z; Shared 10%Z; Batched [7;6;5;4;3;2;1]%Z] = Some [17;26;35;44;53;62;71]%Z.
Proof. reflexivity. Qed.

(** ** pmap_lut2, pmap_lut3 *)
Lemma sequence_map_combine {A B C} (f : A -> option B) (g : A -> B -> option C) (l : list A) polys :
  sequence (map f l) = Some polys ->
  sequence (map (fun vp => g (fst vp) (snd vp)) (combine l polys)) =
  sequence (map (fun v => match f v with Some p => g v p | None => None end) l).
Proof.
  revert polys. induction l as [|x l IH]; intros polys H; [reflexivity|]. cbn [map sequence] in H.
  destruct (f x) as [p|] eqn:E; [|discriminate]. destruct (sequence (map f l)) as [ps|] eqn:ES; [|discriminate]. injection H as <-.
  cbn [combine map sequence fst snd]. rewrite E. destruct (g x p); [|reflexivity]. rewrite (IH ps eq_refl). reflexivity.
Qed.
Lemma sequence_none {A B C} (f : A -> option B) (g : A -> B -> option C) (l : list A) :
  sequence (map f l) = None -> sequence (map (fun v => match f v with Some p => g v p | None => None end) l) = None.
Proof.
  induction l as [|x l IH]; intros H; [discriminate|]. cbn [map sequence] in *. destruct (f x) as [p|]; [|reflexivity].
  destruct (sequence (map f l)) eqn:ES; [discriminate|]. rewrite (IH eq_refl). destruct (g x p); reflexivity.
Qed.
Lemma sequence_length {A} (l : list (option A)) r : sequence l = Some r -> length r = length l.
Proof.
  revert r. induction l as [|[x|] l IH]; intros r H; cbn in H; [injection H as <-; reflexivity| |discriminate].
  destruct (sequence l) as [s|]; [|discriminate]. injection H as <-. cbn. rewrite (IH s eq_refl). reflexivity.
Qed.

(** up to one input per device: the list of the single results, an exception of one of them being an exception of the whole;
    otherwise an exception.  The key is one made for the default options, as ServerKeySet does (C21_server_keys). *)
Theorem C21_pmap_lut3 : forall tpu devices inputs sk pr,
  bsk_use_bmmp (sk_bsk sk) = true -> bsk_use_bat (sk_bsk sk) = false ->
  pmap_lut3 tpu devices inputs sk pr =
  if ((length inputs =? 0) || (devices <? length inputs))%bool then None
  else sequence (map (fun v => match v with (a, b, c, tb) => lut3 tpu a b c tb sk pr end) inputs).
Proof.
  intros tpu dev inputs sk pr H1 H2. unfold pmap_lut3.
  set (f := fun v : list Z * list Z * list Z * Z => lut_poly tpu (scheme pr) 3 (snd v)).
  set (g := fun (v : list Z * list Z * list Z * Z) tp => match v with ((a, b, c), _) => jit_bootstrap tpu (comb3 c b a) tp (bsk_bits (sk_bsk sk)) (sk_ksk sk) (ks_decomp pr) (bs_decomp pr) (scheme pr) end).
  assert (HS : sequence (map (fun v => match v with (a, b, c, tb) => lut3 tpu a b c tb sk pr end) inputs) =
               sequence (map (fun v => match f v with Some p => g v p | None => None end) inputs)).
  { f_equal. apply map_ext. intros [[[a b] c] tb]. unfold lut3, run_bootstrap, f, g, jit_bootstrap. cbn [snd].
    destruct (lut_poly tpu (scheme pr) 3 tb) as [tp|]; [|reflexivity]. destruct (sk_bsk sk) as [bb u v]. cbn in H1, H2. subst. reflexivity. }
  rewrite HS. clear HS. destruct (sequence (map f inputs)) as [polys|] eqn:E.
  - unfold pmap. rewrite combine_length, (sequence_length _ _ E), map_length, Nat.min_id.
    destruct (_ || _)%bool; [reflexivity|]. rewrite <- (sequence_map_combine f g inputs polys E). f_equal. apply map_ext. intros [[[[a b] c] tb] tp]. reflexivity.
  - rewrite (sequence_none f g inputs E). destruct (_ || _)%bool; reflexivity.
Qed.
Theorem C21_pmap_lut2 : forall tpu devices inputs sk pr,
  bsk_use_bmmp (sk_bsk sk) = true -> bsk_use_bat (sk_bsk sk) = false ->
  pmap_lut2 tpu devices inputs sk pr =
  if ((length inputs =? 0) || (devices <? length inputs))%bool then None
  else sequence (map (fun v => match v with (a, b, tb) => lut2 tpu a b tb sk pr end) inputs).
Proof.
  intros tpu dev inputs sk pr H1 H2. unfold pmap_lut2.
  set (f := fun v : list Z * list Z * Z => lut_poly tpu (scheme pr) 2 (snd v)).
  set (g := fun (v : list Z * list Z * Z) tp => match v with ((a, b), _) => jit_bootstrap tpu (comb2 b a) tp (bsk_bits (sk_bsk sk)) (sk_ksk sk) (ks_decomp pr) (bs_decomp pr) (scheme pr) end).
  assert (HS : sequence (map (fun v => match v with (a, b, tb) => lut2 tpu a b tb sk pr end) inputs) =
               sequence (map (fun v => match f v with Some p => g v p | None => None end) inputs)).
  { f_equal. apply map_ext. intros [[a b] tb]. unfold lut2, run_bootstrap, f, g, jit_bootstrap. cbn [snd].
    destruct (lut_poly tpu (scheme pr) 2 tb) as [tp|]; [|reflexivity]. destruct (sk_bsk sk) as [bb u v]. cbn in H1, H2. subst. reflexivity. }
  rewrite HS. clear HS. destruct (sequence (map f inputs)) as [polys|] eqn:E.
  - unfold pmap. rewrite combine_length, (sequence_length _ _ E), map_length, Nat.min_id.
    destruct (_ || _)%bool; [reflexivity|]. rewrite <- (sequence_map_combine f g inputs polys E). f_equal. apply map_ext. intros [[[a b] tb] tp]. reflexivity.
  - rewrite (sequence_none f g inputs E). destruct (_ || _)%bool; reflexivity.
Qed.
Print Assumptions C21_pmap_lut3.
Print Assumptions C21_pmap_lut2.
(** what "sequence" means: all results in order, or an exception if one of them is *)
Theorem C21_in_order : forall A (l : list (option A)),
  match sequence l with Some r => map Some r = l | None => In None l end.
Proof.
  intros A. induction l as [|[x|] l IH]; cbn [sequence]; [reflexivity| |left; reflexivity].
  destruct (sequence l) as [r|]; [cbn [map]; f_equal; exact IH|right; exact IH].
Qed.
Print Assumptions C21_in_order.
(** every ServerKeySet meets the hypothesis on the key *)
Theorem C21_server_keys : forall tpu ck pr bai bes kai kes sk, server_keys tpu ck pr bai bes kai kes = Some sk ->
  bsk_use_bmmp (sk_bsk sk) = true /\ bsk_use_bat (sk_bsk sk) = false.
Proof.
  intros tpu ck pr bai bes kai kes sk. unfold server_keys, gen_bootstrapping_key.
  destruct (Nat.even _); cbn [negb andb]; [|discriminate].
  intros H. injection H as <-. split; reflexivity.
Qed.
Print Assumptions C21_server_keys.
(** Finding: more inputs than devices are not regrouped, they are an error *)
Theorem C21_more_inputs_than_devices_refuted : forall tpu sk pr v1 v2, pmap_lut2 tpu 1 [v1; v2] sk pr = None.
Proof. intros. unfold pmap_lut2. destruct (sequence _) as [p|] eqn:E; [|reflexivity]. pose proof (sequence_length _ _ E) as HL. cbn in HL. destruct p as [|p0 [|p1 p]]; try discriminate HL. reflexivity. Qed.
Print Assumptions C21_more_inputs_than_devices_refuted.
