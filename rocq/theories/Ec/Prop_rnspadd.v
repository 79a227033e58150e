(** C53, finding: the batched residue-form addition of two points of the twisted Edwards curve, given in exact affine form, is wrong
    when the product of their y coordinates happens to have a zero word for the modulus 2^16. *)
From Coq Require Import ZArith List Bool Lia Znumtheory.
From Verif Require Import Base.Word Base.Modeq Base.Crt Base.Fermat Base.Fp.
From Verif Require Import Ckks.Model_rns_utils Ckks.Prop_crt Ec.Model_util Ec.Model_field Ec.Model_field_rns Ec.Spec_rns377 Ec.Prop_util Ec.Proof_rns377 Ec.Proof_shifted Ec.Prop_rns377 Ec.Prop_rnsadd Ec.Prop_rnsneg.
From Verif Require Import Ec.Model_reffield Ec.Model_curve Ec.Spec_curve Ec.Proof_curve Ec.Prop_xyzz Ec.Prop_edwards Ec.Model_accel Ec.Spec_accel Ec.Proof_accel Ec.Model_accel_rns Ec.Spec_accel_rns Ec.Proof_accel_rns Ec.Prop_accel_rns Ec.Prime377.
Import ListNotations.
Local Open Scope Z_scope.
Add Ring FR2 : (Fp_ring p377).

(** ** every vector of words stands for some integer *)
Lemma crt_exists ms c : coprime_moduli ms -> length c = length ms -> exists x, 0 <= x < lprod ms /\ rep ms x c.
Proof.
  intros [HP HC]. revert c HP. induction HC as [|m ms F HC IH]; intros [|w c] HP L; try discriminate L; [exists 0; split; [cbn; lia | constructor] |].
  rewrite Forall_cons_iff in HP. destruct HP as [Pm HP]. destruct (IH c HP ltac:(cbn in L; lia)) as (x & Bx & Rx).
  assert (G : Z.gcd (lprod ms) m = 1) by (apply gcd_lprod; intros y Hy; rewrite Z.gcd_comm; rewrite Forall_forall in F; exact (F y Hy)).
  destruct (Z.gcd_bezout (lprod ms) m 1 G) as (u & v & B). pose proof (lprod_pos ms HP) as PL.
  set (k := ((w - x) * u) mod m). assert (Bk : 0 <= k < m) by (apply Z.mod_pos_bound; exact Pm).
  exists (x + k * lprod ms). split.
  - change (lprod (m :: ms)) with (m * lprod ms). nia.
  - constructor.
    + unfold k. rewrite Z.mod_eq by lia. exists (((w - x) * v) + ((w - x) * u / m) * lprod ms). assert (E : lprod ms * u = 1 - v * m) by lia. set (q := (w - x) * u / m). replace (w - (x + ((w - x) * u - m * q) * lprod ms)) with (w - x - (w - x) * (lprod ms * u) + q * lprod ms * m) by ring. rewrite E. ring.
    + assert (D : forall m', In m' ms -> (m' | lprod ms)) by (intros; apply in_divides_lprod; assumption). clear - Rx D. revert D. generalize (lprod ms) as P. intros P. unfold rep in *. induction Rx as [|m' w' ms c E Rx IH]; intros D; [constructor |]. constructor; [| apply IH; intros; apply D; right; assumption].
      rewrite E. destruct (D m' (or_introl eq_refl)) as [j ->]. exists (- (k * j)). ring.
Qed.
Lemma any_operand n a : length a = n -> Forall (fun r => length r = length MODULI /\ Forall (fun d => 0 <= d < 2 * 2 ^ 16) r) a -> exists f, opn n 2 f a /\ forall i, 0 <= f i.
Proof.
  intros L F. assert (H : exists xs, length xs = length a /\ operand MODULI 2 xs a /\ Forall (fun x => 0 <= x) xs).
  { clear L. induction F as [|r a [Lr Br] F IH]; [exists []; repeat split; constructor |]. destruct IH as (xs & L & O & P). destruct (crt_exists MODULI r coprime_377 Lr) as (x & Bx & Rx). exists (x :: xs). split; [cbn; congruence |]. split; [constructor; [split; [apply rep_iff; [apply coprime_positive | exact Rx] | exact Br] | exact O] | constructor; [lia | exact P]]. }
  destruct H as (xs & Lx & O & P). exists (fun i => nth i xs 0). split.
  - unfold opn. rewrite <- L, <- Lx, <- mapn_of. exact O.
  - intros i. destruct (Nat.lt_ge_cases i (length xs)) as [Hi | Hi]; [rewrite Forall_forall in P; apply P, nth_In; exact Hi | rewrite nth_overflow by exact Hi; lia].
Qed.
Lemma zc_row subs r : Forall (fun s => 0 <= s < 65536) subs -> length r = length subs -> Forall (fun w => 0 <= w < 2 ^ 16) r -> length (map2 negate_word_zero_check r subs) = length subs /\ Forall (fun d => 0 <= d < 2 * 2 ^ 16) (map2 negate_word_zero_check r subs).
Proof.
  intros F L W. split; [rewrite map2_length; lia |]. revert r L W. induction F as [|s subs Bs F IH]; intros [|w r] L W; try discriminate L; [constructor |]. rewrite Forall_cons_iff in W. destruct W as [Bw W]. cbn [map2]. constructor; [| apply IH; [cbn in L; lia | exact W]].
  unfold negate_word_zero_check, u32. pose proof (Z.mod_pos_bound (- w) (2 ^ 16) ltac:(lia)) as B. change (2 ^ 16) with 65536 in *. rewrite (Z.mod_small (_ + s)) by lia. destruct (w =? 0); [rewrite Z.mul_0_r; cbn; lia | rewrite Z.mul_1_r, Z.mod_small by lia; lia].
Qed.
Lemma any_neg_zc n B f a : stands_for n B f a -> exists g, opn n 2 g (neg_rns_zc a) /\ forall i, 0 <= g i.
Proof.
  intros S. pose proof (stands_length _ _ _ _ S) as L. destruct S as [R _]. apply any_operand; [unfold neg_rns_zc, negate_rns_for_var_add_zero_check; rewrite map_length; exact L |]. unfold neg_rns_zc, negate_rns_for_var_add_zero_check. apply Forall_map. clear L. unfold rns_batch in R. induction R as [|x r xs a [[Lr _] W] R IH]; [constructor |]. constructor; [| exact IH].
  destruct (zc_row MODULI_SUB r subs_range ltac:(rewrite subs_length; exact Lr) W) as [H1 H2]. split; [rewrite H1; apply subs_length | exact H2].
Qed.

(** ** products of one lane: the exact integer, and the general case *)
Definition prow (ts r1 r2 : list Z) : list Z := map2 rns_red_word (map2 (fun x y => u32 (x * y)) r1 r2) ts.
Lemma unreduced_row r1 r2 : mul_unreduced_rns_2u16 [r1] [r2] RNS_MODULI_T = Some [prow RNS_MODULI_T r1 r2].
Proof. unfold mul_unreduced_rns_2u16, moduli_rns_red_internal_2u16. rewrite (offsets_u8_ok MODULI RNS_MODULI_T offsets_377). reflexivity. Qed.
Lemma mul_exact x y r1 r2 : rns_batch MODULI [x] [r1] -> rns_batch MODULI [y] [r2] -> 0 <= x < 468000 * pp -> 0 <= y < 468000 * pp ->
  exists c, mod_mul_rns_377 [r1] [r2] = Some c /\ stands_for 1 (51000 * pp) (fun _ => red_value pp (prow RNS_MODULI_T r1 r2) (x * y)) c /\ clean 1 (fun _ => red_value pp (prow RNS_MODULI_T r1 r2) (x * y)) c.
Proof.
  intros R1 R2 Bx By. pose proof pp_pos as P0. destruct pp_M377 as [G1 G2].
  destruct (mul_step 1 (fun _ => x) (fun _ => y) [r1] [r2]) as (c & h & E & S & C & _); [split; [exact R1 | intros; exact Bx] | split; [exact R2 | intros; exact By] |]. exists c. split; [exact E |].
  destruct (mul_batch [x] [y] _ _ R1 R2 eq_refl) as (c' & Ec & Rc). rewrite unreduced_row in Ec. injection Ec as <-. cbn [map2] in Rc.
  destruct (matrix_377 pp ltac:(lia)) as (mat & cor & _ & EM & _). assert (BP : 0 <= x * y /\ 2 ^ 16 * (x * y) < 40036 * M377). { split; [nia |]. assert (x * y <= (468000 * pp) * (468000 * pp)) by (apply Z.mul_le_mono_nonneg; lia). lia. }
  destruct (mod_red_batch pp mat cor _ _ ltac:(lia) EM Rc ltac:(constructor; [exact BP | constructor])) as (b & zs & E' & F1 & F2 & _ & V). cbn [map2] in V.
  assert (EB : b = c). { unfold mod_mul_rns_377, RNS_MAT in E. rewrite EM in E. cbn [bind] in E. unfold mod_mul_rns_2u16 in E. rewrite unreduced_row in E. cbn [bind] in E. rewrite E' in E. injection E as E. exact E. } subst b zs. revert F1 F2. generalize (red_value pp (prow RNS_MODULI_T r1 r2) (x * y)) as z. intros z F1 F2.
  assert (H0 : h 0%nat = z).
  { destruct S as [Rh Bh]. cbn [seq map] in Rh. specialize (Bh 0%nat (le_n 1)). inversion F2 as [|? ? ? ? [_ Bz] _]; subst. inversion Rh as [|? r ? ? [A _] _]; subst. inversion F1 as [|? ? ? ? [A' _] _]; subst. apply rep_iff in A; [| apply coprime_positive]. apply rep_iff in A'; [| apply coprime_positive]. pose proof p_M377. apply (eqm_small M377); [lia | lia |]. rewrite M377_eq. apply (rep_unique MODULI _ _ r); [apply coprime_377 | exact A | exact A']. }
  split.
  - destruct S as [Rh Bh]. specialize (Bh 0%nat (le_n 1)). rewrite H0 in Bh. split; [exact F1 | intros; exact Bh].
  - intros i Hi. replace i with 0%nat by lia. rewrite <- H0. apply (C 0%nat). lia.
Qed.
Lemma mul_any x y r1 r2 : rns_batch MODULI [x] [r1] -> rns_batch MODULI [y] [r2] ->
  exists c h, mod_mul_rns_377 [r1] [r2] = Some c /\ stands_for 1 (51000 * pp) (fun _ => h) c /\ ((h == (x * y) mod M377 [mod pp]) \/ (h == (x * y) mod M377 - M377 [mod pp])).
Proof.
  intros R1 R2. pose proof M377_pos as MP. destruct (mul_batch [x] [y] _ _ R1 R2 eq_refl) as (c' & Ec & Rc). rewrite unreduced_row in Ec. injection Ec as <-. cbn [map2] in Rc.
  assert (Rc' : rns_batch MODULI (mapn 1 (fun _ => (x * y) mod M377)) [prow RNS_MODULI_T r1 r2]).
  { cbn [mapn seq map]. inversion Rc as [|? ? ? ? [A W] _]; subst. constructor; [| constructor]. split; [| exact W]. apply rep_iff; [apply coprime_positive |]. apply rep_iff in A; [| apply coprime_positive].
    assert (D : forall m, In m MODULI -> (m | M377)) by (intros; rewrite M377_eq; apply in_divides_lprod; assumption). revert A D. generalize MODULI (prow RNS_MODULI_T r1 r2). intros ms r A D. unfold rep in *. induction A as [|m w ms r E A IH]; [constructor |]. constructor; [| apply IH; intros; apply D; right; assumption]. rewrite E. destruct (D m (or_introl eq_refl)) as [j Hj]. rewrite (Z.mod_eq (x * y) M377) by lia. set (q := x * y / M377). exists (j * q). rewrite Hj. ring. }
  destruct (mod_red_any 1 _ _ Rc') as (mat & r & h & EM & Er & Sr & Hr); [intros; apply Z.mod_pos_bound; exact MP |]. exists r, (h 0%nat). split; [unfold mod_mul_rns_377, RNS_MAT; rewrite EM; cbn [bind]; unfold mod_mul_rns_2u16; rewrite unreduced_row; exact Er |]. split; [| exact (Hr 0%nat (le_n 1))].
  destruct Sr as [A B]. split; [exact A | intros; apply (B 0%nat); lia].
Qed.

(** ** the two points and the integers their addition goes through *)
Definition X1 : Z := 341.
Definition Y1 : Z := 124631563726824730523131549154967035620372484531937163016568839677978324867194736173228268048069078824666443911897.
Definition X2 : Z := 397.
Definition Y2 : Z := 82606567574634562260422748982717213278805915196695178268418808457946439062887127655088014167927840502364960206437.
Definition XR : Z := 193845566266520476430881679860728603002785979784265388494470018644364162305604260695627324991672403885482224433767.
Definition YR : Z := 81690298720089914972978550243136369783910162337006248032413116601852295620318534954713506530842284805984492382400.
Definition ZA : Z := 1117430320376026486126019809561940064877219975101231333532300014720232423264832354387865596762956915737582188699460017.
Definition ZB : Z := 1899622847215455272882268033446015256168305278355212573464092998945107251966386009195589351300686952578056650781753344.
Definition ZE : Z := 2272147863212739843802899532275822367269154576337067395986669701421485716576215367950210519026147401024617646907628627.
Definition VB : Z := 16500111734089695341708545780832666373155943512407803549474658257842585988662261178405359774407496293013107142051566274404877436200884215795448908917392528704911947628202077170299105236063400336776457411635862898275570667446424717936295936.

Definition sum_row (ts r1 r2 : list Z) : list Z := map2 add_sub_word (map2 (fun x y => u32 (x + y)) r2 r1) ts.
Lemma sum_row_eq r1 r2 : sum_rns [[r1]; [r2]] = Some [sum_row RNS_MODULI_T r1 r2].
Proof. unfold sum_rns, add_sub_rns_var. cbn [length Nat.ltb Nat.leb negb fold_left]. rewrite (offsets_u8_ok MODULI RNS_MODULI_T offsets_377). reflexivity. Qed.
Definition values (ms ts : list Z) (v : list Z -> Z -> Z) : Z * Z * Z :=
  (v (prow ts (residues ms X1) (residues ms X2)) (X1 * X2), v (prow ts (residues ms Y1) (residues ms Y2)) (Y1 * Y2),
   v (prow ts (sum_row ts (residues ms X1) (residues ms Y1)) (sum_row ts (residues ms X2) (residues ms Y2))) ((X1 + Y1) * (X2 + Y2))).
Lemma values_literal : values MODULI_LITERAL RNS_MODULI_T_LITERAL (value_lit (lprod MODULI_LITERAL)) = (ZA, ZB, ZE).
Proof. vm_compute. reflexivity. Qed.
Lemma values_ok : red_value pp (prow RNS_MODULI_T (residues MODULI X1) (residues MODULI X2)) (X1 * X2) = ZA /\ red_value pp (prow RNS_MODULI_T (residues MODULI Y1) (residues MODULI Y2)) (Y1 * Y2) = ZB /\
  red_value pp (prow RNS_MODULI_T (sum_row RNS_MODULI_T (residues MODULI X1) (residues MODULI Y1)) (sum_row RNS_MODULI_T (residues MODULI X2) (residues MODULI Y2))) ((X1 + Y1) * (X2 + Y2)) = ZE.
Proof.
  pose proof values_literal as H. unfold values in H. rewrite <- !red_value_lit in H. destruct moduli_literal as [EM ET]. rewrite <- EM, <- ET in H. fold pp in H.
  apply pair_equal_spec in H. destruct H as [H H3]. apply pair_equal_spec in H. destruct H as [H1 H2]. split; [exact H1 |]. split; [exact H2 | exact H3].
Qed.

(** the zero word of the product of the y coordinates *)
Lemma vb_literal : (ZB mod 65536 =? 0) && (VB mod 65536 =? 0) && forallb (fun m => (VB - (102400 * pp - ZB)) mod m =? 0) (tl MODULI_LITERAL) && negb (ZA mod 65536 =? 0) = true.
Proof. vm_compute. reflexivity. Qed.
Lemma first_word z r : represents MODULI z r -> words16 r -> exists r', r = z mod 65536 :: r' /\ rep TAIL z r' /\ words16 r'.
Proof.
  intros R W. apply rep_iff in R; [| apply coprime_positive]. rewrite moduli_cons in R. inversion R as [|? w ? r' E R']; subst. apply Forall_cons_iff in W. destruct W as [Bw W]. exists r'. split; [| split; assumption]. f_equal. change (2 ^ 16) with 65536 in Bw. apply eqm_mod_iff in E; [| lia]. rewrite Z.mod_small in E by lia. exact E.
Qed.
Lemma tail_eq : TAIL = tl MODULI_LITERAL.
Proof. destruct moduli_literal as [EM _]. rewrite <- EM, moduli_cons. reflexivity. Qed.
Lemma neg_b b : stands_for 1 (51000 * pp) (fun _ => ZB) b -> clean 1 (fun _ => ZB) b -> opn 1 2 (fun _ => VB) (neg_rns_zc b).
Proof.
  intros S C. pose proof (stands_length _ _ _ _ S) as L. destruct b as [|r [|? ?]]; try discriminate L. destruct S as [R _]. cbn [seq map] in R. inversion R as [|? ? ? ? [Rr Wr] _]; subst. clear R L.
  pose proof vb_literal as K. apply andb_prop in K. destruct K as [K _]. apply andb_prop in K. destruct K as [K K3]. apply andb_prop in K. destruct K as [K1 K2]. apply Z.eqb_eq in K1, K2. rewrite forallb_forall in K3. rewrite <- tail_eq in K3.
  destruct (first_word _ _ Rr Wr) as (r' & -> & Rt & Wt). rewrite K1 in *. destruct (C 0%nat (le_n 1)) as [[Z0 _] | [_ NZ]]; [discriminate Z0 |]. cbn [nth] in NZ.
  destruct offsets_cons as (ts & ET & FT). rewrite ET in NZ. inversion NZ as [|? ? ? ? _ NZ']; subst. pose proof offsets_377 as HO. rewrite ET, moduli_cons in HO. inversion HO as [|? ? ? ? _ HO']; subst. pose proof subs_377 as HS. rewrite moduli_cons in HS.
  unfold opn, operand, neg_rns_zc, negate_rns_for_var_add_zero_check. revert HS. generalize MODULI_SUB as SUBS. intros SUBS HS. inversion HS as [|? s ? subs [Hs Es] HS']; subst.
  destruct (negate_zc_tail TAIL ts subs ZB r' HO' FT HS' Rt Wt NZ') as [N1 N2]. cbn [mapn seq map map2]. constructor; [| constructor].
  assert (E0 : negate_word_zero_check 0 s = 0) by (unfold negate_word_zero_check; cbn [Z.eqb]; rewrite Z.mul_0_r; reflexivity). rewrite E0. split; [| constructor; [change (2 ^ 16) with 65536; lia | exact N2]].
  apply rep_iff; [apply coprime_positive |]. rewrite moduli_cons. constructor; [apply eqm_mod_iff; [lia |]; rewrite K2; reflexivity |].
  assert (PT : Forall (fun m => 0 < m) TAIL) by (pose proof coprime_positive as CP; rewrite moduli_cons in CP; inversion CP; assumption). clear - N1 K3 PT. revert N1. generalize (map2 negate_word_zero_check r' subs) as w. revert K3 PT. generalize TAIL as ms. intros ms K P w R. unfold rep in *. induction R as [|m d ms w E R IH]; [constructor |]. rewrite Forall_cons_iff in P. destruct P as [Pm P]. constructor; [| apply IH; [intros; apply K; right; assumption | exact P]].
  rewrite E. specialize (K m (or_introl eq_refl)). apply Z.eqb_eq in K. apply Z.mod_divide in K; [| lia]. rewrite B377_eq. destruct K as [j Hj]. exists (- j). lia.
Qed.
Lemma neg_a a : stands_for 1 (51000 * pp) (fun _ => ZA) a -> clean 1 (fun _ => ZA) a -> opn 1 2 (fun _ => neg_zc_val ZA) (neg_rns_zc a).
Proof.
  intros S C. refine (neg_zc_step 1 _ (fun _ => ZA) a S C _). pose proof (stands_length _ _ _ _ S) as L. destruct a as [|r [|? ?]]; try discriminate L. destruct S as [R _]. cbn [seq map] in R. inversion R as [|? ? ? ? [Rr Wr] _]; subst.
  destruct (first_word _ _ Rr Wr) as (r' & -> & _). constructor; [| constructor]. right. cbn [nth]. pose proof vb_literal as K. apply andb_prop in K. destruct K as [_ K]. apply negb_true_iff, Z.eqb_neq in K. exact K.
Qed.

(** what the t coordinate comes to, and what it should be: x times the y coordinate *)
Definition T_GOT (M : Z) : Z := ((ZE + (102400 * pp - ZA) + VB) * (ZA + ZB)) mod M.
Definition T_WANT : Z := XR * ((1 + X1 * Y1 * (X2 * Y2) * TWIST_D_INT) * (X1 * X2 + Y1 * Y2)).
Lemma mismatch_literal : negb ((T_GOT (lprod MODULI_LITERAL) - T_WANT) mod pp =? 0) && negb ((T_GOT (lprod MODULI_LITERAL) - lprod MODULI_LITERAL - T_WANT) mod pp =? 0) = true.
Proof. vm_compute. reflexivity. Qed.

Definition witness1 : coords := (lane1 X1, lane1 Y1, lane1 1, lane1 (X1 * Y1 mod pp)).
Definition witness2 : coords := (lane1 X2, lane1 Y2, lane1 1, lane1 (X2 * Y2 mod pp)).
Lemma small_values : (0 <= X1 < pp /\ 0 <= Y1 < pp) /\ (0 <= X2 < pp /\ 0 <= Y2 < pp).
Proof. repeat split; discriminate. Qed.
Lemma witness_packed : packed_rns 1 pp pp (Lanes (fun _ => X1) (fun _ => Y1) (fun _ => 1) (fun _ => X1 * Y1 mod pp)) witness1 /\ packed_rns 1 pp pp (Lanes (fun _ => X2) (fun _ => Y2) (fun _ => 1) (fun _ => X2 * Y2 mod pp)) witness2.
Proof.
  destruct small_values as [[A B] [C D]]. pose proof pp_pos as P0. assert (P1 : 1 < pp) by reflexivity. unfold packed_rns, witness1, witness2. cbn [lx ly lz lt]. repeat match goal with |- _ /\ _ => split end; apply lane1_stands; try assumption; try lia; apply Z.mod_pos_bound; exact P0.
Qed.

Lemma of_Z_mod z : @of_Z p377 (z mod pp) = of_Z z.
Proof. apply of_Z_eq. change (Zpos p377) with pp. apply eqm_mod. Qed.
Section Run.
Variable mul : batch -> batch -> option batch.
Variable sum : list batch -> option batch.
Variable negz : batch -> batch.
Variable td : list Z.
Variables x1 y1 t1 x2 y2 t2 one : batch.
Variables vt1 vt2 za zb ze vb M : Z.
Hypothesis Hmul : forall f g a b, stands_for 1 (468000 * pp) f a -> stands_for 1 (468000 * pp) g b ->
  exists c h, mul a b = Some c /\ stands_for 1 (51000 * pp) h c /\ forall i, (i < 1)%nat -> @of_Z p377 (h i) = f_mul (of_Z (f i)) (of_Z (g i)).
Hypothesis Hany : forall x y B1 B2 a b, stands_for 1 B1 (fun _ => x) a -> stands_for 1 B2 (fun _ => y) b ->
  exists c h, mul a b = Some c /\ stands_for 1 (51000 * pp) (fun _ => h) c /\ ((h == (x * y) mod M [mod pp]) \/ (h == (x * y) mod M - M [mod pp])).
Hypothesis Hstack : forall la lb lc, muls mul 1 la lb lc -> mul (vstack la) (vstack lb) = Some (vstack lc).
Hypothesis Hsum2 : forall B w1 w2 f g a b, opn 1 w1 f a -> opn 1 w2 g b -> 1 <= w1 <= 2 -> 1 <= w2 <= 2 -> (forall i, (i < 1)%nat -> 0 <= f i + g i < B) ->
  exists c, sum [a; b] = Some c /\ stands_for 1 B (fun i => f i + g i) c.
Hypothesis Hsum3 : forall B w1 w2 w3 f g h a b d, opn 1 w1 f a -> opn 1 w2 g b -> opn 1 w3 h d -> 1 <= w1 <= 2 -> 1 <= w2 <= 2 -> 1 <= w3 <= 2 -> (forall i, (i < 1)%nat -> 0 <= f i + g i + h i < B) ->
  exists c, sum [a; b; d] = Some c /\ stands_for 1 B (fun i => f i + g i + h i) c.
Hypothesis Hneg : forall B f a, stands_for 1 B f a -> exists g, opn 1 2 g (negz a) /\ forall i, 0 <= g i.
Hypothesis Htd : represents MODULI TWIST_D_INT td /\ words16 td.
Hypothesis H1 : stands_for 1 (468000 * pp) (fun _ => 1) one.
Hypothesis HT1 : stands_for 1 (468000 * pp) (fun _ => vt1) t1.
Hypothesis HT2 : stands_for 1 (468000 * pp) (fun _ => vt2) t2.
Hypothesis HL : (length x1 = 1 /\ length y1 = 1 /\ length x2 = 1 /\ length y2 = 1)%nat.
Hypothesis HA : exists a, mul x1 x2 = Some a /\ stands_for 1 (51000 * pp) (fun _ => za) a /\ opn 1 2 (fun _ => 102400 * pp - za) (negz a).
Hypothesis HB : exists b, mul y1 y2 = Some b /\ stands_for 1 (51000 * pp) (fun _ => zb) b /\ opn 1 2 (fun _ => vb) (negz b).
Hypothesis HE : exists e1 e2 e3, length e1 = 1%nat /\ length e2 = 1%nat /\ sum [x1; y1] = Some e1 /\ sum [x2; y2] = Some e2 /\ mul e1 e2 = Some e3 /\ stands_for 1 (51000 * pp) (fun _ => ze) e3.
Hypothesis PZ : 0 <= ze + (102400 * pp - za) + vb.
Hypothesis PH : 0 <= za + zb < 468000 * pp.
Lemma run_gen : exists v3 p3, padd_twisted_with mul sum negz td (x1, y1, one, t1) (x2, y2, one, t2) = Some p3 /\ packed_rns 1 (51000 * pp) (51000 * pp) v3 p3 /\
  @of_Z p377 (ly v3 0%nat) = f_mul (f_add (of_Z 1) (f_mul (f_mul (of_Z vt1) (of_Z vt2)) (of_Z TWIST_D_INT))) (f_add (of_Z za) (of_Z zb)) /\
  ((lt v3 0%nat == ((ze + (102400 * pp - za) + vb) * (za + zb)) mod M [mod pp]) \/ (lt v3 0%nat == ((ze + (102400 * pp - za) + vb) * (za + zb)) mod M - M [mod pp])).
Proof.
  pose proof pp_pos as P0. destruct HA as (a & Ea & Sa & Na), HB as (b & Eb & Sb & Nb), HE as (e1 & e2 & e3 & Le1 & Le2 & Ee1 & Ee2 & Ee3 & Se3), HL as (Lx1 & Ly1 & Lx2 & Ly2).
  destruct (Hmul _ _ _ _ H1 H1) as (d & fd & Ed & Sd & Vd). destruct (Hmul _ _ _ _ HT1 HT2) as (c0 & fc0 & Ec0 & Sc0 & Vc0).
  pose proof (broadcast_stands 1 c0 td TWIST_D_INT (stands_length _ _ _ _ Sc0) (proj1 Htd) (proj2 Htd) twist_small) as TD.
  destruct (Hmul _ _ _ _ (stands_mono 1 (51000 * pp) (468000 * pp) _ _ ltac:(lia) Sc0) (stands_mono 1 (51000 * pp) (468000 * pp) _ _ ltac:(lia) TD)) as (c & fc & Ec & Sc & Vc).
  destruct (Hneg _ _ _ Sc) as (nc & Nc & Pc).
  destruct (Hsum3 (ze + (102400 * pp - za) + vb + 1) 1 2 2 _ _ _ _ _ _ (opn_stands _ _ _ _ Se3) Na Nb ltac:(lia) ltac:(lia) ltac:(lia) ltac:(intros; lia)) as (e & Ee & Se).
  pose proof (proj2 Sd 0%nat (le_n 1)) as Bd. pose proof (proj2 Sc 0%nat (le_n 1)) as Bc.
  destruct (Hsum2 (fd 0%nat + nc 0%nat + 1) 1 2 _ _ _ _ (opn_stands _ _ _ _ Sd) Nc ltac:(lia) ltac:(lia)) as (f & Ef & Sf). { intros i Hi. replace i with 0%nat by lia. specialize (Pc 0%nat). lia. }
  destruct (Hsum2 (468000 * pp) 1 1 _ _ _ _ (opn_stands _ _ _ _ Sd) (opn_stands _ _ _ _ Sc) ltac:(lia) ltac:(lia)) as (g & Eg & Sg). { intros i Hi. replace i with 0%nat by lia. lia. }
  destruct (Hsum2 (468000 * pp) 1 1 _ _ _ _ (opn_stands _ _ _ _ Sa) (opn_stands _ _ _ _ Sb) ltac:(lia) ltac:(lia) ltac:(intros; lia)) as (h & Eh & Sh).
  assert (Sf' : stands_for 1 (fd 0%nat + nc 0%nat + 1) (fun _ => fd 0%nat + nc 0%nat) f) by (destruct Sf as [R B]; split; [exact R | intros i Hi; exact (B 0%nat (le_n 1))]).
  assert (Sg' : stands_for 1 (468000 * pp) (fun _ => fd 0%nat + fc 0%nat) g) by (destruct Sg as [R B]; split; [exact R | intros i Hi; exact (B 0%nat (le_n 1))]).
  destruct (Hany _ _ _ _ e f Se Sf') as (x3 & hx & Ex3 & Sx3 & _). destruct (Hmul _ _ g h Sg Sh) as (y3 & hy & Ey3 & Sy3 & Vy3). destruct (Hany _ _ _ _ f g Sf' Sg') as (z3 & hz & Ez3 & Sz3 & _). destruct (Hany _ _ _ _ e h Se Sh) as (t3 & ht & Et3 & St3 & Vt3).
  exists (Lanes (fun _ => hx) hy (fun _ => hz) (fun _ => ht)), (x3, y3, z3, t3). split; [| split; [| split]].
  - unfold padd_twisted_with.
    assert (M1 : muls mul 1 [x1; y1; one; t1] [x2; y2; one; t2] [a; b; d; c0]) by (repeat (apply muls_cons; [solve [assumption | eapply stands_length; eassumption] | solve [assumption | eapply stands_length; eassumption] | eapply stands_length; eassumption | assumption |]); apply muls_nil).
    pose proof (muls_split _ _ _ _ _ M1 ltac:(discriminate)) as Q1. cbn [length] in Q1. rewrite (Hstack _ _ _ M1). cbn [bind]. rewrite Q1. cbn [bind]. rewrite Ee1, Ee2. cbn [bind].
    assert (M2 : muls mul 1 [e1; c0] [e2; broadcast c0 td] [e3; c]) by (repeat (apply muls_cons; [solve [assumption | eapply stands_length; eassumption] | solve [assumption | eapply stands_length; eassumption] | eapply stands_length; eassumption | assumption |]); apply muls_nil).
    pose proof (muls_split _ _ _ _ _ M2 ltac:(discriminate)) as Q2. cbn [length] in Q2. match goal with |- context [ mul (vstack ?u) (vstack ?v)] => rewrite (Hstack u v [e3; c] M2) end. cbn [bind]. rewrite Q2. cbn [bind]. rewrite Ee. cbn [bind]. rewrite Ef. cbn [bind]. rewrite Eg. cbn [bind]. rewrite Eh. cbn [bind].
    assert (M3 : muls mul 1 [e; g; f; e] [f; h; g; h] [x3; y3; z3; t3]) by (repeat (apply muls_cons; [solve [assumption | eapply stands_length; eassumption] | solve [assumption | eapply stands_length; eassumption] | eapply stands_length; eassumption | assumption |]); apply muls_nil).
    pose proof (muls_split _ _ _ _ _ M3 ltac:(discriminate)) as Q3. cbn [length] in Q3. match goal with |- context [ mul (vstack ?u) (vstack ?v)] => rewrite (Hstack u v [x3; y3; z3; t3] M3) end. cbn [bind]. rewrite Q3. reflexivity.
  - cbn [lx ly lz lt]. split; [exact Sx3 |]. split; [exact Sy3 |]. split; [exact Sz3 | exact St3].
  - cbn [ly]. rewrite (Vy3 0%nat (le_n 1)). rewrite <- !of_Z_add. rewrite (Vd 0%nat (le_n 1)), (Vc 0%nat (le_n 1)), (Vc0 0%nat (le_n 1)). ring.
  - cbn [lt]. exact Vt3.
Qed.
End Run.

Notation D377 := (@of_Z p377 TWIST_D_INT).
Definition point1 : F377 * F377 := (of_Z X1, of_Z Y1).
Definition point2 : F377 * F377 := (of_Z X2, of_Z Y2).
Definition point3 : F377 * F377 := (of_Z XR, of_Z YR).
Lemma points_ok : on_edwards D377 point1 /\ on_edwards D377 point2 /\ edwards_add D377 point1 point2 point3.
Proof.
  assert (NE : forall x y : F377, val x <> val y -> x <> y) by (intros x y H E; apply H; rewrite E; reflexivity).
  split; [apply val_inj; vm_compute; reflexivity |]. split; [apply val_inj; vm_compute; reflexivity |].
  apply ed_add; [apply NE; vm_compute; discriminate | apply NE; vm_compute; discriminate | apply val_inj; vm_compute; reflexivity | apply val_inj; vm_compute; reflexivity].
Qed.
Lemma lane1_rows x : 0 <= x < pp -> stands_for 1 (468000 * pp) (fun _ => x) (lane1 x).
Proof. intros H. pose proof pp_pos. apply lane1_stands. lia. Qed.
Lemma mul_step_1 f g a b : stands_for 1 (468000 * pp) f a -> stands_for 1 (468000 * pp) g b ->
  exists c h, mod_mul_rns_377 a b = Some c /\ stands_for 1 (51000 * pp) h c /\ forall i, (i < 1)%nat -> @of_Z p377 (h i) = f_mul (of_Z (f i)) (of_Z (g i)).
Proof. intros Sa Sb. destruct (mul_step 1 f g a b Sa Sb) as (c & h & E & S & _ & V). exists c, h. split; [exact E |]. split; [exact S |]. intros i Hi. exact (proj1 (V i Hi)). Qed.
Lemma mul_any_1 x y B1 B2 a b : stands_for 1 B1 (fun _ => x) a -> stands_for 1 B2 (fun _ => y) b ->
  exists c h, mod_mul_rns_377 a b = Some c /\ stands_for 1 (51000 * pp) (fun _ => h) c /\ ((h == (x * y) mod M377 [mod pp]) \/ (h == (x * y) mod M377 - M377 [mod pp])).
Proof.
  intros Sa Sb. pose proof (stands_length _ _ _ _ Sa) as La. pose proof (stands_length _ _ _ _ Sb) as Lb. destruct a as [|ra [|? ?]]; try discriminate La. destruct b as [|rb [|? ?]]; try discriminate Lb. exact (mul_any x y ra rb (proj1 Sa) (proj1 Sb)).
Qed.
Lemma product_a : exists a, mod_mul_rns_377 (lane1 X1) (lane1 X2) = Some a /\ stands_for 1 (51000 * pp) (fun _ => ZA) a /\ opn 1 2 (fun _ => 102400 * pp - ZA) (neg_rns_zc a).
Proof.
  destruct values_ok as (VA & _). destruct small_values as [[B1 _] [B2 _]]. pose proof pp_pos as P0. destruct (mul_exact X1 X2 (residues MODULI X1) (residues MODULI X2) (residues_batch [X1]) (residues_batch [X2]) ltac:(lia) ltac:(lia)) as (a & Ea & Sa & Ca). rewrite VA in Sa, Ca. exists a. split; [exact Ea |]. split; [exact Sa |].
  assert (E : neg_zc_val ZA = 102400 * pp - ZA) by (unfold neg_zc_val; change (ZA =? 0) with false; cbn iota; rewrite B377_eq; reflexivity). rewrite <- E. exact (neg_a a Sa Ca).
Qed.
Lemma product_b : exists b, mod_mul_rns_377 (lane1 Y1) (lane1 Y2) = Some b /\ stands_for 1 (51000 * pp) (fun _ => ZB) b /\ opn 1 2 (fun _ => VB) (neg_rns_zc b).
Proof.
  destruct values_ok as (_ & VBB & _). destruct small_values as [[_ B1] [_ B2]]. pose proof pp_pos as P0. destruct (mul_exact Y1 Y2 (residues MODULI Y1) (residues MODULI Y2) (residues_batch [Y1]) (residues_batch [Y2]) ltac:(lia) ltac:(lia)) as (b & Eb & Sb & Cb). rewrite VBB in Sb, Cb. exists b. split; [exact Eb |]. split; [exact Sb | exact (neg_b b Sb Cb)].
Qed.
Lemma sum_lanes x y : 0 <= x < pp -> 0 <= y < pp -> sum_rns [lane1 x; lane1 y] = Some [sum_row RNS_MODULI_T (residues MODULI x) (residues MODULI y)] /\ rns_batch MODULI [x + y] [sum_row RNS_MODULI_T (residues MODULI x) (residues MODULI y)].
Proof.
  intros Hx Hy. assert (E : sum_rns [lane1 x; lane1 y] = Some [sum_row RNS_MODULI_T (residues MODULI x) (residues MODULI y)]) by exact (sum_row_eq _ _). split; [exact E |].
  destruct (sum2_step 1 (468000 * pp) 1 1 (fun _ => x) (fun _ => y) (lane1 x) (lane1 y) (opn_stands _ _ _ _ (lane1_rows x Hx)) (opn_stands _ _ _ _ (lane1_rows y Hy)) ltac:(lia) ltac:(lia) ltac:(intros; lia)) as (c & E' & R & _). assert (EC : Some c = Some [sum_row RNS_MODULI_T (residues MODULI x) (residues MODULI y)]) by (rewrite <- E'; exact E). injection EC as ->. exact R.
Qed.
Lemma product_e : exists e1 e2 e3, length e1 = 1%nat /\ length e2 = 1%nat /\ sum_rns [lane1 X1; lane1 Y1] = Some e1 /\ sum_rns [lane1 X2; lane1 Y2] = Some e2 /\ mod_mul_rns_377 e1 e2 = Some e3 /\ stands_for 1 (51000 * pp) (fun _ => ZE) e3.
Proof.
  destruct values_ok as (_ & _ & VE). destruct small_values as [[B1 B2] [B3 B4]]. pose proof pp_pos as P0. destruct (sum_lanes X1 Y1 B1 B2) as [E1 R1]. destruct (sum_lanes X2 Y2 B3 B4) as [E2 R2].
  destruct (mul_exact (X1 + Y1) (X2 + Y2) _ _ R1 R2 ltac:(lia) ltac:(lia)) as (e3 & Ee & Se & _). rewrite VE in Se. eexists. eexists. exists e3. split; [| split; [| split; [exact E1 | split; [exact E2 | split; [exact Ee | exact Se]]]]]; reflexivity.
Qed.
Lemma range_a : 0 <= ZE + (102400 * pp - ZA) + VB. Proof. vm_compute. discriminate. Qed.
Lemma range_b : 0 <= ZA + ZB < 468000 * pp. Proof. split; [vm_compute; discriminate | vm_compute; reflexivity]. Qed.
Lemma mod_range x : 0 <= x mod pp < pp. Proof. apply Z.mod_pos_bound. reflexivity. Qed.
Lemma run : exists v3 p3, padd_rns_twisted witness1 witness2 = Some p3 /\ packed_rns 1 (51000 * pp) (51000 * pp) v3 p3 /\
  @of_Z p377 (ly v3 0%nat) = f_mul (f_add (of_Z 1) (f_mul (f_mul (of_Z (X1 * Y1 mod pp)) (of_Z (X2 * Y2 mod pp))) (of_Z TWIST_D_INT))) (f_add (of_Z ZA) (of_Z ZB)) /\
  ((lt v3 0%nat == T_GOT M377 [mod pp]) \/ (lt v3 0%nat == T_GOT M377 - M377 [mod pp])).
Proof.
  rewrite padd_twisted_rns_eq. unfold witness1, witness2, T_GOT.
  apply (run_gen mod_mul_rns_377 sum_rns neg_rns_zc TWIST_D_RNS (lane1 X1) (lane1 Y1) (lane1 (X1 * Y1 mod pp)) (lane1 X2) (lane1 Y2) (lane1 (X2 * Y2 mod pp)) (lane1 1) (X1 * Y1 mod pp) (X2 * Y2 mod pp) ZA ZB ZE VB M377 mul_step_1 mul_any_1 (muls_stack 1) (sum2_step 1) (sum3_step 1) (any_neg_zc 1) twist_rns).
  - apply lane1_rows. split; [discriminate | reflexivity].
  - apply lane1_rows, mod_range.
  - apply lane1_rows, mod_range.
  - repeat split.
  - exact product_a.
  - exact product_b.
  - exact product_e.
  - exact range_a.
  - exact range_b.
Qed.
Lemma wanted : f_mul (of_Z XR) (f_mul (f_add (of_Z 1) (f_mul (f_mul (of_Z (X1 * Y1 mod pp)) (of_Z (X2 * Y2 mod pp))) (of_Z TWIST_D_INT))) (f_add (of_Z ZA) (of_Z ZB))) = @of_Z p377 T_WANT.
Proof. apply val_inj. vm_compute. reflexivity. Qed.
Lemma mismatch t : (t == T_GOT M377 [mod pp]) \/ (t == T_GOT M377 - M377 [mod pp]) -> @of_Z p377 t <> of_Z T_WANT.
Proof.
  intros H E. apply of_Z_eq in E. change (Zpos p377) with pp in E. pose proof mismatch_literal as K. rewrite <- M377_literal in K. apply andb_true_iff in K. destruct K as [K1 K2]. apply negb_true_iff, Z.eqb_neq in K1, K2. pose proof pp_pos as P0.
  destruct H as [H | H]; rewrite H in E; [apply K1 | apply K2]; apply Z.mod_divide; try lia; exact E.
Qed.

(** FINDING. Two points of the curve in exact affine form (x, y, 1, xy), every residue fully reduced: their batched sum is returned in the
    usual range but does not stand for their sum. *)
Theorem C53_padd_rns_twisted_refuted : exists (P Q R : F377 * F377) v1 v2 p1 p2 v3 p3,
  on_edwards (of_Z TWIST_D_INT) P /\ on_edwards (of_Z TWIST_D_INT) Q /\ edwards_add (of_Z TWIST_D_INT) P Q R /\
  packed_rns 1 MODULUS_377_INT MODULUS_377_INT v1 p1 /\ extended_point P (lane_int_point PROJECTIVE v1 0) /\
  packed_rns 1 MODULUS_377_INT MODULUS_377_INT v2 p2 /\ extended_point Q (lane_int_point PROJECTIVE v2 0) /\
  padd_rns_twisted p1 p2 = Some p3 /\ packed_rns 1 (51000 * MODULUS_377_INT) (51000 * MODULUS_377_INT) v3 p3 /\ ~ extended_point R (lane_int_point PROJECTIVE v3 0).
Proof.
  destruct points_ok as (O1 & O2 & O3). destruct witness_packed as [W1 W2]. destruct run as (v3 & p3 & E & S & VY & VT).
  exists point1, point2, point3, (Lanes (fun _ => X1) (fun _ => Y1) (fun _ => 1) (fun _ => X1 * Y1 mod pp)), (Lanes (fun _ => X2) (fun _ => Y2) (fun _ => 1) (fun _ => X2 * Y2 mod pp)), witness1, witness2, v3, p3.
  assert (AF : forall x y, extended_point (of_Z x, of_Z y : F377) (lane_int_point PROJECTIVE (Lanes (fun _ => x) (fun _ => y) (fun _ => 1) (fun _ => x * y mod pp)) 0)).
  { intros x y. unfold lane_int_point. cbn [lx ly lz lt]. eexists. split; [reflexivity |]. rewrite Z.mod_mod by discriminate.
    change (x mod pp) with (val (@of_Z p377 x)). change (y mod pp) with (val (@of_Z p377 y)). change (1 mod pp) with (val (@of_Z p377 1)). change ((x * y) mod pp) with (val (@of_Z p377 (x * y))). change pp with (Zpos p377). apply extended_el; cbn [fst snd].
    - intros H. apply (f_equal val) in H. vm_compute in H. discriminate H.
    - ring.
    - ring.
    - rewrite <- of_Z_mul. ring. }
  split; [exact O1 |]. split; [exact O2 |]. split; [exact O3 |]. split; [exact W1 |]. split; [apply AF |]. split; [exact W2 |]. split; [apply AF |]. split; [exact E |]. split; [exact S |].
  assert (Hp : prime (Zpos p377)) by exact prime_377.
  intros (c & Ec & X & Y & Z & T & F & NZ & EX & EY & ET). unfold lane_int_point in Ec. cbn [pt_coords] in Ec. injection Ec as <-. inversion F as [|? ? ? ? _ F1]; subst. inversion F1 as [|? ? ? ? LY F2]; subst. inversion F2 as [|? ? ? ? _ F3]; subst. inversion F3 as [|? ? ? ? LT _]; subst. destruct LY as [_ LY], LT as [_ LT]. cbn [fe_value] in LY, LT. rewrite of_Z_mod in LY, LT.
  apply (mismatch _ VT). rewrite <- wanted, <- VY, LY, LT. change (of_Z XR) with (fst point3). change (of_Z YR) with (snd point3).
  destruct (mul_zero p377 Hp (f_sub T (f_mul (fst point3) (f_mul (snd point3) Z))) Z) as [H | H].
  - transitivity (f_sub (f_mul T Z) (f_mul (f_mul (fst point3) Z) (f_mul (snd point3) Z))); [ring |]. rewrite ET. ring.
  - transitivity (f_add (f_sub T (f_mul (fst point3) (f_mul (snd point3) Z))) (f_mul (fst point3) (f_mul (snd point3) Z))); [ring |]. rewrite H. ring.
  - contradiction NZ.
Qed.
Print Assumptions C53_padd_rns_twisted_refuted.
