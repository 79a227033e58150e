(** The constants of the RNS reduction: their floating-point quotient estimates are exact, and their values for the 377-bit
    prime are checked against literals by multiplications only (cheap for the kernel, unlike the divisions that define them). *)
From Coq Require Import ZArith List Bool Lia.
From Verif Require Import Base.ZSum Base.Word Base.Bits Base.Lists Base.Modeq Base.Crt Base.Egcd Base.Fermat.
From Verif Require Import Ckks.Model_barrett Ckks.Model_rns_utils Ckks.Prop_crt Ec.Model_util Ec.Spec_rns377 Ec.Prop_util Ec.Proof_rns377.
Import ListNotations.
Local Open Scope Z_scope.

(** ** the constants: the floating-point ceiling is exact *)
Lemma rne_near num den : 0 < den -> 2 * Z.abs (den * rne num den - num) <= den.
Proof.
  intros H. unfold rne. pose proof (Z.div_mod num den ltac:(lia)). pose proof (Z.mod_pos_bound num den H). destruct (Z.ltb_spec (2 * (num mod den)) den); [lia |]. destruct (Z.ltb_spec den (2 * (num mod den))); [lia |]. destruct (Z.even _); lia.
Qed.
Lemma float_ceildiv_exact a b : 0 <= a < 2 ^ 16 * b -> a mod b = 0 \/ b <= 2 ^ 16 * (a mod b) -> a <= float_ceildiv a b * b < a + b.
Proof.
  intros Ha Hm. assert (Hb : 0 < b) by (change (2 ^ 16) with 65536 in Ha; lia). unfold float_ceildiv. destruct (Z.leb_spec a 0); [lia |]. cbv zeta.
  assert (E0 : Z.log2 a - Z.log2 b <= 16). { assert (Z.log2 a <= Z.log2 (2 ^ 16 * b)) by (apply Z.log2_le_mono; lia). rewrite Z.mul_comm, Z.log2_mul_pow2 in H0 by lia. lia. }
  set (e0 := Z.log2 a - Z.log2 b) in *. match goal with |- context [52 - ?f] => set (fl := f) end. assert (FL : fl <= 16) by (unfold fl; destruct (if 0 <=? e0 then _ else _); lia). clearbody fl. clear e0 E0.
  set (e := 52 - fl). assert (PE : 2 ^ 18 <= 2 ^ e) by (apply Z.pow_le_mono_r; unfold e; lia). change (2 ^ 18) with 262144 in PE. set (P := 2 ^ e) in *. clearbody P. clear e fl FL. change (2 ^ 16) with 65536 in *.
  pose proof (rne_near (a * P) b Hb) as RN. set (r := rne (a * P) b) in *. clearbody r. pose proof (Z.div_mod a b ltac:(lia)) as DM. pose proof (Z.mod_pos_bound a b Hb) as MB. set (k := a / b) in *. set (f := a mod b) in *. clearbody k f.
  set (c := - ((- r) / P)). assert (CE : (c - 1) * P < r <= c * P). { unfold c. pose proof (Z.div_mod (- r) P ltac:(lia)). pose proof (Z.mod_pos_bound (- r) P ltac:(lia)). nia. } clearbody c.
  destruct Hm as [-> | Hf].
  - assert (a = b * k) by lia. subst a. assert (r = k * P) by nia. assert (c = k) by nia. nia.
  - assert (F1 : k * P < r) by nia. assert (F2 : r <= (k + 1) * P) by nia. assert (c = k + 1) by nia. subst c. nia.
Qed.

Lemma estimates_exact ms pre : coprime_moduli ms -> Forall (fun m => 0 < m <= 2 ^ 16) ms -> rns_precompute ms = Some pre ->
  Forall (fun S => 0 <= float_ceildiv (S * 2 ^ 16) (lprod ms) < 65536 /\ S * 2 ^ 16 <= float_ceildiv (S * 2 ^ 16) (lprod ms) * lprod ms < S * 2 ^ 16 + lprod ms) (shifted_of (lprod ms) pre).
Proof.
  intros HC HR Hp. destruct (icrt_ok ms HC) as (p & Ep & Lp & Hh). rewrite Hp in Ep. injection Ep as <-. apply Forall_forall. intros S HS. unfold shifted_of in HS. apply in_flat_map in HS. destruct HS as (f & Hf & HS). apply in_map_iff in HS. destruct HS as (j & ES & _).
  apply (In_nth _ _ 0) in Hf. destruct Hf as (i & Hi & <-). rewrite Lp in Hi. destruct (Hh i Hi) as (Bf & c & Ec & _). pose proof (hat_pos ms i (proj1 HC)) as HP. pose proof (hat_mul ms i Hi) as HM.
  assert (PM : 0 < nth i ms 0 <= 65536) by (rewrite Forall_forall in HR; apply (HR _ (nth_In ms 0 Hi))). set (h := hat ms i) in *. set (m := nth i ms 0) in *. set (M := lprod ms) in *.
  assert (V : exists v, S = h * v /\ 0 <= v < m).
  { exists ((Z.shiftl 1 (8 * Z.of_nat j) * c) mod m). split; [| apply Z.mod_pos_bound; lia]. rewrite <- ES. rewrite <- Z.mul_mod_distr_l by lia. rewrite (Z.mul_comm h m), <- HM. apply eqm_mod_iff; [nia |]. rewrite Ec. apply eqm_eq. ring. }
  destruct V as (v & -> & Hv). clear ES Bf Ec HC HR Hp Lp Hh Hi. clearbody h m M. subst M.
  assert (X : h * v * 2 ^ 16 <= float_ceildiv (h * v * 2 ^ 16) (m * h) * (m * h) < h * v * 2 ^ 16 + m * h).
  { apply float_ceildiv_exact; [change (2 ^ 16) with 65536; nia |]. rewrite <- Z.mul_assoc. rewrite (Z.mul_comm m h). rewrite Z.mul_mod_distr_l by lia. pose proof (Z.mod_pos_bound (v * 2 ^ 16) m ltac:(lia)) as B. set (w := (v * 2 ^ 16) mod m) in *. clearbody w. change (2 ^ 16) with 65536. destruct (Z.eq_dec w 0) as [-> | N]; [left; ring | right; nia]. }
  set (q := float_ceildiv _ _) in *. clearbody q. split; [| exact X]. change (2 ^ 16) with 65536 in *. assert (0 < m * h) by nia. split; [| ]; nia.
Qed.

(** ** literal values: for a modulus m with cofactor rest = M / m,
    inv is the inverse of rest modulo m, v1 = 256 inv modulo m, h = rest modulo p, s0 = rest inv modulo p, s1 = rest v1 modulo p *)
Record cert := Cert { rest : Z; inv : Z; v1 : Z; qh : Z; h : Z; q0 : Z; s0 : Z; q1 : Z; s1 : Z }.
Definition cert_ok (M p m : Z) (c : cert) : bool :=
  (0 <? m) && (rest c * m =? M) && match inverse (rest c mod m) m with Some i => i =? inv c | None => false end && ((256 * inv c) mod m =? v1 c) &&
  (rest c =? qh c * p + h c) && (h c * inv c =? q0 c * p + s0 c) && (h c * v1 c =? q1 c * p + s1 c) && (0 <=? s0 c) && (s0 c <? p) && (0 <=? s1 c) && (s1 c <? p).
Definition shifted_lit (cs : list cert) : list Z := flat_map (fun c => [rest c * inv c; rest c * v1 c]) cs.
Definition shifted_mod_lit (cs : list cert) : list Z := flat_map (fun c => [s0 c; s1 c]) cs.
Lemma mod_cert a b p q s : a = q * p + s -> 0 <= s < p -> (a == b [mod p]) -> b mod p = s.
Proof. intros -> Hs E. apply eqm_mod_iff in E; [| lia]. rewrite <- E. symmetry. apply (Z.mod_unique _ _ q); [left; exact Hs | ring]. Qed.
Lemma certs_ok M p ms cs : 0 < M -> 0 < p -> Forall2 (fun m c => cert_ok M p m c = true) ms cs ->
  exists pre, rns_icrt_factors_compute M ms = Some pre /\ shifted_of M pre = shifted_lit cs /\ map (fun S => S mod p) (shifted_of M pre) = shifted_mod_lit cs.
Proof.
  intros HM Hp F. assert (G : exists pre, rns_icrt_factors_compute M ms = Some pre /\ shifted_of M pre = shifted_lit cs).
  - induction F as [|m c ms cs H F IH]; [exists []; split; reflexivity |]. destruct IH as (pre & E & ES). unfold cert_ok in H. repeat (apply andb_prop in H; destruct H as [H ?]). exists (rest c * inv c :: pre).
    repeat match goal with K : (_ =? _) = true |- _ => apply Z.eqb_eq in K | K : (_ <? _) = true |- _ => apply Z.ltb_lt in K | K : (_ <=? _) = true |- _ => apply Z.leb_le in K end.
    destruct (inverse (rest c mod m) m) as [i |] eqn:EI; [| discriminate]. match goal with K : (i =? inv c) = true |- _ => apply Z.eqb_eq in K; subst i end. destruct (inverse_some _ _ _ H EI) as [Bi _].
    assert (R0 : 0 < rest c) by nia. assert (ED : M / m = rest c) by (symmetry; apply (Z.div_unique _ _ _ 0); lia).
    split.
    + unfold rns_icrt_factors_compute in *. cbn [map sequence_opt]. rewrite ED, EI, E. rewrite Z.mod_small by nia. reflexivity.
    + change (shifted_of M (rest c * inv c :: pre)) with (map (fun b => (Z.shiftl 1 (8 * Z.of_nat b) * (rest c * inv c)) mod M) (seq 0 2) ++ shifted_of M pre). rewrite ES. unfold shifted_lit. cbn [flat_map seq map app]. change (Z.shiftl 1 (8 * Z.of_nat 0)) with 1. change (Z.shiftl 1 (8 * Z.of_nat 1)) with 256. f_equal; [rewrite Z.mul_1_l; apply Z.mod_small; nia |]. f_equal.
      match goal with K : rest c * m = M |- _ => rewrite <- K end. replace (256 * (rest c * inv c)) with (rest c * (256 * inv c)) by ring. rewrite Z.mul_mod_distr_l by lia. congruence.
  - destruct G as (pre & E & ES). exists pre. split; [exact E |]. split; [exact ES |]. rewrite ES. clear E ES pre. induction F as [|m c ms cs H F IH]; [reflexivity |]. unfold shifted_lit, shifted_mod_lit in *. cbn [flat_map app map]. rewrite IH. clear IH F. unfold cert_ok in H. repeat (apply andb_prop in H; destruct H as [H ?]).
    repeat match goal with K : (_ =? _) = true |- _ => apply Z.eqb_eq in K | K : (_ <? _) = true |- _ => apply Z.ltb_lt in K | K : (_ <=? _) = true |- _ => apply Z.leb_le in K end.
    assert (EH : forall v, h c * v == rest c * v [mod p]) by (intros v; exists (- (qh c * v)); match goal with K : rest c = _ |- _ => rewrite K end; ring).
    f_equal; [eapply mod_cert; [eassumption | lia | apply EH] |]. f_equal. eapply mod_cert; [eassumption | lia | apply EH].
Qed.
Definition CERTS : list cert := [
  Cert 0xebe22dbae604ac65d2c2afadc97585e61c5a8a960673327fedeb8bab97c6bf2290c66fc82e1277f15b72796f17b0e0a74ca5741ae59f27ed9a96ce945a6f06426c611bcd2a1acb0c645b65cdd261dde5f2dc3d8f2ff44d32d46b7e2cd0ad4832b5 43933 40192 0x8c5bd1dbcf80753261202725a2b4a09cd6575080899503f64e922f8a36bf56dbf7e9b455d440b706c885c3d2add9343fb61d 0x179698dff2768ad241a161541134767745b0a580cf53387c230dc5a689b70012078fa5083f4c7841d2dbef779087c98 38539 0x138df886e2d19ac5954de5f4d0980c38f1d6f269d44ce205179406687ea4bd48d93b35f5e634d48175d2b9de56d5aad 35257 0x1a4761b87bb516528cfe6b8020be5a94b8573d38807881a59b5f31aeb739c8475637cf66e5bbe533c0b053a3468ae47;
  Cert 0xebe3199dffa2ac087ecb2e78f7ee7dd49a2f24c52b385db84ba3d74f6f162e38beff2ec75cd9d4cb303da9acc15da204eeaa62c5486470520ae8d97d33ec3a2ea68fc25cec77b7841bdf81ad540f31f524d162609254df87b3f3322002cd4b0000 51122 45767 0x8c5c5e382db8a2eb040b2b30cde56e8244d9955a1eef22e57177a101d7c12e9d2686dadcaf1d66242ea9f27ca055d4958ab3 0xb44838b76de919a9fd26b0bb3d9faa0a4c4a8cb9faa1db18da6a207a5ab7a92592ffd84c5aa3de84173facf8b5754d 21422 0x2df8acee3169241c1cfc6cf798429766a54df1082b28591e1ad3f0233138490c2087d6ec67bde9a8773b99fc5a16dc 19178 0x420cb0517eb73ee71314487b5352c31648564f1eb2e8d38ab988eb74ec89de11d050068065f2e2b6d94463809d6df1;
  Cert 0xebe4f169ba41db2b6444dc7c5eeaa2a6044c977bcce69933b986b83fc08600b492e42874a7706e42a63a6c1e5c0bf4cb2b06f52fc52e77790101d199cf3c73f7c84874a6880e63378e020fd401dde37f9d5b15a070d59fb3b38698c09aef190000 23782 59156 0x8c5d76f4345d124997fcef1c7009f0baa8874a1667d83b7f010f32b7cee6c390429a7c2548b091187bcf3740539a2f0e4348 0x11e6965576026716ceef07295700911a6d08f5e6ae49bca56abb3a01ac8b9b808c11520ce8fb3331aa26d00c00abcb8 15832 0x4f3da50ae515ba6ae980686f619eb6778ff0fafcef13cd7710b3df051838ec1a40d4bcb9813d58f7f833b065776f78 39381 0xb04d3c081ff657e81663c4fdf9621ba667d3125dd5f06f7e5048c7e1829c6df1f3e687ddeccd15ba047158b1202c8b;
  Cert 0xebe6c93cd434d16de9e841370f88d3923e35c1a2cea13ba6182a047dae3b264a503a00ea32a5752ca551b4079bd6ebd9e7e6fb9dcfb43672aad424b9120c60804ee2a63a693ed946a2bc937cb3d160fcd7cc748d76b79ec8ee5825e58e290f0000 62880 42185 0x8c5e8fb49e078b5819d8a860ec993f9b145eb65a195782abdbed7b2d9ea3700d282b7d2f462d15e8360ed21cc8691e4d4da0 0xa93e698c76ab6ee298b3a846cc1e14917c448eeda940ff261295947c5ca01935d067a12b60a066fed11d250ac1b260 24735 0x1718af2b27eb802828f99ada4b9d6948de7247e056ffd6816c8b66a58586f8f826583e4c5e6a0077b276a7218c4fb61 16594 0x1604b6a8b1d11145f220978eaebf255af69dae4f999a994903817980dacc46f04610f65959fca6cb7ae1cf9885a4c8e;
  Cert 0xebea78f926c7096527511187673826df7a35d67a90c2495481e41cb099fc290001c67fc2abea832ff82232a2df6abb67e34c71cae5c13bb8b41523529856614bd80bb43680054b3c0977bb0365806f69dd9507cc7624747aecbdd0d9284fb30000 20918 47321 0x8c60c1429ad7e6c97e359707f1fc227a0ca1c2305d484b80f61ad67bc11920be1e98c7b4d99c5d86123c67f2555e348f8f29 0x187a70cc84919c2d9c71650973d960ce6b6c6f6d7eddfaeba79af2165a96b4eaeffa83bbaa78767e437c3ca1b2370d7 19042 0xc13cc174caa041df578a15cd59a3fdc68de082916a737cdf5eb0dcfb08989d32ad168b54f1fc6a6fbea44581e5f578 43078 0x2bdb067d7e3068c1e1fd1ceae4a772eb61015ce98eebb15809493dfbf2c454555048a481541ba66999b9d27a2485f9;
  Cert 0xebf000caf1e8d90a8a60cb59b3b70d9fe8b92d6faffe8269921b1b4230a798f4871a5a5378f68e63b349fac4c938aaf9514136ed1d83e2a7e26d12f876fdff245f82b475bd00de1967d87b7d0eb5ba8be10e6d6799064490d8e833c7d963050000 59609 59032 0x8c640bb87f4feae1245147e8d9595cd947127a95b85ad14891d2bae32a0ecdba05d00b8681224809010cd3931377583de1be 0x2ce440e5e19dfc0fbbaf7878ac0843f3f8d9fbd23f18a61afe4fa3339efddd7ea3ab47330f2566e76234620ac71e42 6219 0x166a693e319618dd14830eb3f3297ef66d85ab62430476e773b2ab2785dd154dae1fe25f1bbe94b562700df96345da7 6159 0x10dd8bb53c44374d1170b7cb94120a0a3201f157d6a4e96e114af0ab930811fd2a6cea71c989c7affdbefe54b692b21;
  Cert 0xebf1d8ca4b73af14731e54b1693d82fbcf134addff3124c35ee4d8ddfe84a5f195d162afbbbdef8e43e4fba3cd918751490b4ddb112b4bcda33ea5bd5c022266b5332432917673ea16e6eb236fbc4966d2b03b431f6963326ac4953ab9939b0000 46729 38166 0x8c6524933d4786f25737f1dcb25c78c0db25de0447ddc9b0b34e17b9ca15c24ddf1584c3a53eb0307bbdfb70604f9988e835 0x7fe9a5fdc1e916c335aef6dd368832252dcda380819713a6d65ce2cf2f72120e4e492223b6169b50551a69fa1217cb 13893 0x4f8e54aeccd6dec0feff99da1754d310574928f2935c0600716c9181cc74f2b426e327a0846806ca76ba7fb098d75e 11347 0x7ac026178771629b52c7e8cf13fd4b63dd67e5093f7b123cb2f4a18215f3e35e94325c7cce4011ccd9b3a80567061f;
  Cert 0xebfb1135b6aef0d939abc4cb8aed2ce9d9046e0da1e34578419a76f623bc84047d3fa57ea26d99808c013d9095f0b109f8b2aef3594992b01328d3e2b357f088cace7f949ec78a17f4e239a9e74d430c0520c8044867f02928c2cab8321a910000 14767 46339 0x8c6aa11acd541d1171f72c374c89b322bb01099c8d17e57b8298f5ac1fe6b430f913f971232f6d07484a63ab30e75ca67bac 0x18c4c5b41a824d97e92d91e3afdb4fd61837f7a9619b28b7d5be47d5d88dcd68c1a7bb69bddf7ed48fe874abdea8454 13602 0xb443c55d78c3a3acb28cc0ff262da940862ebf76b8e1d9a80a2fabc897271341d4b98a98f034d91734a0610ac6f44a 42684 0xe52b9a69558c167627eb4fb6022a9052c0897c4ee08c17e43942eb393d589012f4da2483e455be71b66e27094e4a40;
  Cert 0xec0099ceb9aa9b63daa1de8b79702d5bf535266ffae289b3ae14fc60202ae4aa0ab1d0b4154936615dff97619b45e4a9c6880ba465d047c6db3910ef894fb9895715558d314e261f4e6480c26b71b78e9c3e6199c4c6aaced91579f188cfeb0000 39160 3001 0x8c6dec073c6f3f8991dbf4802739af0c66f09583cf92c5e1d0ae15fb0c1be674acf3ffc9cd442cd08f684042f67afa19f376 0x704ad0ac2afd5877aee6876c1394c09984d54d8a9f03a705ceecc42f25074c3317692aa936b79174ee7b0dd5d10c8a 10221 0x7bfdd490d873747cb17ab2fd1a90915dce24f7b58cc09c1c2ae8503a4a48f54647a5bfa001d9761bdac5b41f5edc3 783 0x78cbcf903523feb2c5d1f5b03bca02b58fdbbe147afe336c4c37d2a6af53fc71ad918ad26de68cd9dd452f7f9bfaab;
  Cert 0xec0622aa2df1ac370f25fe778dac1b1e3df5fb0f45c6d3ca31b91edf4bcb4b1b01e3b9796f927741866df42f4ae54995826c529b7b4ef0f44fcef71bffb2fa8696e2183edbae429889985c03d6f79d9ef613ba909bfc10995bc879b75b9c3d0000 54675 45939 0x8c71371b34a57a6806f9371d0820dd9e9980b31bd2d221f97b940316af3407c9278ebb14545990abd2b2dd125ba52a692c23 0x102cdab3cebed5bce0fed82facad28b73f9b883215aa1492144b466416f9a1e7cc17bb26a76efa27a351bb671d3d3dd 32889 0x13efc00835c4c155efd6e9cc6cbc391977789b6919ea78cf26b6595dbedc9be0c044ccd67ad87371b6af6789be9086e 27634 0x102bd537e96b288a50769e4604128f16f26fa1d03a346e1ffe3c5d0b0077335cbaea7119cfc09579db6848c3f4b4755;
  Cert 0xec0babc81830ecff7bab6ccfea01a830ace8ef882161108fd7345fe0723ad379bd2cb0a33ac3cc5c47ab1281586d6be3439855e1fe58dd8c8c4b77d86b79eab0ad6f986af4e7d7cd53731107d0c18fec3f6362076b4227d3d4a7dfaf2276570000 52511 17161 0x8c748256b8beeec25949d920cd78bed662068ba715f3dfd4a6f388592e6c7fee74d43da4aa32a1ed3f39e0ff3ab68655531d 0xd1a9a92171a1496f80fd462bc4941a8d95ddf46d47c57077d8e0e3e2a7d2491653b6b51ab329021ea2b46bf001ace3 25590 0x4ae0b6fe0149eb7b7eeba0f518f8b1901c333a02bad4175280e94a79f3c4bb33752839938875d7c785c84367a55287 8363 0x1c8ae867753e29e3ad5fcf43c8da3e62d5d0c15a0c6bd9e0a2ff3276bc6a78e182ffcec407ee1db418579be04e5c50;
  Cert 0xec0d84362bf6beb2d597e6911e1a0cae70612c6d2e7ebbc466fa73a6d3678f25d8b939c9ca1e938e7299839e41bef2b5dc08d9badeee15a3939ee8c115e20ac26611d91404c7abb4ea9276b19cfdb07959239b18a97b6adb72b58d81cb81a50000 60159 10789 0x8c759b7359adec20bb22827b97656c3bb54d99bfc3c9f60a7a7eaccbf0306fc07c40842e18b740aba8099d969c7fefbcb9c3 0x1a6c19b5336bc4018013a28148e6c24f41f5423b5342056e4e563561e87f5b5e7480c1d59d2b5336f8ca54b91e8463d 59114 0x76965b2443b516cf436d3a757f76729a71e83814e52d26b89c09ec4cda20cff5a861e332830a3335b039a4a690d1d9 10601 0x112568bb2422f28e996cdd7f37230f71f21b511192ffc740ae69215ed9fcf81f9cd6452dd2e8b373b1b89dc3217ff68;
  Cert 0xec16becb614d569e1bf6e9a7cfd2cbd57ee3cb4e4ae1deca89040d929d6bcc2304927464185be467366d97d5e65128b95deb5d82b7ba105b3ee7d031b5806fdb5436dc0427077bb6f016dae48f45c46eaf81515a4d0f75a405f0d0cb4df1a30000 37405 15746 0x8c7b19446fbd565a9b4cbb3b52ea16bbe62d90a5be7c6daab99581d41efa3c9374beb2cba39823e6c6e80d7daed521b4373e 0x4c53c641fcaa9daabf1e16487f6e12559ea1768537504dbee824da10c2581e9f28f800d7435581c9f49c78cfeec8c2 6636 0x1dfe276a9ab972d4d605defe5fa4deaba43b49d2396db8b85b5d1853af0fe80a7eef508964a768e321a045bc8b480e 2793 0xdf01ad61f0a4538546d63602484de620cb5fb86266e97f95507206226d827e2ae996c8ab91535c6b097ee57d18219b;
  Cert 0xec189765ca7a5697c7bdb8674943686f2dfa233c254fcbe3eb72cf21547536260b8b18d6e799d8663b0212e9737e7ece863e647c0e366e79107d9b873297af37ce3da401f68e9deac977d46bc738c7fc09f28874a2d5d47accb8acbca026310000 34007 62828 0x8c7c327b71f3b85ddec27df8ab040a8b44701655af546c6b4b4c8a2e0f5ce143e28eeb460d65cd7d245d254a45f7544020e5 0xc564e5fa9d820736a2df12f53230739cead19b433c0ca07e605e5556e4296d9b14d69ab55de4277a8eb6a8d1f0df1b 15602 0x172ce8a0912e7d5a4aa95fd50813a02fd431c2015af5367867d39c1955539878a8ddbbd5b7ed8adb4c4f40884550ebb 28826 0x88f14df3f0de5fda2d9b60907b2cf5f558983f096e8b047191860f0ad205858888a8d27ef5ce6e6dc12024172285ca;
  Cert 0xec1c48b0c9864470aa7ca45a3baa34c919d7e6b7cdaed0853eb5fa743a611d08b5eb34aa23f15054202662e16d2abe2c197fba89cd88bc9403038c73eaf5d8c2c44f6b5894e77000f497971c02466d3ad4567ed86735b369fb8062c51f2ff50000 6333 49896 0x8c7e64f6a833d9f5046c3dc8d72191dfbc66adc54d22ff9333cbeeb9f68301193d1fbf25de927d139056490ea874a8f54a7b 0x58e43cc708647db120731cd90d9c05e12c1526bb57e713bcd426313496491d7743e76ccadba391049fdcaa86ffb585 1308 0xd4756647bb89d9fa2e4d7a7d9a9379d575a98fa95f840428ab23676262dd79acc385f11b7d57d7ae00e68da3cd7615 10309 0x743d4d890013e275d590ca89a7e0f3fa87ce6cd7a9bc928642fa82f3da2b758e47617159000c001cbd74d81f4b2243;
  Cert 0xec2936202db26b100694aa6509d97c508091364358b4e0e79392eedd70618c79d16a6ccae719fac1c7bb8cd874cc0203e7d22e52d4891528f7e95fc629095e13b84f8bba311b9056ce777fbf3ee7c99d9742bca1eca87be016d25b72520ff70000 12978 49418 0x8c8616307c15c7bf75b68f0eaa1dcb93119399e5d3b5b19cbab65862cc76d69a84638645371247864bea9962d091f024f13a 0xbacb5fe7a0e84bff3bd8ce5673d574f3365024ffdf742aacfa4a4b39a47c8c9c8b43bb0e356d95d83d21c01fd20ec6 5634 0x13ba9555c420dd28900778406ad9c1c846a5db87c76a7ae00337b33f46f7e5ce3f50a2df08d6afc80877dcd26f0dbaa 21456 0x2b2cb726d0815de3f7f7ac26a9d86ee990279938d76ac165345d4d187057f7b307c80dd5b414529b79297e9b5785ec;
  Cert 0xec3272dff01f4706f62054aa8f6c43b11d8b9505ab60704615bceee0c62a17708804a95dbcedacb70da81d9124041e0d833d0dda9ae9cd626707d23ccd18b9a984fd4de2a21fe3e2d67246a3d40eeef929895b3d31c0358504a0109272722d0000 30035 31427 0x8c8b954b8c2d1885b691327dcb74c54be32180e356d7873541ab80d2fe73d037bada347daaf5d090a9af6e713652aa5799e3 0x4b4055ffcc36aa1674de49546d445bb6b0661561ac36b98d2c2e81d8d37c97cfdff67dd1d205e3c01d1c1fc7d5661d 5253 0xbb6984857d53f3185e8fe746276a7b8cb6a73fbafe33e7de76aedd94105d60e513a38313c8f4facabee4a251db47e2 5496 0x187ec9adbd781f309d0c8fb3b329a131cccd9d8eac633fd1dad5d9afb367ec5571667ee69c8fae121b99170ea36849f;
  Cert 0xec344be94a1f7154390a8455cb4932589d292de6fbc0b8801271f549de7515d728938b1387dcb3abd22e8b9da17e0577331636d3f54f708bbb2ae07c65ae5fe1c1dd81cf4b2bed51e5d44c9c74c676e54892787b12bdd1308e4cf6eea9a6430000 11456 53068 0x8c8caec491d728ffa1ff78f6b077fa52dd2632c8312e1cfe63029b724178199cdf736373675fa747f088633d2e1e3cc2d5da 0x60885961efe378802852e655b2f1d2860763621b2e9344779d2598a23e8bd27d995e652d6f7342d886408b69802a26 2570 0xc09c340ea77b7cfff605b87c9c619968bf64b8c7e7dd1c00fabb3acdc43a8d3729e1275b65ea21edf0deb1275e1a76 11907 0x48569679441fa49bc456b090f7ecef208ea39533fb5b3f01ddc2a6dff0d9dc7748db420b492cc13011a3b1f4210ec5;
  Cert 0xec3d89871541e4e155e6e7f97ef19d55f498216af2cf18967018e54c444525e0367b818b46eee6546e190d1f2abe6849a11ec3004ebd9b40a49674c3820a503f74eb52ce2fd74b4e83b856171d5234b0530c5b568268bbb36acdcbc29ceff90000 49861 4201 0x8c922e63c013bcd46744167a54031dd15e4ec8f84196611ddd1eb269356f00c945bfad75e8d9c33d493914e5c2b37faa14e3 0x19b48ba13e965eb432111a3df980242364e261af23ed2b3382af257c2d38970d0e1b1706c8870479323bfe9704eeb1d 47665 0xebe59876d4e5f2e456d9ca479bf4cdaffd781ac6e5399902c686dfe0d969591b3458d5ba1443d37fc4d5bf3ae62d20 4016 0xa49fbdda01eaadbc03f881350416325b43c12444cc9cf2eae9575afc0eaea4561b0340afa7e669c644dc3ff102f35;
  Cert 0xec43153e9cb2f1caff0548d8aa53621958bff15000434e1af6fad88e6a304cf2201598a3c9400332ab3ab48321799b88177713f213e952a07e6aa85364a34d3d1a70f4214bc2ddf96faa329c949ad165d5a0dc89a468bc2800d3d50f33e9930000 40755 29751 0x8c957b2b544605eace6ed29a03e03793a1e4b74fb948027f54cbf7329a80b5a67931699a2479aceeb66e972eafff63ffba01 0x485a4316854b25fe0ca16200f79108f5b0c12feb99fe4e5604ce58622c68d69824c0be58deeaf21c1d9f34859345ff 6853 0x17baffff7dcb48eeabf0d03fad91a3f133ed9c7f40bbac095da98f60981c0d63fd0ecc538551fc8bc8c966d14d03808 5003 0x84f2cbb46ec0174a5dacf36ee612391969d809afcbe3ccca1886c083a9a948fc23f5940a5a24999480c0cf6e5b823e;
  Cert 0xec4a7a9b0471a28e93b1e132309cfb30fcfa35076ebb1313597608c576f03f2e7447c37574eb13b50e5dd0d84728496fb6f53657e26a18c288750a3ddfbec9795af240bbbcf9350ccf02c6073b9329db6cb73a6ffb624392a827b7b4e7877b0000 24962 44241 0x8c99e1c878fddd410ad5ef9463346abff5127daa019fbb780e909d5fadfb22b64a6088f247322428be81db2468eb8435118a 0x10acf546f45ad229515a414939d8531b77bccce12ca3ab11614330a320b25907f4e42d66c5e7d39411bcbfc0345ee76 15480 0xb8889c93a5118a272552b8ecb14bf0aa0cf7a2477830f3507f922a41ab0e2bd5e17cbc556e29522f4e133728dd9174 27436 0xd2aeb634448c31835c5d8043c2dac8ea96a1b29d3cb6df8ce9b1fc7da656dacddd1a15b5467bcb4efddaf1a84e8b2a;
  Cert 0xec4e2d75accca5eda860a3d8ab7be5860299bad86b5c43aadb01a36b47ce908aa0219f25ea6698d534e3a579b8521e2f182b7ffc63f8d8a89fa7c641f694b83a9f2bdad82ee83b2f710a0f66dc6497df5bf142d2ba436e041c4c6d1aaddebf0000 29306 44570 0x8c9c15317f1f8e9e8f97c783d1f394efe7fc56d43892df1643bf25e6891c00a844d127ed139aacb7b87d14fd459a03a35fc8 0x1191f9d3d1b586639496d50f4a2acaebc4dd2b0d4471525f1a9bd8f1e41bd81f7aff738f1cecb06c959d513db1ba038 19149 0xb029254cb33cec32beeb076a19613e640060ee3562f1249e06a5af09798180a8e3c756e2f5a006e630a308b882ffe3 29123 0x9ac19eb348f0fcad42cef979b66f2dba5b4eb7f747dd6de859aba0f3a1b34f3014ac028cff006d4f88e2f107b3e3ed;
  Cert 0xec53b9f53ed9df14015f587d4da9d6802befa6bb225cb50aea2a0de04286b5dbf173724012db876b6c0f64d489cf17276c96a07a003d455deeb8813a71839078d67023ae4edaae1e0ccb8b99e5530ccd19677243162ff63e2446ec405395710000 5154 11164 0x8c9f62701b5d9b2bef3c1905a86c8cc478bd5377a410d80e1d5a49ebbb0230e9781667195d709c21ccc32595bccae9be0469 0x1ad63f56a57461df12eeed222356a1a4195604fb587920d7d97a10b7c5dd9b414bc9ffa44753bd7edbfc388abb2fb97 5143 0x1a1bcbf690aca3d472395ce5b2bf2424f3473dc77de8353bb2ebc6b690381ba883e17b5f03ec6cfebf56590c96d21f7 11142 0x76dbbaeaf777922dda7ed3dda5ceb0855a2db4b993fd33eb8fa7a89cce354d59334040487da5e5fbde9c1fb153817e;
  Cert 0xec559383ed6f9be4f18ca15891b4ab1da9d6784ec4e958701ca98a743283694cfb5d2c46cca4643649f495dc443e330636ae272402343b6e9f9abd22b46119abf557e7b94f96a79c3ba48522d46392847d8d8bac6320b42acd51bf171ef7670000 53092 51475 0x8ca07c387712994738e6efe8c75df97fa9ad2a0e1274069d897e52385c446440eb9cbfdf84645c07b84ac052962c87fe1d32 0x393a293a92d257b03b2e20979df4ad26dfd77632937168735c6affb36c26efe2729c659fffc76817f700f26f68e2ce 7062 0x2684e3e32e65485139b51f495171af3140679491a233f4fca7fd608db2fb536dbc6d0e322701b436dfe6c9545d0ee2 6847 0x11756e04cfe94a6fd2ddcd80f789f98a58114ea264c67504f9a597d5c82317259e36ae38c79a4920c2b779edc788b;
  Cert 0xec5946b788807520d84fafd563fce8573049dfcfce2a15b4de0f7173c31c1046c46f6bed90c86cf04082fb6fcb062ec4ddd93e936de98a9c736cf87d91b572b137ae2a909cf9e4f8c5b707085d990802fc5d68a0e909bb1a1c93e4b30ee7cb0000 38418 23958 0x8ca2afd66a8c25d16fa96b84d0a1c21fa84b1e5ad55a86941f35e9b4faf1cab31c2ae5f3b40e724e6205286c0c4b663e3b79 0x16ca3b6b590175e1de9e5268dd8beecd0412d6c62e65a4b403ac63f214cd7389b463c7b4fbaa4910615e6c3818cc487 32561 0x4ea405e1b614dded90241a2ae8d8658a676e95297db22d49ff75862703798305eed385c78c49aa74d407a7970c6c4d 20305 0x1053b806558148e8fd812b6b5ba7da5ad680a40b331e39716264c93b30ddc6fb2bfaed45524f2f7baa57c9e0bdfe2c9;
  Cert 0xec663ad5c36cd6317864f00fe254f35a0ba70ce63b0e2f6c6b7b95b43771b7a827b49dac414af0cdde71baf6876682ea6d98ac6331078b2453e1a9a21bfca8647c82a8c972a1d37180c25259d28e7b7ceda4fcb85aef18c1a898ab7496cd850000 49983 44013 0x8caa650a403a55c84c029c9b1d5a05e621e43effba6e277e5e28c8521c9d52bd2f9749d813f3dc3ecf9bbbd0975dc19edddb 0x15acbcbfb9b388eed2e02f4887f9fcfa7086f73a32a792d51baba2e779a53f2eb7c539d20ce0a9c009e9d390be62225 40290 0x253c71327754645573c7de4e7c38ae26f70c21d6f114a33c625b2d143713fcdcbcbe1da4c91f13adb1a51a39a3f8b9 35477 0x15e394c8ca96d3e1e1e0001728d2c53457b9317c213eb902da586d887bc06b6840f52d10fd5bed26044e8c2bcdbc8ac;
  Cert 0xec6f7c5c3922d23574b5701dcb44018b0872971250653f0296777912f41aa30e0426eb0aa7708a33f47f99b1f30b224ecdbe6ae8cac054e054a967d367c80cd215f0385edacb8eb4ae579827c224e5f361516735df26ab4f36c338d9cad7830000 19398 62163 0x8cafe6fcdca05102cbcbf40a7cf9519e9e23d3ea308c07a6e14ed7a91ad05d63c88c905818e799717d59ae6bec5975b71086 0x14489343e6e21512901402f0e27e9f730e7283f75a5f655c5e25d48a1dd00e2d52af04b9f02f045a6386d7161cbef7a 14632 0x101b673f561a0f6f744af49c1e8c675b39a8f5de5e1bb0f578475b7cdb5debf521140bb58aa1fdd5b96dd5862e3bd34 46891 0x144944fb31283847daddd30dba0f65b84ead80480818597e7afefdf71f6fffb4af721e0c68d8159be3f22e66376fe63;
  Cert 0xec71565a2e9ee69b72e13e0e5c2751b494b0917e1dcf3efb0fee30e331559df936aa8909269cd8e8b0553d0b0d61fafa422b847417e9a262ec7bfda6ee816ea0677fc62a259f92aa31674f5ade6685f910a9541518ba45fb3383aee7b6f9110000 11699 52799 0x8cb101076f00aa99ac2b656c0b1f5c99e7867eef6486e1a0eb0078d35eb9b14a4fe815db0fe355aba7742726621697edb309 0x77a4346e163176750a7e7dab41be9c34c2c2cfba5102e83575b8e5c13e6da8cfdc58ba1d66245bd0f9c5a061234cf7 3253 0x9a8b56d516711dc29272d4f002307c03913e2459f6501ec82203271ffd706e3f429dd792cf89548e32a03720362f00 14682 0x159818db73745a86a5662e5f28db34cc1e95e6722c2d3f4d0543cd7524f7ea4d4dca0cc8d64b6f3b2ab30a24f9e796f;
  Cert 0xec7a98bf595942edf62253cdcd1ab81ec8319289790e38aa73c82bafc00d87db2102b687d39ddcb099454313532577cd841b99e51646836047a4fbeab8b814e7e5d8402e881882d8ba0b4f17ccb8d104aade5ee257d6eab81d163d8275c32f0000 46694 56142 0x8cb6837e901351a6011ee00c0a775f8d6c7e3dde69ef4b31c5a693e78afbeb3a94ab86e3c50eb9845ad44ea96104bc4d13cb 0x111a2e7af7ffd82f7e7d3a8265385ab9123f627f28e071587a663d679247996f129f8f586a8e25de363e17106e1ec35 29698 0x11367c370059ac54bc6a384b7dde13d664caa068ed91fdfd0e1dce88a472726995e1f475838b4c89b00aded5bf1571c 35707 0x161c7248affad8b903817955c8b38d981738364dff67808a6dace09b09387be24aa0f2e711b01a60ed621535de6c3ab;
  Cert 0xec7c72e9dc9390a93121bcafe030c5b716ca68a04701847d5bb25d0646defa9809f4ee8fcde1c639ab1111918da446d17f4f80f8076bff6132ff12f9bb583cd2196fb3ab5ee5b2e417267feb44dbc9463fafc93b75be1c373c73edccf15ebd0000 47806 14333 0x8cb79da3a54142c4ef9873990b8b28642fb26de63ac55ab47a4df867421b76c6735ef74924f7d4b288fd20f32c7b38a1a792 0x523f573db2ee7f69cb883233be755d1e72457d19c2bf7b02d1deb3a7765af5d70603debfc782a9febd2076261b586e 9139 0x4611513bfaa82bb8f53a74c6d77a559521d98570a03f0aa8f7a333ee98c5794a942d6bbb026ab34295af60268b69f1 2740 0x1ca14301da02d498aed330602d31fde6d7d0450d8552559b4ac9b3c22c153126247085a53ea22b813b76f38905fc02;
  Cert 0xec820195f85d8397c04fa580a162958527561fc9819fcb7c7103eb519dee794a88247068247319b9bdf7d9ed5d18ca6814fba2277a4ccdd4b353fe573b6227972d8ae2a855dcd145d089529aa4e34b7ff857106544638473565cdaecc2acd70000 30538 39531 0x8cbaec2d6a313875888d6eb9760964f610a08cffd2763dde1dac3cef64864599004ee9a9bbf4bb696ec59f5f614df5eee891 0x11cbd3765d6255232d322034c6d8ac9d77032b80b54cd3cec6c7c15a3273cd770eaa2063ebbdd2f586cb74b6e8176f 1263 0x52b7565a7589ae302c157fc07a9481e4eedd85c2032b3e798f355ab29fc34a8a411866a761ec8c4b5ed0c2c1fb5a27 1635 0x4f38ecd694454ed915973fe35db2677c10839cbec29bd854d3b741e37927ec67e3ed2703b93b8e0ed8ffd0111a8b02;
  Cert 0xec879084f2fa9199a12e631d16cc76dd39096c2ca9add70d4c37d6b6b98a7af68b29bdf8027c34ca44e0a280b7b151a361e2e5c18bf4038c1589ddfa90a227a4242662a422df2d18ecc8f6520dc17c2fc84545ff21589e296b619366e19d090000 13826 10178 0x8cbe3adef968d98277599accdff53913bf25f80cfaa847a063b7e92239adab4abd2bfa15b16bc561cbe75694377bfff3ad80 0x52b26db4911103165d42d994bdb659f0d389d7575f483ea848ad5be7d52d33abcdd0c941c5c4cc5cdf2f659d155280 2657 0xfdb7754e64340a6e3db8ebb7f957163d026cffd85bc78c6914ac44ecdef7b594b314bc0b0e9fcb0ded0dedb9919a9f 1956 0xa4ae1751d11aec8ce3dc4d9e385c450804fecc69acd9961de22b4dba84ffa479f2448a38da410bea7f65ef49b9fd5c;
  Cert 0xec8b45496d81f44b74b31bb698fce2ac256948d919a4871c834d6800f072a113b5dd71140360e2330df17106e39d964dbe386e71d90147d7f5f7a2999639694cb2347f542f4897f101a391baff0e310b01ba79dc4c6ef080c07511dc955c0d0000 5601 61443 0x8cc06f6b755152543b56920806713b8e6924799371fb7ebde853430f2693ea98ab0bf9e57748fc331106efc815e0d7fa19e6 0xa881b29d407013a08d1d96d4876e3db93039d3faa419c3640354913655c70227cc6b9bc3191e78a4ad46b48412e61a 2193 0x13c7270dfae323f8fd81b9d556ea125d3942c338ceb1ee709f1223d21354d63572465c85893a9175323337da17c5649 24065 0x7d0183ccd8710abb0d125fcf6b2b827b9d5428c9efda20ce513824eb1a09dfd8fce2d6a5dc44f2a4c84fef43f0b44d;
  Cert 0xec90d4a7e5f975919f4545d255bed3c8775aa884703a0d5bcab02fbed7abf91978947562d80bf8c8071fbbdcc9b1c8e8a063ddd5ac5f6a5f22d384bd5a3aa38d2b9a4cb7cdcdbbf024a674b1f9c74604a44987d87ac6f2138cda7b79f9baa70000 14878 18642 0x8cc3be5f5be74ef7adfb99e641b321dcd661968caf728b875179561ecb7b911615375e3662675d56b186d45d76d9f3283ad1 0x8190ecff773c32f1ba0cde3d39e95594342b571dcfd05cbace612914bd56f4ee010d972e546bd76e79431fc77ec52f 4480 0x108e306faf48c2f71d3347d45253151ce08b465d2b9249302fc6e4bb177ad0cda53aeee8e53692e524b10ec1987b002 5614 0x499d25d524b93f7be4edb84a2d8bcb16b47ed9e8a014028b4c0ee68c3d45e22d785db71f9502655477802d4d72e2a0;
  Cert 0xec983ee34aed5508421d906dee0db673833e89b5ff80d0a07968f9738db2c9b7cb35d03164147bb48d6346d4994ad73ef01433a6a4dc053da305419fda7220151ca023081f5aec0403720c917e5817b02d6f34224e5a98ea80e0ab107456cf0000 31345 52962 0x8cc827e280cd9364cdb27176f33dcf2d442cc6f5a49cb08a28e3a6b98381898acfbb8fab632401bc1e49120d924ac7cb75af 0xbd32ce1410bdb9cf690dcfc98ec0aa8b897e39811b036341828405859e6e57176158a5ef01c3df9de23e298f038a51 13784 0xa7f476fb076abb23f66decf3954b7fd950eaad50b4a9dd9cd82e5497c770bcea5165acd71feaf7735b3e7fd07a71e9 23290 0x1472144b10df3f94e32218605cf07f00c4b6f029e5d71b111425462824725827962bb598b2cad2e71b4d1c51a6cee88;
  Cert 0xeca35f1b8b81912d58c82b18f8d8aeccd191a27bad6bc77dcb9ec84d1ebcd74e57bc1051809c77af115fa887ae764f3dfe420803706df1afeb35d587ae343ee9c93e67bfddbed3d757298ebb5955ccf244a649510b1e6100056fee8e93135b0000 30554 47911 0x8ccec6ac01ee0887579eafb313e7e0eb76931e9c875f88f51eb03d6c5c369f7425bc833cf90806942779fe6b638574339439 0x17ee4d88fa6f2910fb877503e69a08628b78a8ab13d53e7d84deafb2aa7e49a4aaa5b346b9e53c683906b0d9f276bc7 27192 0xbf59bc4f55cbde790550267f264e577c0ee19821dabaeeb7ba1fa880724d63b12ecba9ee9a83bfa91ef7c546f4fabe 42639 0x1630d5bc5923ae6238ecde366c53938135e193c590d684ec2e5792133b1410d92bfdf623c506eca8cd002550abb21c2;
  Cert 0xeca714bf2911d83ebef793aba747b48f579e716a63f86027ef2585e3fe797a353f13eb5b00ca201e14798288b36e2b5157531c41680ab8d96779e7018ebac7aa8d48a941fe0323a91005ba920de76f75afc77e8b7a00cfdfc99e3ed719a59f0000 39797 62967 0x8cd0fbbd43fa0437e3a08bb9e45fa43072a6b5354eefb164e786d2b78974b4f68909b96d1c090a8c8f79239d4fbc8c204cfd 0x19318eceee8f1b89fdc365ce8481aacc853cb8b858c33bf7f55b6ae7e03898fde7b52c017c4be3667fbc75d197eb303 37287 0xa821c01aae3ebca5cc5b0b99698ee6805aaf8f7c74c5b90c660e8a1e11f558e139a983ac1594223a523bfc5d4a0fb8 58996 0x7a6c219f9851a52395e126fe38d02a530ad574692cbff83308e230552bb4fd083d281078dd204025427439da8fb071;
  Cert 0xeca8ef9c222559c4368c7fad03c3af3e49aa68b3f59673db3b0a212d74f3f807df630bf73ab4c5c37297b6d9a87d61f4910b44917bce220c32d57fe2c1dfd941e2b6831540f4584284387134e5cedea2edb1ddf09501716913ab02cc2a24ad0000 51180 37880 0x8cd2164c89c82c4f97f8c916849e014ff07a473254da47482c2f4b426b87a5c8330c93e60a737e059f3e8151491d9c1dd32a 0x5fd9738ec57d51f207d304c568ee930edecdf72758ad2ea12cf73b929a56e9bfafcede018d351b6002030c888f2cd6 11402 0x75d4a47356c20e3371117446a89dc6d341be4590e5c1ce0590182d3e76ff7bffb948dc527525b8da820db52fd782be 8439 0x5506542506ca1052158fbd85e084b5c53dc9717a71c8c3ac6d0396fd77f08bfe7a5f2b464a1984b641e68e81723059;
  Cert 0xecb2365cad7923de592f120ca693edea3735103948cc2df451a74fb8a9135923e95684d2eb73686017e77be2fa2ec3c15995303a48d92ecfbf2dd5dd51f40dc284576ca3a5efa2aa5c16556ee8dc87b93caa8f7747ca66168e3e831e0e17ab0000 39625 20795 0x8cd79b5b5acb41d73f4ecb6667b5c76112a8b6c930688fdcbf9692e14ec59281bbefe22b9c9556479d77298e33d4c23e6efd 0xb7b4e7673a79ff20cd2f41af7ce5960fdfb1da6ec8de3e57f41fd76fff401792c8352535ae65cb58cf2a39556c9103 16919 0x162ef5c493c36d928be7dd893cdb752b24dd0118c58580562a67946609202dbaf192701bf2a1dbd24c5646761796744 8879 0xbcc3ebdf1e185c22212fb248727bbbf10ed726e27b914007ec0bc12b32ffc0e9cd3592bd66baf0e99f9f3e09e73c02;
  Cert 0xecb4116653c0f07b0fe1c4df5b83aba751b800beaf88d8d835a31b4ccce06a20abbeb9e705ecb8d94419dc5d7e98218d0cb7bb05bbb4991154f523f33b1c707a28b332b31eef392c16734e0c070c1da43b7cfd63df837ecc438b62c565b6790000 8490 18243 0x8cd8b605361f73156d1fea728641acd91ada1fead6d17fba9100c33750cbfbbc2fc812be7320cd1ca8ef903f963b6aef8883 0x18f3b321aec5395f8fa5fd128731abba872396d44cfdc02aff23dbc1cc62e98fb37f620e54bc9b801a8ef2a4b89777d 7878 0x8be2b1672572e2e31aaef88e0102ba0fa575bc9f9e8acca1f3d7db4ae7aab646307e97436fc069214730ad1cf498bc 16928 0x11a08b0d009d3d99b3dc1e6597fa6b48346710f5abdfba19dc8c048d91199c275714d4e07c7b14166f35304e51dae97;
  Cert 0xecc2eabfba023c8545436eafda61d0bf41e617fecd5015845a8d7ffc140dc8379d91006b943021a1478960d602d591604b0cb1270db12715b430d8f24869c2a63020caedc9d15cc775b01bf85f242d3ce3a856592693eb9b78ff588ddf58490000 48851 34893 0x8ce18bf3a7c8b8b9b96b27dc78fb774f166996ba9cb7c667a2f1db1d337730ff7a6ae7cfde90faa4b2db8a36dfefc4d78eba 0x99b79ae9a3370ee5b530cd0b951b11d562d86b2cfb25a068a3f59802fe9d262fb518b30090f118b2462def93717146 17454 0x2e372d167c08ec826d422ad98db08248f035cd33b188efb999ec858bb2e7be91c756f46a66e83ccb5d2be4b8920c84 12467 0x6a23f6960a02fad1381e97fb9547fe278130a548005f64d33060f58143172502886769bad89d43e64d7639d4c115b;
  Cert 0xecc87cbc391834f1517af04179245a41e673b11d4bf210f269b45c192c42cc1b171fedd683b8967bb9ca2f16e4f59383c7d2d0275be78c24ea7ee4001e8cbd2666bb07b7abc0d9a0110bfa746da07f017b4d2b9e9d3b3bd001bd2f2fb615630000 322 17145 0x8ce4dc763e8342de6b76ad94781d7543e5616c42d697bd8dad5fd1bd37ca9aeca81934da3c8594f4aa7f99ef67b5135f8e0f 0x1634a98bb922fab84961822332058c19d7bb3e7e48a48bd1f9cc91c67c8afdb63764a8f7c617303d3c8801020371f1 16 0x10a98e0428cf0af689c49a97ad66686df2be56ac80dbeec2cfd2c600812531dc0f6c844a7292aa4b597114488555112 884 0x18bb4e48d993eaba6b388300424a3d880c2a13840cc8deac2468227c2ebf970f09668c451a6fbe9c8b98b7fd8b9f1f5;
  Cert 0x1d7de299c12925cccb8b779643666056083fc4cf8427a07ac4742fd01059bccca549d802d5ea01ca447e0e12a7fb4bd30f1f823c7c02ad232b3f37479137d1d5c73d08d020a522696e4f7512214a0dc97f607ef8d79a5416f3cec5146132f9d0000 30321 30580 0x118c6fe998b668a004e44960b7a09edc4ad701d22ab0f62c403dc9524957edaa7e501eec6b75f7545fadf3fdad9aa4fcfc998 0x14f46fba2c2b31016ddbb1e9fdfbdee76b2b482c612338aae774166780e8363d9edfa1d43f2464790846c68dfcd3668 23629 0x5d9a789e1ffec9764dd44b107a7ccd61471296750c5b76344b6a5b644d5537df65557a3a55d23cabca717360a8979b 23831 0x186fbf879bced02e0f9a711893dc6cd893b926181511d64ae71b5e0fa9732b2c31c9481872ec3ae8dc9f8dcd46a209;
  Cert 0x1d80a6d01fa548156d8697f046d934faa0bf2db38974cda684751ad76ef35002326c4a0c038ad599e0459982ac5bb1b149e5a69a179364deac607023308714d5653929f5dfc29042f67c0322315f8fec1b6799129ec21a76481c23f2f0254e90000 9109 6725 0x118e1552a4346e6eb0923a99671be2372efbe373d464275ca19241a705a2c104259acb84f043c0ef7c9d37d09eb2b50ed6f7a 0x81e8c510af8861384270202a1e5289499337a5159b968a078c8f83819ef9ff1b56051ce7e93ba653c9c3d703fb9086 2750 0xd96f075ee3f14965f7df6bbc5e261430e9b4a5907b61f021f5c592be01f1401fb00b0c3de76fae4636e1b0b62d6540 2030 0x115a8fed67d7c3b0143e115079b7dd087f87ebf08d87f10e1817326dfa459d25e96bda391ebf43827e31f5b9f7b8830;
  Cert 0x1d82091d2471b3c1d6342c2658ac025538304ac15a9216d874041a4293f9beab8f9ada37a4a076554816638d5490a0543a08041428a3d4fd4ccbd9a30d26724aa01f699c45c8faa280487ae1ba62a3009478873c4fc61e5847cb75828d955030000 7458 10154 0x118ee824d120e7136def7dab3fc909576dde5f7eb7f28dde7f4721d5e29e2dc06e92cf3733501c866b51ae6e674b533e38ead 0x10b4e8da442a5a31bfaf63767531e1061d63246ab600bf7997d76a536abcc0ad0ef07438858103acf07f424211f7153 4633 0x149dbe7302e50f7a30de2a2308b8aa6416a500050cdaa1e766e8764e6f64979c6e6b6616588c7dbca5bc48cf60361ed 6308 0x165d6f387a8fe9749d03813909601789723bf45d8c4b837654495066d7902cb54cff86f34f3afc9a5dea109c924cd7a;
  Cert 0x1d827f3e33df86b32421f51f6dcfda94def2587168ba7da67edc33e865fe5b8ba18ce1b0a10445e4e9b79be8c60fe36ee2f88ef183a5a9ef8bda59e180df0fd5a49cdc902bac8fc7e0b4d2de352b72e6fb147e047af0785fbebfac33ed09a910000 9917 17695 0x118f2e6f4568b2bbffcbf9eb6bff5bf0ffa0d5fd349bb957e25c055a67e9d62eacd5ab9ceda23718783a14bab51d5ab919cf2 0x1725b4546f19d6c44b929d879a909847b0c15e89081b369409b15ff5de719c8fcbb2e3727ce3486d7d26cfaeeff630e 8536 0x1929984aad336e078e23ebac753e6632919737e049ee81bb4713e157bf91be5fc1f75007f08ba42b6c5b4bc5b4013fe 15232 0xe76efc6941ad8f82dd30c1ce839fa20eb65b637f0454770e63667e80b34619e9f21d4066209594513ad4cdc69f8932;
  Cert 0x1d87939ddf3005eeffd645fc83d929decad4f6d93ff8e3971d96c52cee2c04be22e2288c8b8fbc0425047ae4ee9972d2de4dc84a090b5b56aa801ede5c6d429bcd30b01d10639f849d4fa536f957af4dda290b6843e888aaabe33cc2dcae23b0000 19166 31365 0x1192343375a31715223b1f86c5ee5951cc1b0c6ad2170d51e32b3c7e6f3e80c8cbdb4079690249c114fac07803ac8e968c657 0x1259dfeefb92318ac3d1a5ca58dc68ebe49734c9b40dc8d29c7b2d5ecce3d719db624a138d7f1b231d2b301f8d239a9 13080 0x594710e9d935aeaeedc4843ba1cf0ada5649567820b7e8917e356dae655b83fde50a4937210060e563cda28af8a776 21405 0x1181cff4d917fa5e53eeecca9a01c1f8911f57286297570fbe12b683664e1a8ebe08e78015f51dedf28309a74b22b30;
  Cert 0x1d8809eb5082a99c4e9fa99349de1f3d35eece79050666dcf9c8f78813307d3635b232f9551a37704228ab622c13abeb6960ab0781b191bdc4ef512ce3306610f84f12fb355a9b7b7fc0535af08811f3e588fc466a0ccabf22b543feb1906890000 9419 22923 0x11927a9852a0faca38b69da785159aaf3c9d10a4b2d1e01e15cef6677410294bf340221850380d361ca0204732191c89557bc 0x1326e174a39a1320f64298ad420ad54769085b07d74b12e0203c7fd84b8a29c3323515c9658f679e41fc9873df3a844 6708 0x1299e411e9e950a07b1c0cc5c1671fd7e2fe122ceae758d1fb6721b7a1446b1aeaaaad5fb34891e7444d2f463dfe3b8 16326 0x18f8d6374c0112a55c30490d43c4aefd45b9342a297d95e932d0a1914e2e2d96cb872fd6ffe1359de4df0f858cbc126;
  Cert 0x1d88f6914f309c6ff272832a1543d3e1ce92141762dae05c65710806e5efa4dd292079ed69c5c1f783c8ef84ce06a2eeec3e313c84b4eaba8f7c81521c96294e0d15c2d35c14ea5e410b5f9ccfad78466c9e33ac19f1af7fc3736b5dbc5c98d0000 19988 13700 0x11930768a8e8a29c2b3e99cac9792621fd65cbcda38ee7e66ed5e5da0a88717c4261bc89bdb79bc5c80caded1198b6263b312 0x12d20c2aa43d24e8a84c97a9b26432bfc58cfb92bec8af916c09540880e21ad812b59def4fa127b9f07423a67294cee 13990 0x3d4c9efc05de4a4a46c729516cb27c79a810132fc7e10f0bfd964e5828c9fdf5ba17b8352affb6869277fea4aa4ff2 9589 0x6e277d000939c95fd4b1f656bb22855eb65fc2e79a4347c68bbdb69c5dd56749049426c50c336fb47d78be38cb43;
  Cert 0x1d8a59a615e705a56b2d699a0c98b1815b30c69162172557c99381c14915ac3864f8ec99c70b2a5055b728772bc0f60a2a6ce6692ad24d367f4b83cf5c1fc7ed94c509601d113394212337822e5650df48c43533406b3cc14eacee2f1c894270000 15306 26203 0x1193dab1b29f2e8276506735e4053e936d0ce233ddea623195737efbcad6951e8f8da008fed186bb0e357df85e17fdf6fe790 0x2ec2396e4d638344b985fcc1ccf08fe5242a6df69e898b5d3a4abf2175cb41f874074863e72b31f5311048b4b71870 1663 0xdbf06875d6e14d42da9d197b6c446b5beb0107eac197b9f02e337d0a7fddbb166890314b5c958d93a05b04cb1b11e1 2847 0x167dadab2918a18cef05f187605702b332d0fe22fa3e70628cfc87fe6a3d07144c33537ce623cac389e81d930d244b1].
Fixpoint check_all {A B} (f : A -> B -> bool) (l : list A) (k : list B) : bool :=
  match l, k with [], [] => true | a :: l, b :: k => f a b && check_all f l k | _, _ => false end.
Lemma check_all_ok {A B} (f : A -> B -> bool) l k : check_all f l k = true -> Forall2 (fun a b => f a b = true) l k.
Proof. revert k. induction l as [|a l IH]; intros [|b k] H; try discriminate H; constructor; apply andb_prop in H; destruct H as [H1 H2]; [exact H1 | apply IH; exact H2]. Qed.
Lemma certs_literal : check_all (cert_ok (lprod MODULI_LITERAL) MODULUS_377_INT) MODULI_LITERAL CERTS = true.
Proof. vm_compute. reflexivity. Qed.
(** the constants of the 377-bit prime *)
Definition SHIFTED : list Z := shifted_lit CERTS.
Definition SHIFTED_P : list Z := shifted_mod_lit CERTS.
Lemma shifted_377 : exists pre, rns_precompute MODULI = Some pre /\ shifted_of (lprod MODULI) pre = SHIFTED /\ map (fun S => S mod MODULUS_377_INT) (shifted_of (lprod MODULI) pre) = SHIFTED_P.
Proof.
  destruct moduli_literal as [-> _]. unfold rns_precompute, total_modulus. rewrite fold_left_mul, Z.mul_1_l. apply certs_ok; [apply lprod_pos, literal_coprime | reflexivity | apply check_all_ok; exact certs_literal].
Qed.
(** what the reduction computes, from the literal constants *)
Lemma row_value_377 pre c x : rns_precompute MODULI = Some pre ->
  row_value (lprod MODULI) MODULUS_377_INT (shifted_of (lprod MODULI) pre) c x = dotZ (bytes_of_u16 c) SHIFTED_P + (dotZ (bytes_of_u16 c) SHIFTED - x) / lprod MODULI * ((- lprod MODULI) mod MODULUS_377_INT).
Proof. intros E. destruct shifted_377 as (pre' & E' & E1 & E2). rewrite E in E'. injection E' as <-. unfold row_value. rewrite E2, E1. reflexivity. Qed.

(** ** no entry of the matrix is zero: a remainder the kernel computes cheaply *)
Fixpoint rem (p m : positive) : N :=
  match p with
  | xH => 1%N
  | xO q => match rem q m with N0 => N0 | Npos r => match Pos.sub_mask (xO r) m with Pos.IsNeg => Npos (xO r) | Pos.IsNul => N0 | Pos.IsPos d => Npos d end end
  | xI q => match rem q m with N0 => 1%N | Npos r => match Pos.sub_mask (xI r) m with Pos.IsNeg => Npos (xI r) | Pos.IsNul => N0 | Pos.IsPos d => Npos d end end
  end.
Lemma step_ok (a m : positive) : Zpos a < 2 * Zpos m ->
  let r := match Pos.sub_mask a m with Pos.IsNeg => Npos a | Pos.IsNul => N0 | Pos.IsPos d => Npos d end in Z.of_N r < Zpos m /\ (Z.of_N r == Zpos a [mod Zpos m]).
Proof.
  intros H. destruct (Pos.sub_mask_spec a m) as [-> | d E | d E]; cbn [Z.of_N].
  - split; [lia |]. exists (-1). lia.
  - split; [lia |]. exists (-1). lia.
  - split; [lia |]. reflexivity.
Qed.
Lemma rem_ok m p : (1 < m)%positive -> Z.of_N (rem p m) < Zpos m /\ (Z.of_N (rem p m) == Zpos p [mod Zpos m]).
Proof.
  intros Hm. induction p as [p [B E] | p [B E] |]; cbn [rem].
  - destruct (rem p m) as [|r]; cbn [Z.of_N] in *; [split; [lia |]; rewrite Pos2Z.inj_xI, <- E; reflexivity |]. destruct (step_ok r~1 m ltac:(lia)) as [S1 S2]. split; [exact S1 |]. rewrite S2, (Pos2Z.inj_xI r), (Pos2Z.inj_xI p), E. reflexivity.
  - destruct (rem p m) as [|r]; cbn [Z.of_N] in *; [split; [lia |]; rewrite Pos2Z.inj_xO, <- E; reflexivity |]. destruct (step_ok r~0 m ltac:(lia)) as [S1 S2]. split; [exact S1 |]. rewrite S2, (Pos2Z.inj_xO r), (Pos2Z.inj_xO p), E. reflexivity.
  - split; [cbn; lia | reflexivity].
Qed.
Definition nonzero_mod (s m : Z) : bool := match s, m with Zpos s, Zpos m => (1 <? m)%positive && match rem s m with N0 => false | _ => true end | _, _ => false end.
Lemma nonzero_mod_ok s m : nonzero_mod s m = true -> 0 < s mod m.
Proof.
  unfold nonzero_mod. destruct s as [|s|]; try discriminate. destruct m as [|m|]; try discriminate. intros H. apply andb_prop in H. destruct H as [H1 H2]. apply Pos.ltb_lt in H1. destruct (rem_ok m s H1) as [B E]. apply eqm_mod_iff in E; [| reflexivity]. rewrite <- E. destruct (rem s m) as [|r]; [discriminate H2 |]. cbn [Z.of_N] in *. rewrite Z.mod_small by lia. reflexivity.
Qed.
Lemma entries_literal : forallb (fun s => forallb (nonzero_mod s) MODULI_LITERAL) SHIFTED_P = true.
Proof. vm_compute. reflexivity. Qed.
Lemma entries_positive : Forall (fun s => Forall (fun m => 0 < s mod m) MODULI) SHIFTED_P.
Proof.
  destruct moduli_literal as [-> _]. pose proof entries_literal as H. rewrite forallb_forall in H. apply Forall_forall. intros s Hs. specialize (H s Hs). rewrite forallb_forall in H. apply Forall_forall. intros m Hm. apply nonzero_mod_ok, H, Hm.
Qed.
