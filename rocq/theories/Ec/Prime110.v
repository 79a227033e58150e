(** A prime just above a power of two.  Written by tools/gen_prime110.py: a certificate for Base/Pocklington with
    N - 1 = 201961 * 3517 * 3191 * rest. *)
From Coq Require Import ZArith Znumtheory List.
From Verif Require Import Base.Modeq Base.PrimeCheck Base.Pocklington.
Import ListNotations.
Local Open Scope Z_scope.

Definition p110 : Z := 2 ^ 110 + 45050585342630109.
Definition pW : Z := 1298074214633706952183209424935133.
Definition Wr : Z := 572707457239960607796.
Definition Wg : Z := 1285263657900403264796630832551633.
Definition Wg_q : list (bool * Z * Z) := [(true, 0, 0); (true, 0, 0); (true, 0, 0); (true, 0, 0); (false, 0, 0); (false, 16383, 0); (false, 1298074214632230734602702541225607, 0); (false, 465945328098788336526128790970987, 0); (true, 486365186206386122001839648429770, 1); (false, 16481980396974169184613023872604, 0); (true, 879204884912706111110663816025204, 1); (true, 151931919166094756188467917162769, 0); (true, 143922081930585417931327765182989, 0); (true, 1034230408807608029592811821136791, 0); (true, 62760116420586027538745877855094, 0); (false, 54951328846005070446529910467028, 0); (true, 269504014935528114333249182524737, 0); (false, 827064625681013052990598069488294, 0); (false, 211764344273160800039587668113065, 0); (true, 721076454787892869323710249443100, 0); (true, 1169605230156260120046996910824979, 0); (false, 728364537887721256323062007998598, 0); (false, 544015323693101090768628969825114, 0); (true, 480159658917115899846227869809781, 0); (true, 252547993481712482851891466650914, 0); (true, 161535984646864045891511165044272, 0); (true, 820890570226518525650102167919026, 1); (false, 294861134864780915995283728687996, 0); (false, 734979284985161674583084015363, 0); (false, 17333410798572560973667779983320, 0); (false, 1259043456355599966807087673158656, 0); (false, 290923320432358798098213461221582, 0); (false, 1009338858538950841314060648902853, 0); (true, 898139026002838540725944578440883, 0); (true, 714397563882293711354512977021788, 0); (false, 358984902947374674442454226271962, 0); (true, 801797164352957338977214409647, 0); (false, 108681084733241115190986929418467, 0); (false, 740215594881282399548534936420229, 0); (false, 503489944690954143793204943396076, 0); (true, 1237529444641084927171248816573185, 0); (true, 1105487362452420849102697695478635, 1); (false, 12056858768903780982374735432933, 0); (true, 1207963740978871268393172915239545, 0); (false, 659653107039246798403938798979711, 0); (false, 985163309657373678580722681084591, 0); (false, 1186743556672375351670589020189875, 0); (true, 193803736181012682749112464130229, 0); (false, 1214380162015985579491115406699303, 0); (false, 15737921901906655439823405808943, 0); (false, 24441156917983518725313173148759, 0); (true, 1203995830064822941383746234430907, 1); (false, 320596633950342837538752902192450, 0); (true, 1206808485104077077234760833320582, 1); (false, 579973335554288089656826848543399, 0); (true, 1229514660736023823511601696504599, 1); (true, 943265157844277130613052462229067, 0); (true, 1238504007729611726375807628351002, 1); (false, 1146161984398063682758710683617391, 0); (false, 5379073209212247425311928165386, 0); (false, 48569495869084373294766743018650, 0); (false, 610515492583915591225064828867413, 0); (true, 1277131017595492929091535548897294, 0); (true, 1832738677019111078388103146533, 0); (false, 1015085587979137248537786114176685, 0); (true, 731487570599326416993122501804633, 0); (false, 749603149612693850852217398221815, 0); (false, 575404757967924450542829212280296, 0)].
Lemma Wg_bits : bits_value 1 Wg_q = Wr. Proof. vm_compute. reflexivity. Qed.
Lemma Wg_run : powq pW 2 2 Wg_q = Wg. Proof. vm_compute. reflexivity. Qed.
Lemma Wg_pow : is_pow pW 2 (1 * Wr) Wg. Proof. exact (is_pow_step _ _ _ _ _ _ _ (is_pow_base pW 2) Wg_bits Wg_run). Qed.
Definition Wb : Z := 1043844677564903405951009806791510.
Definition Wb_q : list (bool * Z * Z) := [(true, 1272579527192643503198993871169326, 211806481688876355870366675931916); (false, 123743081852772678657081141099801, 0); (false, 101274742951678864772585194050054, 0); (false, 149099905941198969156934345743927, 0); (true, 744449878703591831120800404664285, 95138906884875335307614195516427); (true, 489783270359186363561414966641029, 752470047054816254316988414864890); (true, 10435191796421403032640864867319, 154609019612828946179161521567162); (false, 176899914164069849963394072543818, 0); (true, 826178739760106561542309776197446, 993523277543292265334687248763118); (true, 10322290177527374607244564717638, 583358362125450634133466411995157); (true, 42015236525801099563149688104536, 767370639514779751346892004577486)].
Lemma Wb_bits : bits_value 1 Wb_q = 3191. Proof. vm_compute. reflexivity. Qed.
Lemma Wb_run : powq pW Wg Wg Wb_q = Wb. Proof. vm_compute. reflexivity. Qed.
Lemma Wb_pow : is_pow pW 2 (1 * Wr * 3191) Wb. Proof. exact (is_pow_step _ _ _ _ _ _ _ (Wg_pow) Wb_bits Wb_run). Qed.
Definition W1 : Z := 314000083948506671698440712557054.
Definition W1_q : list (bool * Z * Z) := [(true, 839406328695964320080209560727937, 618095399200475989944367763757231); (false, 433636903708571184921987041729980, 0); (true, 576641433143785876734518486640984, 407981029905730015297861508585109); (true, 1014226061567365706747667981347607, 761876476837221329897362070003162); (false, 410731936492838227062316397061435, 0); (true, 190748380798988872712544825977575, 347019378275120040686750204439877); (true, 596204786068508053457207586385770, 22706421405029314664621190861282); (true, 160544054108132850036505374389995, 1012189581515411504114268841367224); (true, 6036679404952075362131939109833, 773836285638742992155001090419364); (false, 2617235513646840688435956408969, 0); (true, 5393805934591706828658212726998, 691571647630865589843887125177812)].
Lemma W1_bits : bits_value 1 W1_q = 3517. Proof. vm_compute. reflexivity. Qed.
Lemma W1_run : powq pW Wb Wb W1_q = W1. Proof. vm_compute. reflexivity. Qed.
Lemma W1_pow : is_pow pW 2 (1 * Wr * 3191 * 3517) W1. Proof. exact (is_pow_step _ _ _ _ _ _ _ (Wb_pow) W1_bits W1_run). Qed.
Definition W2 : Z := 388085129023959620361158119321055.
Definition W2_q : list (bool * Z * Z) := [(true, 839406328695964320080209560727937, 618095399200475989944367763757231); (false, 433636903708571184921987041729980, 0); (false, 576641433143785876734518486640984, 0); (false, 198293144896252456332297989047835, 0); (true, 1251241071769751155327024721629363, 758402365495708884885842364418121); (false, 226488704814097805108000953033673, 0); (true, 1103653519051879387219730289890, 485011812110069088057288313535907); (false, 878730924638321909841904752304, 0); (false, 536315387145935204928186465113829, 0); (true, 249825090448196950327049538543362, 229203845762359000555056308656499); (true, 1246482506564682586809590102015493, 403893990795336462620188426945400); (true, 483332305222697470084399062907965, 521179663676070361616335515254934); (false, 6137025787734298731242860894038, 0); (true, 16311357143825565454946572382473, 422099213330254744355053348668124); (false, 731281112675173887529073465766, 0); (false, 590942184081043706693453000890057, 0); (true, 242989638983270323905050516393754, 20757292392300147888408093166375)].
Lemma W2_bits : bits_value 1 W2_q = 201961. Proof. vm_compute. reflexivity. Qed.
Lemma W2_run : powq pW Wb Wb W2_q = W2. Proof. vm_compute. reflexivity. Qed.
Lemma W2_pow : is_pow pW 2 (1 * Wr * 3191 * 201961) W2. Proof. exact (is_pow_step _ _ _ _ _ _ _ (Wb_pow) W2_bits W2_run). Qed.
Definition W3 : Z := 905308662592085578651285819137813.
Definition W3_q : list (bool * Z * Z) := [(false, 1272579527192643503198993871169326, 0); (true, 35252795386695776252034852308931, 20566786843500040447066915465958); (false, 151951366630415642551263293333378, 0); (true, 49054211110456736025918310408704, 654874976464226922225664676247509); (false, 651480710000430995406141761175676, 0); (false, 1095216976423280566015054294974309, 0); (true, 95222992458678706156772995980, 997759533325055914224656047547985); (false, 572887976285373912953927202098277, 0); (true, 482675302975587413254522026346798, 601380242475911391264723309657637); (false, 835896699103489286646149033425287, 0); (true, 193090214444288380361202569811, 976022257566809285826687201097161); (true, 1932056905298651161338762349168, 730343594295397974702899735853713); (false, 698449966823901637094874770369502, 0); (false, 642282277121107425295533027273932, 0); (true, 128477853961006046650241461497064, 616337572027834103899317350842696); (false, 691417123312203063392254851298180, 0); (false, 192003781781140361992826021594424, 0); (false, 271650405732842879290226636256472, 0); (true, 13737248138443966525906807995754, 547771706379261870084679929073352); (false, 170364431583263620202058405486811, 0); (true, 646170502984170234487661281100565, 65911122776342612982377321684508); (false, 773838373672874061006142625376292, 0); (false, 1227567183423482163472638697725312, 0); (false, 62990179526879351357249393332315, 0); (false, 538702368542539241654958290803229, 0); (false, 283301944037555833958102840624, 0); (true, 1119491788017331141016443099298955, 209989318973588272921024556812042); (false, 662760326446019457079320715114065, 0); (true, 476419986254337938969595852132073, 328920567961551074503837037951931)].
Lemma W3_bits : bits_value 1 W3_q = 710296837. Proof. vm_compute. reflexivity. Qed.
Lemma W3_run : powq pW Wg Wg W3_q = W3. Proof. vm_compute. reflexivity. Qed.
Lemma W3_pow : is_pow pW 2 (1 * Wr * 710296837) W3. Proof. exact (is_pow_step _ _ _ _ _ _ _ (Wg_pow) W3_bits W3_run). Qed.
Definition Wo : Z := 1.
Definition Wo_q : list (bool * Z * Z) := [(true, 75955636132477416660049342407285, 280115897806838329158262639969302); (false, 73876784886694474990230148122232, 0); (false, 430916801926842258436290728238780, 0); (false, 676073269778445147477137596159282, 0); (true, 772588650893783788371448818367991, 146115170978833469783311732763428); (false, 22774762159575113005504023952130, 0); (true, 221447311265388725993887486568409, 68583512111404386204691886942485); (false, 755234696849900951405449802608764, 0); (false, 1127786791541913353600885944164137, 0); (true, 227628042095881463101056856761633, 55674894948862282026720467806452); (true, 1051271591629421604011874648341189, 167182663881134529990118619653550); (true, 709314264311848322175300597665028, 183859743004811540614990975972727); (false, 44944228310689110859236883093209, 0); (true, 100333184011689100380001778155209, 156736923919836555170319478274083); (false, 422480214732197649041091414764514, 0); (false, 504077168007090533209451286544795, 0); (true, 332653613630538548804380586007354, 182165422478160537008439302638295)].
Lemma Wo_bits : bits_value 1 Wo_q = 201961. Proof. vm_compute. reflexivity. Qed.
Lemma Wo_run : powq pW W1 W1 Wo_q = Wo. Proof. vm_compute. reflexivity. Qed.
Lemma Wo_pow : is_pow pW 2 (1 * Wr * 3191 * 3517 * 201961) Wo. Proof. exact (is_pow_step _ _ _ _ _ _ _ (W1_pow) Wo_bits Wo_run). Qed.
Lemma pW_exp : 1 * Wr * 3191 * 3517 * 201961 = pW - 1. Proof. vm_compute. reflexivity. Qed.
Lemma pW_one : is_pow pW 2 (pW - 1) 1. Proof. exact (is_pow_exp _ _ _ _ _ Wo_pow pW_exp). Qed.
Lemma prime_201961 : prime 201961. Proof. apply prime_check_sound. vm_compute. reflexivity. Qed.
Lemma prime_3517 : prime 3517. Proof. apply prime_check_sound. vm_compute. reflexivity. Qed.
Lemma prime_3191 : prime 3191. Proof. apply prime_check_sound. vm_compute. reflexivity. Qed.
Lemma Ww1_exp : 1 * Wr * 3191 * 3517 = (pW - 1) / 201961. Proof. vm_compute. reflexivity. Qed.
Lemma Ww1_inv : (W1 - 1) * 693691051656364064869006532866878 - 1 = 167801691150525463076848938353801 * pW. Proof. vm_compute. reflexivity. Qed.
Lemma Ww1_div : pW - 1 = 6427350897617396191260735612 * 201961 ^ 1. Proof. vm_compute. reflexivity. Qed.
Lemma Ww1 : witness pW 2 201961 1. Proof. exact (witness_intro pW 2 201961 1 _ _ _ _ prime_201961 eq_refl Ww1_div pW_one (is_pow_exp _ _ _ _ _ W1_pow Ww1_exp) Ww1_inv). Qed.
Lemma Ww2_exp : 1 * Wr * 3191 * 201961 = (pW - 1) / 3517. Proof. vm_compute. reflexivity. Qed.
Lemma Ww2_inv : (W2 - 1) * 88946391393371541708033991538232 - 1 = 26592294485914874192812472893019 * pW. Proof. vm_compute. reflexivity. Qed.
Lemma Ww2_div : pW - 1 = 369085645332302232636681667596 * 3517 ^ 1. Proof. vm_compute. reflexivity. Qed.
Lemma Ww2 : witness pW 2 3517 1. Proof. exact (witness_intro pW 2 3517 1 _ _ _ _ prime_3517 eq_refl Ww2_div pW_one (is_pow_exp _ _ _ _ _ W2_pow Ww2_exp) Ww2_inv). Qed.
Lemma Ww3_exp : 1 * Wr * 710296837 = (pW - 1) / 3191. Proof. vm_compute. reflexivity. Qed.
Lemma Ww3_inv : (W3 - 1) * 744678294331790533780868853421049 - 1 = 519356831144747411529466911076239 * pW. Proof. vm_compute. reflexivity. Qed.
Lemma Ww3_div : pW - 1 = 406792295403856769722096341252 * 3191 ^ 1. Proof. vm_compute. reflexivity. Qed.
Lemma Ww3 : witness pW 2 3191 1. Proof. exact (witness_intro pW 2 3191 1 _ _ _ _ prime_3191 eq_refl Ww3_div pW_one (is_pow_exp _ _ _ _ _ W3_pow Ww3_exp) Ww3_inv). Qed.
Definition WF : Z := 2266557206867.
Lemma WF_split : WF = 201961 * 3517 * 3191. Proof. vm_compute. reflexivity. Qed.
Lemma pW_shape : pW = (252677256 * WF + 1641782690844) * WF + 1. Proof. vm_compute. reflexivity. Qed.
Lemma prime_pW : prime pW.
Proof.
  apply (bls pW WF 252677256 1641782690844); [reflexivity | discriminate | split; [discriminate | reflexivity] | reflexivity | exact pW_shape |].
  intros r Pr Dr. rewrite WF_split. apply mul_divides; [vm_compute; reflexivity | apply mul_divides; [vm_compute; reflexivity | |] |].
  - exact (witness_divides_1 pW _ _ r eq_refl Ww1 Pr Dr).
  - exact (witness_divides_1 pW _ _ r eq_refl Ww2 Pr Dr).
  - exact (witness_divides_1 pW _ _ r eq_refl Ww3 Pr Dr).
Qed.
Lemma p110_eq : p110 = pW. Proof. vm_compute. reflexivity. Qed.
Theorem prime_110 : prime p110.
Proof. rewrite p110_eq. exact prime_pW. Qed.
