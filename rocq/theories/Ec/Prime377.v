(** MODULUS_377_INT is prime.  Written by tools/gen_prime377.py: a certificate for Base/Pocklington.  With
    N - 1 = 2^46 * 499 * 2557 * Q * rest and Q = 6633514200929891813, the base 5 meets Pocklington's condition at 2, 499, 2557
    and Q; Q - 1 is treated the same way. *)
From Coq Require Import ZArith Znumtheory List.
From Verif Require Import Base.Modeq Base.PrimeCheck Base.Pocklington Ec.Model_util.
Import ListNotations.
Local Open Scope Z_scope.

Definition pQ : Z := 6633514200929891813.
Definition Qr : Z := 5466233956.
Definition Qg : Z := 5505011149389280901.
Definition Qg_q : list (bool * Z * Z) := [(false, 0, 0); (true, 0, 0); (false, 0, 0); (false, 0, 0); (false, 0, 0); (true, 182245, 0); (false, 632371602999053427, 0); (true, 812248484210053844, 0); (true, 2913312845654345904, 0); (true, 891241570453274297, 0); (false, 5564886135178203802, 0); (true, 6292059232653610532, 1); (false, 5675297976250645808, 0); (false, 4281788432469218626, 0); (false, 590686611247322686, 0); (false, 149482134182605869, 0); (false, 439167301548876967, 0); (false, 3586263199511124722, 0); (false, 4528344309301455449, 0); (true, 23118015393687744, 0); (true, 3510863947968310531, 1); (true, 5701657612210827192, 0); (false, 1931264794561193911, 0); (false, 2638254064485435209, 0); (false, 2927894447252728684, 0); (true, 2381828628314531160, 1); (true, 2127765537162732494, 1); (false, 3364248810406701149, 0); (false, 422855045439895862, 0); (true, 1119226797399462114, 0); (false, 26892066840718553, 0); (false, 4730868149530007636, 0)].
Lemma Qg_bits : bits_value 1 Qg_q = Qr. Proof. vm_compute. reflexivity. Qed.
Lemma Qg_run : powq pQ 2 2 Qg_q = Qg. Proof. vm_compute. reflexivity. Qed.
Lemma Qg_pow : is_pow pQ 2 (1 * Qr) Qg. Proof. exact (is_pow_step _ _ _ _ _ _ _ (is_pow_base pQ 2) Qg_bits Qg_run). Qed.
Definition Qa : Z := 2624036308083993485.
Definition Qa_q : list (bool * Z * Z) := [(false, 4568490672809909644, 0); (true, 1134519618075091379, 1276149154682700838); (true, 15183384275428899, 192019851918726564); (true, 5665742880888794951, 4323162128958104637); (false, 1076128279503056041, 0); (false, 5489712601849468, 0); (true, 1814733597407529171, 3793240948576627057); (true, 5572146671745814072, 376601894606511035); (false, 3617074429336735384, 0); (true, 5059597556943705433, 2154278440507601461); (false, 3247036878189565680, 0); (false, 3834619090751000034, 0); (false, 2902427554280604036, 0); (false, 10567179336326949, 0); (true, 166654459638184133, 4793253222210897950)].
Lemma Qa_bits : bits_value 1 Qa_q = 47521. Proof. vm_compute. reflexivity. Qed.
Lemma Qa_run : powq pQ Qg Qg Qa_q = Qa. Proof. vm_compute. reflexivity. Qed.
Lemma Qa_pow : is_pow pQ 2 (1 * Qr * 47521) Qa. Proof. exact (is_pow_step _ _ _ _ _ _ _ (Qg_pow) Qa_bits Qa_run). Qed.
Definition Qb : Z := 608978661488936755.
Definition Qb_q : list (bool * Z * Z) := [(true, 4568490672809909644, 2276629590709897617); (false, 941227273417378, 0); (false, 231939408298597151, 0); (false, 232869270773278532, 0); (true, 2909200019311513874, 4113591955643322350); (true, 1124328028784518944, 853364105983583499); (true, 3815573749364046431, 3756166875385867809); (true, 3385351656185649112, 4691812727370764379); (false, 2059666082802665999, 0); (false, 1038914127302832781, 0); (false, 1848785507617460756, 0); (false, 5888890279026370410, 0); (false, 1874905841868, 0); (true, 922001956077426347, 4748249065599496971)].
Lemma Qb_bits : bits_value 1 Qb_q = 25537. Proof. vm_compute. reflexivity. Qed.
Lemma Qb_run : powq pQ Qg Qg Qb_q = Qb. Proof. vm_compute. reflexivity. Qed.
Lemma Qb_pow : is_pow pQ 2 (1 * Qr * 25537) Qb. Proof. exact (is_pow_step _ _ _ _ _ _ _ (Qg_pow) Qb_bits Qb_run). Qed.
Definition Qo : Z := 1.
Definition Qo_q : list (bool * Z * Z) := [(true, 1037996804948099763, 332055965505871232); (false, 2141148671807943843, 0); (false, 3972891221887437706, 0); (false, 1233815433231604045, 0); (true, 500114277954476999, 2224319972531640919); (true, 504835653413331980, 930278770209502280); (true, 432544103749880673, 2336405077367584848); (true, 4069020675161367440, 1548685946941853783); (false, 2308675688717321064, 0); (false, 1840660839718045653, 0); (false, 577436388208767793, 0); (false, 5410996907015785341, 0); (false, 126568933533385451, 0); (true, 5043242628952428305, 2085652375834223418)].
Lemma Qo_bits : bits_value 1 Qo_q = 25537. Proof. vm_compute. reflexivity. Qed.
Lemma Qo_run : powq pQ Qa Qa Qo_q = Qo. Proof. vm_compute. reflexivity. Qed.
Lemma Qo_pow : is_pow pQ 2 (1 * Qr * 47521 * 25537) Qo. Proof. exact (is_pow_step _ _ _ _ _ _ _ (Qa_pow) Qo_bits Qo_run). Qed.
Lemma pQ_exp : 1 * Qr * 47521 * 25537 = pQ - 1. Proof. vm_compute. reflexivity. Qed.
Lemma pQ_one : is_pow pQ 2 (pQ - 1) 1. Proof. exact (is_pow_exp _ _ _ _ _ Qo_pow pQ_exp). Qed.
Lemma prime_25537 : prime 25537. Proof. apply prime_check_sound. vm_compute. reflexivity. Qed.
Lemma prime_47521 : prime 47521. Proof. apply prime_check_sound. vm_compute. reflexivity. Qed.
Lemma Qw1_exp : 1 * Qr * 47521 = (pQ - 1) / 25537. Proof. vm_compute. reflexivity. Qed.
Lemma Qw1_inv : (Qa - 1) * 567105182662622230 - 1 = 224331258626192763 * pQ. Proof. vm_compute. reflexivity. Qed.
Lemma Qw1_div : pQ - 1 = 259760903823076 * 25537 ^ 1. Proof. vm_compute. reflexivity. Qed.
Lemma Qw1 : witness pQ 2 25537 1. Proof. exact (witness_intro pQ 2 25537 1 _ _ _ _ prime_25537 eq_refl Qw1_div pQ_one (is_pow_exp _ _ _ _ _ Qa_pow Qw1_exp) Qw1_inv). Qed.
Lemma Qw2_exp : 1 * Qr * 25537 = (pQ - 1) / 47521. Proof. vm_compute. reflexivity. Qed.
Lemma Qw2_inv : (Qb - 1) * 374343979758243295 - 1 = 34366022115044233 * pQ. Proof. vm_compute. reflexivity. Qed.
Lemma Qw2_div : pQ - 1 = 139591216534372 * 47521 ^ 1. Proof. vm_compute. reflexivity. Qed.
Lemma Qw2 : witness pQ 2 47521 1. Proof. exact (witness_intro pQ 2 47521 1 _ _ _ _ prime_47521 eq_refl Qw2_div pQ_one (is_pow_exp _ _ _ _ _ Qb_pow Qw2_exp) Qw2_inv). Qed.
Lemma pQ_shape : pQ = (4 * (25537 * 47521) + 612058848) * (25537 * 47521) + 1. Proof. vm_compute. reflexivity. Qed.
Lemma prime_Q : prime pQ.
Proof.
  apply (bls pQ (25537 * 47521) 4 612058848); [reflexivity | discriminate | split; [discriminate | reflexivity] | reflexivity | exact pQ_shape |].
  intros r Pr Dr. apply mul_divides; [vm_compute; reflexivity | |].
  - exact (witness_divides_1 pQ _ _ r eq_refl Qw1 Pr Dr).
  - exact (witness_divides_1 pQ _ _ r eq_refl Qw2 Pr Dr).
Qed.

Definition pN : Z := 258664426012969094010652733694893533536393512754914660539884262666720468348340822774968888139573360124440321458177.
Definition Nr : Z := 434292137733335236419232425048577533059747412345237137685391695509098001601.
Definition Ng : Z := 35359712565530910560130612811912351770236356633923679392574213479364474533529129668986698224986760179477461575971.
Definition Ng_q : list (bool * Z * Z) := [(true, 0, 0); (true, 0, 0); (true, 0, 0); (false, 0, 0); (true, 0, 0); (false, 0, 0); (true, 1367553588520643812078338277444211184275031744536919593839, 3); (true, 206477171482225331627586428666680666613317362969631423287218563616475907582024040358705647613634256046346735618408, 4); (true, 60111090386512127157287951727576211209031879223988321092656459793717198224416227589586708470361275351370884415143, 0); (false, 1887104622228567684379606134353163960325919699863939806700464288753843084080526500139494844993607431206210206690, 0); (false, 78732820251719855301883412850549177439121896617681959651891823412419430620599752148665418024361762548630563578805, 0); (true, 200845361568202679812166458508723734104277748760103426514118978462403851113392713245479654372662242318471773652479, 1); (true, 2860307125822689018294555994065087249425670298206274381185994788653100566355621717253045084591013736892702367644, 0); (false, 138745008152314646904905691582882533025191952941237067795597085777720131059637916777655640535173375488251986079721, 0); (false, 48634403805338213682365381280257404524453390973041396515996809936216415581939957301882555562348402297178272793886, 0); (true, 12321011528605174388055639732746574935113601653367445733024235874623050902886520779754991506620324029635292308505, 2); (true, 92150075379950322072050990741487906855412911402556685522112520929095202775610788203139629600725273416362513440878, 2); (true, 2811498594086934104532391077014129832794780902799305081972476720224778925085324973612031846179023269326950312224, 2); (true, 150005599799370233798537350928280683220250121260850829644902559634816557793005435631886846146455354507602269065956, 4); (false, 129768516774404984520780344569554805473675571179257329410588185103209451648855523983503973530697412039170107974263, 0); (true, 191563865711769817678736597334748211279445034922237761513434292861943111990349380831103464213960704447740232100150, 4); (true, 19859288753278772231759228325821045728853877786513720980786596839274360389222408068131309822656826394003152642788, 2); (false, 80326666566670168914779551374750409475706026021006061496520543784656639505285603345096835697950629661429288900884, 0); (true, 24653069778647869347933492197980107972529840851251830728880094730347467499222619368491555977749721912923659533109, 4); (false, 5226569800606637301878502228785515346474166084984706689970828844002388003040698268025269686225432861652175397354, 0); (true, 222123319403235463674306119813487724009147514161613197075414215263948757188352347909742037638556244672779032924755, 1); (false, 182158490548359345156608106725050749000121899149777586255219063035837395166617309382629747590154289781937962946832, 0); (true, 36337460492945019045559615122359111953571095095360558549994439601733933136369122145965285802727368673750885369327, 1); (true, 256782642230959718761250543512883208405242547356052513209759651013625983370837154599787861374658095028975273238101, 3); (true, 13377183716006056064766152939376101252676773914532802946409647981679967132155565041325937775527868869703319956121, 0); (true, 7424098070070557483662712934783386553790602318447244436572511492058780730971193015422937265284810432431501851655, 3); (false, 20966726682541124335551379074892509905066436608218430298365849802507925939575557116272334222828952412294617673217, 0); (true, 2095946720080399326471656065933835150632482316051070878098322811800092303622936367887887312221314498079117098394, 1); (false, 20106852422447469706660615009190320266955202103627056858499680142907406991381116650605394691363323625947250484117, 0); (false, 94732230481115562066162617318121341759499732982419771757127050555713172116363081977219343471375894864762425795825, 0); (true, 232027423227596342208516214842037600887244118299988480815946891484259945802807741003453859009055525283976064042147, 4); (true, 176970074635297804300614408144090960045067961083758139716316469479720963554342736165959839365352240683791238132375, 2); (false, 136562999651242321555173990784680136335556442440605676346120168601999531187115272084467657831126973358163481412814, 0); (false, 161614406807220282790755221665553798569413461435652317909716155952741748982813643685169743714101504799859045463317, 0); (false, 1650761032069077272519695488498097208679102394596267704890347797627440938069260326099280400417510845803916696146, 0); (false, 216855724705280335057608216983598643047309389360137883682223664307596097863615061493348493524172695432882738029607, 0); (true, 197970028570611390046140411782490405654923247588283929784348517250726213523257767222325332202861098646365857107814, 1); (true, 32868560687949845211230829752219973212626724720629137898758569527371164214981218425573116204516934448804862843363, 2); (true, 33097610275420013786750299799687881603625203118066738305060394824006579656140567513500460315049295048346968616351, 4); (false, 53032542974763277603809495927600782255025957379264728502030745791326448065632347642051996256657339272664999471843, 0); (false, 780532207655817428644901326587918139348657752703306831379564877568303301316053554999888656506045214722551415491, 0); (false, 1016660057877856946946853264210497917022833168364275541351895880696094827115586598056485486009374983567957546559, 0); (false, 33184041643737792109781236428306347099307940150765162981284812886510399745035601918032656135163116973323352185390, 0); (false, 24533259455562173563782660330604179275291410577242459846596444181858903086171788716665513205373106089230865927091, 0); (false, 89644624519268135211275691384612678944648052611884562437185479224283461679607256564198797910828891686012525093418, 0); (false, 17732372628712483296175199751977832728942012452482788934206476911394856804188026994663331344995085836528159760048, 0); (true, 38661746694837573088663194296614586791840983657518550835408078040876232183806853494830432781312415767995815145447, 4); (false, 111888165995152988155852645802118436865359186739950435903454810066641400774604002399981957188563313462649479994477, 0); (true, 1169066129599523722016244264803885828721179551991343926301807577426679171828010671164477767010512483170134607573, 3); (false, 145697709613125578153544266626272390684157312898553049242301006577932545771717209180423761598546930482180238003186, 0); (false, 183617281763778198345118452816060652535624192324268056925492791815777443564990188382254257723276090916885178770759, 0); (true, 12613620749418228687616047689500941447961473374297303699220869208208295355084813037023127171418964040887953371047, 3); (false, 146975028641312989051584003644776585263946371427004844023247669484154991336863182773072987521475095170133347717322, 0); (false, 38032730347725842244928134059008585611450348132423821782994293992001336762414185993724243798021172432764421933392, 0); (false, 44074833676425004428921124774888848229724105389713164596336694551970245772012621346243931098844033506722663542081, 0); (true, 27781373241966947413286948980381711816992560961846059095164295601082681722423390807771694557228414800665671281190, 4); (false, 145062270030183358931954699764881512490224525570162856567040460286091065752400478491769025697497301438276023270959, 0); (true, 173485225248051045942694241223254634210583090078021910833414679742856591323619813662052289384514241996012014991509, 0); (true, 134237433480843283889773572058116251861927197047209029510405527399423861704383609093122289925467828081278401513685, 0); (true, 160920803994817115010720723043997049448722342368546552742314364176030350493934943543775709244862821156275946076828, 4); (false, 253032844728047639416363812064450680482783499187461278356343431201500137424676468885289398847426379201784301970889, 0); (true, 20389281620525117015599736643864525000060880204871021926877901218558650117240218932781985833174398956363094703934, 2); (true, 229182374826146977472568505595630206947534515967960477699201163398001041626088296470343399453053988972664216914798, 4); (true, 47294615142043249572548782346536449622170463051078478708213362539135856587763415506156020220111908985824110379846, 2); (true, 20716634687979466177360861391769880478901909694706047342486497463097548020639820393842784645411102871366756327856, 2); (false, 165784586663323933885226492545585410843499057355619621238427623152299177789453737515537767616619566049515490300072, 0); (true, 119271067028033592271253165884455201693297857814947901741526509798349262471769603634970993243965738711212567585290, 4); (false, 65176684173865712314116238494577022808054649463023512064749696331498755565179699302501780448287788913472308506880, 0); (false, 10166679847290533064405074218661387468833995962231401910351380275447074178380420908793579234921632395996681692795, 0); (false, 52277573748173301233788399435590218060810470911194556299730320520452948151032369926405476248645257576051687105230, 0); (true, 4690367332637951087058093655042745158576962249278986908495264293219910491664951341390487915352124583146967877420, 4); (true, 52261538215987652281561391157317802039766293907977749470895236146237269148077097735271891347262944900639713440065, 0); (true, 51224101655739846472675089715916214167212432998554485822225111452178607688383730248674807897505669413343697602138, 0); (false, 221252265458039873242192520501147594247064151549849731980410534372089841347562520821580295642636475009734902513869, 0); (true, 18319020664098349322974478873314171951152428350760207944805017847544063555402057646049919404880473578372078013483, 2); (true, 1264989042974062340091860042112399719155975677403145379735255871847893777242233309717874179973752185874981867479, 4); (true, 11490157493534504753215663189847621663610397066642582220430917299744787014272767791798428263013275577418228984451, 1); (false, 92982430671781492480281645322482255702686519005771712878424309665867040874487429136470257284714471772930442341770, 0); (false, 66928074552727989030174106892207135373980138897259328810347676190874971737991623318532071750644444356913137389205, 0); (true, 16395327031185539367078861662283324353471515211190490883749413145115223889343562765185860766237960531677370373094, 2); (false, 169202941399141764759010883060942378521871300419628198096404401497370862553501605097547458960660091544241543912259, 0); (false, 45586171599931918895030986614658217622807889157046788639148629890126620564697295093271170243179568834064579751282, 0); (false, 1280494127741565453343593481429543825835977710635959733164782043272688514234589832830918146989742777328250734718, 0); (false, 65935503165172228716079619506041091672925784426972202591386711948812757364869641200662681554169561464128825968678, 0); (true, 1445281135618847990022229514692274155196993990855674808310553377048740531403922742068611590615579361202433846218, 3); (true, 176362819428922217358868587994940823102558375073839825195142837448723555892446682585822544465739353503862904959968, 3); (true, 38581555858241328450531098664393469686520828333496349859913775530814507600331189054890651600592767257001970443585, 4); (true, 1170960929837427070615888702144684521932596935119371892312043456733787141829815237104999535293150767118014865534, 4); (false, 22038467120283783213424327817373002279940206868826150609963296471393789436364456349110178758109495336715203731909, 0); (true, 41057124733723895188286301939502365017536526279748617823479585702742832709636843149409939569286853356501465620242, 3); (false, 118722475578448512750823160517436663384643212928669469311561701198272649829654421279664037913231734490621004679503, 0); (true, 76466250149492853340663167027327479036886641385582687607570772940081718899406724688697164220510568857130564247134, 4); (true, 431534508361413991374322930548047213496601517098580398913140675231388479761994015988771366438007467494269413775, 3); (true, 233618729496575022694246693257932210989597914168781410335948965891992386362493164077406686838657446106854282296088, 1); (false, 129685570930106792299663804406828151764946018408122321875965679003340785957814522205729589229359739875092705518293, 0); (false, 226110224671180296012048175004411585328365085144581569807942295728886601144422010394609370515451361017897258745784, 0); (false, 102947414312927223297855311836422496738676535011539797897959279790826043378204758171249441271481549608985358862489, 0); (false, 35167149780041659013829918354988821610624346749842422567869537721444313634536498602446363141611515826037845694740, 0); (true, 32021028937080556761684858982713418364439897529072690192323068351299326781970933703552227074438256838346756104505, 2); (false, 78141143421394278863713375645732336793241264456161004050574619559197855379850930693930599407401881583660864826813, 0); (true, 118251868303528928800051165188452655505849283723918986511453577474232419265892420658558951270983701731617442045621, 0); (false, 30731720947877919767281988979344739504598277656658997389524629909390054645448903133577915382395053491916943895381, 0); (false, 10017434435161206360742191844241085878130113936118809362061048557390400528985020748236001147926625319341125351597, 0); (false, 3010374699790470458178059241762460290799758354759875317681783785630820129865088717756032254708089024654285284989, 0); (true, 77964763424695218507870240846468916186216295085582015056950268165277784371736369107035174664383392918580425756137, 3); (false, 13013226223861399482724781528880175065675558119027610881701975329396322674609165906374151387756414924497900330119, 0); (false, 62465926617697775089531710605371384516624650241016116352632789009192271284042064219290911342325973457625473237689, 0); (true, 4553157253799637220058642954286856141445607018760782241837788239213399458374216663871429573259845523002238381074, 2); (false, 3011433983351045029852749405784978059690251136617371845473556905386789190745170267323778411044645311649941465234, 0); (false, 16776552301135826381746448742074730822946875678092913591489846555960061866158555444099537743533002678596845112577, 0); (true, 128756414647383570153806700352563309989857034643160332510262394587667013741006676641216851417020841232524442994687, 1); (false, 65655680532659563177521707048501236417969183692278208898739507312226307755981680614709379022374178287250738420576, 0); (false, 257264254153677703022718360113899498947344637732359331716678281230501356918873143330405558432477358117266895151801, 0); (false, 229827781646094296446751243700601542254675137164419182287928500590977068513397284108387170574031579457722108877234, 0); (true, 52052677875124183463379730888509143177086601612843167521508838571581169784424003313672585096911351607481266475553, 3); (false, 162927208579489862423307064417526585035275272251562426779099937164529879777573786504997471723267062332613241681729, 0); (false, 161425991287475418277200203940632154456537036080045856941453999326120667044432842672372089927940607641432715134845, 0); (false, 26637079517104535590798190763384638708576248498165351800773458971328682649542143968205212006234061105739414019823, 0); (false, 60476315489542561408791399392085785903229586288554557061775597333900786333333833757779975350839633655349646791676, 0); (false, 28976459718968165165123747597458817194153219049584694468322363805810457966279414903502019694907010128621749372527, 0); (true, 2386197264589577751538954390924765950486080911062855589482489249408847270610270696752347924733785684577875851681, 1); (true, 4646698461511916078021134769298071476009718866782470310700269071922691077843367663551085502951586251075048572090, 1); (true, 62745145794632221816728552345677719536297517379791930463236376019431394711769251534633078241064741459521173172684, 1); (true, 114679114632661463717612237338834277086278149435614642812836372056140432049727637007152043109847825835182325876069, 3); (true, 36330716802103720032845130311955295716078098220234832372340213529836142564813781321770829163969729749225540442976, 2); (false, 937419891352800486956555131557398816063675469336089016567782815436970955967100930977831048621679210260999641, 0); (true, 107760744816936563721714178755898556320308401401837879703303152780684668869382559220484414189277763993092213023367, 4); (true, 110195023574020563723942153963448179346439817363262933289317614550607598917022913512393637823708768083994476490106, 3); (false, 2617625239780733594533823603225230358052603859448424090472805645659634966064337899094555599758614364500860763422, 0); (true, 126488256015226848854289727267378475763905787493488127096087554409751356182982121151680787091394674231951552154905, 0); (false, 13603628163610386950861893443300829686163729623807670622757874292349831428660243995644128488339553974633058797944, 0); (true, 34156929444263164035564573159169290516926764517429269483115381962352771517583566768357872572400090029553879427106, 0); (false, 230646916736657984655455701384618556374952073083574543437579653300090926091773072174229612919090852127849414280770, 0); (true, 175245863870016490818453505972362223106765101395551482794921422263308671945447321041447787434738757471026620198729, 3); (true, 11727628379935246815700171222609759695752147766384000820658255972530588344536478956610345662200901764272577745313, 0); (true, 5131293976012420820969653031029288012171003170262295667756180100878250438302881455323979518156995003231501994169, 4); (true, 235456130928143457643573203236361591593337770669177435051612050356303625010096760832283802160875916897837304055720, 1); (true, 227691041849862797541833365423499372188810075303825058229162221603187039495307426708051424271409084803265708873587, 3); (true, 142839060386486467169077134005844954981149410935120403611886642510219475536131966145624909365358803697532675731841, 0); (true, 148731691316714683354414349851574547155698631984598139349622900539404794479391834984143278642720668457615540710398, 3); (false, 7791850080606723569867988552259335036574600448739253818502112996466556052236590060011027690522529477462396016376, 0); (true, 240019771887472885355961871458953682640481838674980933591647966490419362403751257886210331214605007495252196602655, 0); (true, 86934582856102271992852516209158615508943367768339465518110036904383132801071943920361275537122351048733760993923, 1); (false, 149899361583174894327273325922098335387350004574520980111175388832128563437696768022688886607314595910985140294710, 0); (true, 124068675732247683866590201037682862397047708564012368550510824341282268349757008794081547766100583524179223096551, 4); (true, 43735471705594473112060083746524356707459264698081252275645016036338060471902588689252156230500688043424220562375, 2); (true, 106672930599038251131369299806440999858599367841874509098850819700858778908878543929451627439362275534454809387628, 1); (true, 18441413232773446790545589957219629945862089796436468903341678073400692225960780116959905886922216784356361025722, 1); (true, 23622867548568530872670690718499994824396371919814254649774282344647244555606176067032694010241132280661760986193, 2); (false, 27994145829593994380761438246764044331725822963102508177463651734213636343824929516428486042084308309023369450243, 0); (false, 175547806956961910018798527268725743342921069906687705911018195363037282587156549592934409395667986105448288204612, 0); (true, 6338632607631600251927171772722775940705097116812498278258873221421452786336032185029932784261035484411195129657, 4); (true, 11519755995177383195128676793143946151971563602475724768720763773369977343155310597101221480233055579725352102756, 2); (true, 20986022903300573727349524509344348901630125863854029767751696510215613946405754235535069826429761347722626560389, 3); (false, 175191991860433037172456047536379712750484033697107518992142219378326777509696912562415291121529638935227086550108, 0); (false, 105635282600653524184213051858254114885376159387329882096406808224614719097566112986564474317210863003052595284480, 0); (true, 204542737542282066420694471311337215512000866472992526753684553597435861435853375663890963554849597682789897357837, 0); (false, 9014352928976165641396988458427799897122109372908702969681794509921278822704334654581826130361148259325860158424, 0); (false, 42956524548843008247777899898943130508643855530747250945862098714083138939412545754401828953312605662512941807758, 0); (false, 115032091242943278981647243803181096680869383404720508802404873362992037125850838566643740545230080664587660845395, 0); (false, 257129395901281199620668310417548982437838518605387826746689043004251125903801012599103024629106227059152629119889, 0); (true, 42529468949672772996687628273347824018226484505697815104887926086358957093607065867822177346125804582227662588913, 4); (false, 10190098346799274026339225110639371886207721585751631504812359538563055435497280845725246808134568082400372325088, 0); (true, 207765207942678573358013029157751123525792323215733738489900556675798605757701738957033871871271734450818252311014, 3); (true, 187343542194434111280852089411388938704356476677592282798303997690075635406485084901708782607722997330925055475507, 4); (true, 287805950684300095808169825381456243506648110732681679872232616725427410360439027639812369185728335684558528258, 4); (false, 100143368337147570507478084511265255667369413387808590560465157798991515899887942150669321634417332782098756622599, 0); (true, 15116667413502150394613818408244486307615625585234342423699749150482067231649252248230682115580012422940897851710, 0); (true, 58982157115574790441183930162583836314582197716136072218397009494533091917168255891785291538309307568888285347552, 3); (true, 75851721969934208085630982034512457661806733428805060465245036089178347847867318513163442774721429045098651729130, 2); (true, 48957113928708230875091193595992469301852782506290559214998057230390287027643354998736076294468113338551324860179, 1); (true, 90432841297280621363856642073494264071436851357744973895842181392668852575904464993853873294055154763303479105753, 2); (false, 112610043686333451066462376015969340782309838493537837928934560988470354975496096220980262147210381566030369853593, 0); (false, 837449413063055502039636820306669391389862963802035524262905585413249935676186167942995301522371070374746316539, 0); (false, 36761143380978593916617998684624109570018947595218449790730156460219036072980567241421041130459599698778726752140, 0); (true, 32164084474041761940673781895275846762917397053841870514617169869973790039894498063978745845090333729253604417449, 1); (true, 43628526300742849830682179108514531502538649483136230163165067054456814254792655268532006914332803858205622719716, 2); (false, 68238281846375278317391058823866350214648240529341502993776809230645491177782067023523978677018456299449276769934, 0); (true, 255133758432770200607302574395530093445674660138258015559769432935267282546058380060708319216801782017293491726227, 4); (false, 213764137897854494773514626371980232070598029490273246138683852523722241750767103167056304013967832387852534285312, 0); (false, 97248966636329001028927682626217918148762917481409015022948906803772439074766117688546608889286192079939351916463, 0); (false, 12375551414598632298703483564664012305328023696412010204763249352120878882254710862937779070799557841188944968296, 0); (true, 133411189042018481637282954991595219130117955746388611276491752817507980804147360370853910013442470485012465542579, 4); (false, 37380771055809598543528947487391108772240221832283670778056511305928915777452418701381163280231053443651461022127, 0); (false, 15001545819313254793232595254506043802347624137947518958705597941187511232593788428945623724518800944024283736012, 0); (false, 361197119763309640361207898687454602160589299449558241751463198270779817185405142253121245818924021279800383251, 0); (false, 54119565321743458395313906175813472459229343450492779978734324322439781741967250314357835858752191536712655110638, 0); (true, 15107087562988822687980728220060088367167645138769448020224662769806580666080603325248811408691051584535227622963, 0); (true, 52835070685103016084384613399797429996914791490806265985854185407880489295492137204989505299998600922306322828153, 2); (false, 6596368553063182147377767834973981308298688653615182130191935048096437172401362482427782452158489742789218486558, 0); (false, 42799295702010508034796326238394509921829776439454520294679119599779225986745906214208804029112504232156132521532, 0); (true, 75108756356201606016942940527181734524991781910853653824949578198021358688514165493651503668714250171485956189450, 2); (true, 17011338726972889570225219984853593485486373209512065943189480100670861861584660462863010214892418539083868863669, 0); (true, 47919090804811290575249687053737599527050193718515012181641306328757440404757023569948884148981267778295590393274, 4); (false, 19565801223431481128181779265382457012133554055835356180309089803755957872960784686068994353375887600713942453218, 0); (false, 130687664669391605185938306386846546033007033608539098814896482532179382170027833775795988544818577912041413399659, 0); (true, 1346565263626490204628811861670481089008112728558754110876637330366831566054912182758432519826401533127030628726, 3); (false, 876570260676920054987016214020455840182420565479818399655655118531454122709907679840191453826214868645993310125, 0); (true, 5503610803602898381124366779475401750497688454777099318563271023719321184730723323283604968730870663207809593844, 1); (true, 6090883775825703536905250654603916790630060144662659105321886392482260850815543631849809713058780949718907961389, 2); (false, 500606756022408399012883700245382922337546638991711394701247355626438773905297130815353196255845208903841221097, 0); (true, 122284065632832946960063740807593019996791759020667282119417928330477952509393271162703438491187168293842680476821, 0); (false, 10929020816123834049671069733786040583234871852248127135897827711467476798178796081235091312409763883460647864633, 0); (false, 120222730574300964974109116871238521697011978509943543010293179443291499951344137664483291435382320379482643191112, 0); (false, 13566136293071865243630586278790511018216786213751109762351531538750584561415376637547542707947114349141251917994, 0); (false, 152598216782973044319510821590617597039241694678968183953689051349134725488579810391868191208997011633782944874343, 0); (true, 124182682838275768996225939101362411887941524056828916019075638813011442324363157863327360367298761464121175578627, 2); (false, 42436073340393681477995577344482784518355409244873695113353231526820010569923869030610117928323554529872419885787, 0); (false, 59429633146247747975778930410356362673986747610585432924322478025383410836552587154103009215135875170236065187695, 0); (false, 45402860125707952053126240420964741706268717708410075116525459091136707176081614070922358633130930870369529516640, 0); (false, 132353369187423400171198228542399993928668701414606086884078554465554025010892290759980675119978566738518102444022, 0); (false, 253140876429078805448578792592396822657412479351951679828885876870546477068482718667573600558032943781417370998717, 0); (true, 5923127564462797693686696479873732022765409753656080060693583660983289326466688581196539128329020499914514581227, 2); (true, 175807660365828956389693764437744882594870946178625072219460317476607471220309197102955748174418465572489310145403, 0); (true, 212439899836552453107703996018295403420151203626609369505926860372077246318173490066175376675722803772425692659571, 2); (true, 753733111312512821433701045384256059082677754999977591010505075955527744277535752139319712109326961202882977323, 1); (true, 61689404428786378843414067845162718054012004721913602265646192587774327771399540502389439716559514240608937295441, 1); (true, 224256619896273652225402501114376176660424698109995477391772290023319009162603448868583013253038000453703978857923, 0); (false, 3885406205137948656481678717836875041158476428484462055092336799000981575486693896000780335649747472857409429316, 0); (false, 228285764138511465245630910896239378720435707056332010833284398365976642151452710540716182316443474634838157225611, 0); (false, 28787465028998448677214676539955676006539378817670536684855228665377107327522018111491772197203264510584057499243, 0); (true, 52665030125698376047964228369510251847887339582927491119524075841451598734522743327619606100688631281541701053376, 1); (true, 42256426892840826807681196465337323598391938052420660933426355270981518492468542489183974333582161529293005317212, 1); (false, 76139130793083685320462932893721845346807362308964322277685377768228536730806931246567555689850960251324488955384, 0); (true, 203478314453684008901145224600048208484935248932307092269468228252520421461600163796408520375894040947656998374890, 3); (false, 68685856609073915522066778839139771105182072589123579607720092205464143924266939229051964084787934549674028793191, 0); (true, 85606333304204191912952370839766789422793292401342703705298131902112013144643695087127443271951359599920141004838, 2); (true, 184430837023383549483211579597769866209844109217747956058240094415453946725153564052221920213222135886287936937369, 0); (true, 71097608280414043471598190338870350889318152492908676198327224289020202777337107447958300631538728930366801119878, 0); (true, 14855781030408830354082821828791171933299075029767809519348705947910501333432051230228780150255779197609837125992, 3); (false, 81005496661591621013047392743010633037515952867542380943374162956712648774852928655091572660726382167222316487376, 0); (true, 19216846729097720381481345797922989812159297023902692130662796919202110698341099596217945968580165590220963376340, 2); (false, 46719657771331718421105700777618149240877802154846545033082661566604223060256205083686801378267639668421050984745, 0); (false, 28897280216962270730943355124877858347144949744910762779395177403284038130259653826826683117637619389431914166467, 0); (true, 116619360700295785055728834827329038791749830716802665394649386271436500006983598203590676008434350285751059853896, 4); (true, 2671136366268836345343417400367993562956945707807252265098123509087440630048155882242457726235535717493836745542, 3); (false, 997249981190596830520450555000690753126489460338785813944758699622548989444691890723134878745307526975384829520, 0); (false, 14077279946764395256435092674040686695604989617296307512643272703259301994192324442805928545007209349840321338838, 0); (false, 125148550532307251187699695630147319739475998863856333406130455539993287348967867469996377591623985044000638280951, 0); (false, 242737021032894696783885706719380107759817660785395357799038670627825580986030925713433217394105010694241345644813, 0); (false, 231925166249427959261671939458459538290536885144461226997839615133814050822757808671632126799778539888441397186131, 0); (true, 185576273679530263479560501731639266009788032325901282505302658531808888095402036554044207200519184867665786171747, 2)].
Lemma Ng_bits : bits_value 1 Ng_q = Nr. Proof. vm_compute. reflexivity. Qed.
Lemma Ng_run : powq pN 5 5 Ng_q = Ng. Proof. vm_compute. reflexivity. Qed.
Lemma Ng_pow : is_pow pN 5 (1 * Nr) Ng. Proof. exact (is_pow_step _ _ _ _ _ _ _ (is_pow_base pN 5) Ng_bits Ng_run). Qed.
Definition Nu : Z := 126853189557593784986048861277606819239397707014917732634797894246456260512004488518667583406922316947012731166849.
Definition Nu_q : list (bool * Z * Z) := [(false, 4833711739913843842051270959014077164962109668064095037902875437778835845478451860753539967879523635412896376314, 0); (true, 67324014680650903160655374126784316220102610127244990384104097709592228662277611014526003589325949918561562570123, 33233592805317700571977194807661793088942068619687142507829958255768386184852001086446076243645418094835524216227); (true, 23279741296811061299801878554356999785933338194027981842209957894794672238672067798293299604945713587100110934786, 6107619921551277908903147197608927291951401701974014811042082150678998188870133857669335850292206122213685228173); (true, 52320935118192722513455145280330394562800519469298155734415378232787854944623049410178365200547228237560337126253, 2832056600652395152903826757941678322420910101610405945780360444506451429391111822676802204884037654444715680086); (false, 47331689707060220645034535997074703646870771106365694954414456320564198200305689016662532435317479155745502002940, 0); (false, 194632084762997842281559161524822904672882501726261738096473786599418472370260089449726628967286523491754623292276, 0); (false, 15053625823205904929923430146955666036371080265473799897044003374613632108265630369463604104201143829003913663553, 0); (false, 1673583897185687240898502379924680444327464605733042271194873147980176352125152241753059646551953217967269677691, 0); (false, 96247059418617169542283947964046991217938924561850340628131717451070155744562203977439617168896660230720926952575, 0); (false, 223500881184291891685088054712040781919018219916768702888793571717873092377363615853510311535869065813305180096094, 0); (true, 7947793519630280880346263654965452586357761512950948565394308607491262155893152002455346538411506844915797282969, 13518356950009888564557763665437855693516994771464450680130192254555326835716865203361126948538934944411513386776); (true, 45275600421031488716361460244041652705290872817142081744738608813210978118032818256072468121011421789655498296720, 14654287683068651836427796072141852462165613903818070953476653991757841739935857165513666795837063978123838088696); (true, 2062059860912439190821027918081123200785755859888353998182759161904543302679930079654112542916404500565487378617, 2267573405176578864730274324338327586917634205979535752696239477378402218191892290637081164181018602106125796201); (false, 238595132412548981212273501416124708316302136243373444885469939375720918793867540148200031348283667433333512651969, 0); (true, 31293822700123119583025653890687849205344872472608746587937418632549402918237409863058431640164953517919540893, 254829648901430229425850939303042797168256626883146428950109235505052281833274653468775352047478327080722030793); (true, 17132016452208490155154956401360346013241654767979110954766918870717693368339622521277260054375222560155651636466, 2459512403761065562723548977371359803195740189011944078590354724196339300147827127368778780381834571556107635446); (true, 258302157530246350308070552288545941171752794691463259514208790248806824672251121466216297622816828080013692725507, 2757254624271735983665705790158380817800143715732117188190866525004064512431815288127304686225029444994873714323); (true, 252400830299586708374902072217840049616381669784531688269578817185132697820288065744569811260347909466047019425586, 10138303347576532526509846128176863932156408276200729875553848935265731237797760449953670025874157450944568247503); (true, 101825625853482646006239445360379541250611769079776101861914497737634128640331008070551283034289618334850856534253, 11990842134001648942911627941145457938632398959336535322532322046816880272578885483426586663693489068564222815410); (false, 150429686988709303688709244440231256660928249936995902899268600153488347089721859497645351889670027300222775946905, 0); (true, 24341894646450234434065868034187000867356893322662430797712402881521312978125920990424422892285893308425417531331, 35196977169123791194936035924638446859411955460373393184530677782187366337925719639323548225900647958428711757891); (false, 83151470326904938595550837377933268788045920026216254855959596527882345632242833262916311546145573858305530040543, 0); (false, 142214033208302421852061302523687797864225710110508242971473829904285456279643776943098582543179814667635833112313, 0); (false, 11797490744416461299795343497672126883297104716003646866242603246433996086249127355635245811507779187145011216, 0); (false, 49010440897655094529828073339741929380043883580532986108976893293783820264168914077987306137272214535427350620836, 0); (false, 249394193235969145307650785086074366450168433991314549465730227446318320728857265436170273004292048751394198733989, 0); (false, 62425409886795363152760500069462409541583515907366507740739150225963305177012016824554876787225295113134171192110, 0); (true, 173853132246570099412864783460599125917950220615296647224286412865563353751849142850280560822286156269161845544299, 3150308370089463803609686034366492831296448148365265234710147466240111243285819603089046477853675430403111566526); (false, 69007398934513834640720713446656177418404790216320553712109636625060921596595689983028732561771357750777156275097, 0); (true, 7181070647200879317101576693838998421146718538349197357125458705943273376046803654349321642333722677121839780930, 18865442132043323335937925761450795690969569761377607488766037167664815391761108579824984969177137032865294266262); (false, 103952224651544245154862794357011360781209349924166621287394708657838017547393140790947194738028869756087172459072, 0); (false, 135845518293288534237737569205534856878623123863147568734622159323427231767867437952392726013660765681308305600503, 0); (false, 49318799938931648202083740950362425584079760492712505538783236244570234433048930242066412339343509456302913721180, 0); (true, 14194313950919687740139790640346742162732877652393441170640645263754467854185021606752706995854099980018057354791, 14984212538728912124593349626554765734618732354252549559274577011938564986443333658623789648619627406639283451102); (false, 210740683916921485459022749705530378743909071574122840318496383685227699058117910549985215417269937115251684469953, 0); (true, 248194454781031834446447310194091464803007852511191211658273249972801628908400880591017042008080065088524757275803, 27249574468970808375429603452174565718457486065411486365529122706827597093001809989899960402652395912162238491408); (true, 95010447473288646378904636790451028159382182237628116307103735860122886764952616849917115488403815494702758903907, 29302636424327860766900980342225213578165512356409597711318815437867516113781851105070676998903047903559841919466); (false, 1228990937267070874054529577479399655090806089665214143562677117643631221160041007261244783193512112104243153763, 0); (true, 18181759350810243753045275263609159421938025338988988766448471301850992775651102650137531414588573227848530390418, 19038388803813124098691472616194160925354898914218466712971035792367194238235897936335928948283932328092879543742); (true, 5695871615824957647543078608984913022926126436009825128393742280335667211285072316876440954114382979085333222621, 10460762529919377133728530565784671652515022874436377764439140232704558750084913848515611799136676190861495214187); (true, 69541248635221744805644047424630907637284128349339687566441802694447389990216923115493801809369028074664467294702, 18768500874559626002189223411875019925713739724538309523739091965450047730795303303629827346502232941990440905423); (false, 83838959869740355948043321597480888572160661646078850293144568562317254932364902004459098158716339988207310307369, 0); (true, 3054230785463197591705232520955677034511954374076907088866147470546687039769192374719599243086531891168569163245, 22743218744474030775815603565515434191836336358629159005605540181159876641225919319005950096571998400381732946906); (true, 83297313053226540638594276424414575908271724666902358864964378347474427012238989462796238640671742178530889181405, 27689933826645556244538161948734215717261543483288918732832985641151872655633078819238212678789331480828087840317); (true, 56215568962636858215651588136798749711976914926127766208442279439829240618808399712697353597758519375329267535401, 12026322317827405568362759982166105914236723867989598190407270367921828223043765686643312052628032226120425683587); (true, 155768117369394120678487367087045106222793091304769037776837389608324384869264088788417363616237543495955491050453, 22671344877850701180577354821157566988477914119600451584109218970318101464480607136025816224294444862745631352568); (false, 40440301628091019733516308320414262942260997459830048893677795864135859124586040843232753665852989044236290723837, 0); (true, 11164112034361798261191262013447446697896659196991408210360113929181162992176850754086783913376134256268034129162, 31620914106691376845136314605663511734872930359811273552133751109468834004250912496223762947434959255525293170078); (true, 32280950247150179277734678143034515137868624377382119699927418559990808468450411325666062114643881789935553200417, 30443490155313749170048451855735002054788415173796228751643199670794326504541192726403072824741907858967861332919); (true, 543456316480916966485692914535736343480461931098669683417674834100771128962265468581809376067646512845886597896, 15511864568179230054054130608529507274461411335967707371350979393105164329197721440100405478693135482132442035149); (false, 232365606985350757953944998111924393204877694074551892679402753371611019247211536772267541096936675523979222893240, 0); (true, 26784637114716128161500847618195400228207587659326641247950904888065389700523251047872052404133335133462350721514, 16436853259646519064857022602920031536230997130425146985736366321245745915039855104148237011203229923489816316890); (false, 153300223655473274451660084664988703567162540842704424427785701235269100982915100973573068963044602152305565723064, 0); (true, 168893442952817325456166984068901897940824433070717289067590778823757429139277550624909297172714462128285027371440, 3315684055855432721310799555441033129533633305185719754919465052591109707246767770235332480290909769633300814188); (true, 158131517045082124418942015440884170998618173824854246054763927486565776953968228255945402612303295851939247317474, 14683568669149904774214887147924126924392704877541794314210570477832912921072103528950368044277957453668179070249); (true, 53137970453484409659124315329810151821378777600664191570833337461057685251552714463517976738364831230630821858755, 12767805852891439469125914297845721761201826677020081341949156574465913887321794855645222663510422248093736821924); (true, 82722541029508709266632265800924433425992512878125377730694633995782833610680499229464194790927252014348123822676, 2386708115048515487812167639206283683590681752019043501125606205410232237020511118791622847198911271688384994013); (false, 123181136689216824619065187241868935503627709091331338740216763224637206865721878862813382194290532371661539577685, 0); (false, 3748065121658304674928642096963936472371543136686468332380651260074160512259529446927241102006390991926923024209, 0); (true, 79298375776389355821537247287166108485986072795484257094917023540481344176805109829960513267999441954038000263333, 21079008809382819787929599430331291229267272110039620185196982614368462793966816678788943504736116668482495694660); (false, 41149449298615069833996586241801717606622154670913578694015086197454355525423643903228979990233339760672304359307, 0); (true, 8229140182703513261595345081535738473588707758885280326325457105679136017211049427510023658546868088950545569685, 27449251769763114436569127475907733815954809341045524503763190768857940144161891968789770356506214267129632421803)].
Lemma Nu_bits : bits_value 1 Nu_q = pQ. Proof. vm_compute. reflexivity. Qed.
Lemma Nu_run : powq pN Ng Ng Nu_q = Nu. Proof. vm_compute. reflexivity. Qed.
Lemma Nu_pow : is_pow pN 5 (1 * Nr * pQ) Nu. Proof. exact (is_pow_step _ _ _ _ _ _ _ (Ng_pow) Nu_bits Nu_run). Qed.
Definition Nw : Z := 151612886004106481881499479585422908193606635709162793312184929078320935403826114134268904372569900991283564843217.
Definition Nw_q : list (bool * Z * Z) := [(false, 62210841857813113576337852292002250665711413077052818298049954062478559755132257381309164327470461494631827855151, 0); (false, 116871135524301948022252550391289633631859820763502730030506981778737631337226864567387984125533946092682262273996, 0); (false, 35537913081797646137744323485795022897216845233548179189124495257382552648607198223315530452726085980272301159697, 0); (false, 11224111943038898048981411556273434093600684418698565990676052487303201855941520129677709032148070704161706312793, 0); (false, 207125598610263720961865992649784675553224640945114845715994585670228377643911051770542659846405848162740954040601, 0); (false, 103745377123945118185499781272071165472578854443168208722695933516030760538015428965147382892752887164875857531530, 0); (false, 11853070487178466914873166274019665314075758681709588896895051374837985618540667819528554246175269009840172362551, 0); (false, 134192968410249321976237523114804069447073020895149413348510633932866731651215634534304613824517453804191171276, 0); (false, 12508789539571401152543904220081322478755159634889029414339174275737269098792986388044788856187590622384686736654, 0); (false, 16858030178624023499140526551592238882055471614424304822518067440173955428039927016931450200225491688477817146106, 0); (false, 118394209624163988953640760965753889705302869893249633089908235578559901255865836863460126247618800678564180871022, 0); (false, 105250380852903305438033248508343125983387334358256921129746818104768553006688850198262751219195455019508954093200, 0); (false, 156575659556816257170220659780111548291448014902698753539975655149019438454434702953599313158045240294561621361375, 0); (false, 36339401599615690971584952297880885209596528910785201645150740199417933508463209351280744662277124967274249967846, 0); (false, 43835817015426594198903535121820061672435039100616643205102337919152334956986662701093133384385560238417210560082, 0); (false, 223804871820366068364388776999156905561341927546283415962212826236196009162897576484227888917557664757586622293597, 0); (false, 56178856136564468881085648726340866984403219344755138722140745276031573280679748166562078762968632633094787684217, 0); (false, 150631744721683205003054541925499602858703700440736762834350319448282460478723333852427767974255835547643707008353, 0); (false, 141296421103874628791001170241518380302471374167648566504359471079171646195745656882285516586207446470124624906034, 0); (false, 47572861689205884386922459035951466463428576255903880181597766254844481415497937905306489625261985931312043699601, 0); (false, 247428956193619639802088873937523383427924587403618666173896465877461384686156362272693354645707929659560209053951, 0); (false, 54392965995135221381809747632436160017612739639340386056298298732684554855708990902297938979587864289444526389382, 0); (false, 215954520743189638074753019267034371794681276897137024665815491051039714478586914442290163173694611195706443733239, 0); (false, 1883794700432947583832864013145221278948951477748419091381922434900780273599105121979924424734448482834416681111, 0); (false, 163641903688622445470255230016973522826095261856723190926231731057411200873294571879455314352103507994490267345343, 0); (false, 72251565962293940504960947510004680304442496801524423203457144862718013417424050604952730803418425174005581420399, 0); (false, 244827170921482032554333967043062638974848260537763384874002298852448511000963546543185439185275660950750236228715, 0); (false, 142433507518988705337960076410315429335176771998427473744516281319562336656458034139990393028057731685815608671363, 0); (false, 241798438375944045631273411934169484630130481407529472951546013407737957346883603112855457981173110099931267712784, 0); (false, 11810138037290651292584466710214240677056580158219328787907953674848347300792379170447853651932157295530887825894, 0); (false, 17871010560676990570577000094170179148352351976293035859252276770921558777597683654844089186264817973554764206929, 0); (false, 91502790605486350564778017272110890849773352657038544106426054311363944399001776505250935159336277602628024339136, 0); (false, 162084637523073964652772378048128040250856525671053809303290579941319765118266220246782350129101199539492636859, 0); (false, 134600388883068377244666606636726277939956198942189106317702226176543379431443613827082936631595028459728205379550, 0); (false, 53941255480445823875409744668985447120526708095351498697074049197189708237032400465174409414094113039505122444138, 0); (false, 11915710293566009390634535624847948019794035827696720424434330961902982921792087110608541147211911374752869476991, 0); (false, 92227748400004247800123756425205554001082949191143835243859066997110308039725720631517974901794249945093706824780, 0); (false, 18063200975742411318277766763378417201436512401885053311754403667337420051327029636837805766393104264603205103738, 0); (false, 149702738905959815372288888702564188509631060930053355169337202612381735078313841949462617251670113245269417747055, 0); (false, 115622199999081019706444796234320280762330736904628057028746599381840505639907453724486278708583960314681456208485, 0); (false, 216668752597950828470430767725999935718147346459059402623148363035516299236736633241296997918263314779511022768707, 0); (false, 34943976997162625913370093833984673438896105869445114119657621542248548066109070549458523637371728095963788003, 0); (false, 35968345505544850327688811526827221409920858301122339371947905551630804460504961547675008711355949110957871298493, 0); (false, 26934516236331805285903819570961075653687168390198533450543109793836949962442775052624300466665288293107602143532, 0); (false, 1164426071135686676879650365960704610927627822890874935990169358287741690462079643575435111545765535119081469570, 0); (false, 7680523147057756028873713241980358439118307700389961421579425662063133796479531900890988512195586989003068485107, 0)].
Lemma Nw_bits : bits_value 1 Nw_q = 70368744177664. Proof. vm_compute. reflexivity. Qed.
Lemma Nw_run : powq pN Nu Nu Nw_q = Nw. Proof. vm_compute. reflexivity. Qed.
Lemma Nw_pow : is_pow pN 5 (1 * Nr * pQ * 70368744177664) Nw. Proof. exact (is_pow_step _ _ _ _ _ _ _ (Nu_pow) Nw_bits Nw_run). Qed.
Definition Ns : Z := 201908147983615760246622146649667845276558198473389685818689451604305925490709655045068654150219421371188661896244.
Definition Ns_q : list (bool * Z * Z) := [(false, 88865978042692565367122705602968248589751036820240835282759591319402617117297827983210160811539680251912232516514, 0); (false, 33467997973607257879888636503867497705526749398700546478802861770897110495754563291146778654932521416180499110719, 0); (true, 188168196297918608709578826815257752127170958553465463280980230237412919949032586372525849929510898485083593442754, 120354879658215767433083308407153928573055550671644284059819124225496147076938786556894040452424047274835480357304); (true, 236010281756873796536269338262786384579310242914502642139801457224189416201432767352962669150917611918045379793503, 43187836626710918450806542189459558146664953688130706142356672341582807164402709451213101732584414931994224402436); (true, 34416124544587874714290174637580227991806694948084020701629360378069749990360212581454185654601576650047253271102, 110468634159007715808732130748588246988356245680541917003023398735357794196080808720083923695367952843898161616512); (true, 217595760921734003168961432019139295346276122737126135900385884359871613015785900281755209845473152444139592372379, 18004317921582173868972055621153493350209640709642435409201220486739352943044226998285115269838168404966901405628); (true, 83807778602716205641966169464813526007468076389919378453114569566465991132601510293167345439401199736426211716006, 12968908720301739544036601445227568637244697168876835643719544809117056883322371968968656486395405819342306769467); (true, 87235441267206405748746964247639026572441248274934951349855813856664317153461076729254853826663393783244503718124, 48490298866954908706380790498606134141464547579590570972258484595969317827056577231234438753233759810121483771848); (true, 114572835358134905435633082025542886722054047328116036704647295700801019300933817361881406025441847853821441419015, 16304522671446386781677113663441057352272194206227445604430877818778726665730430460391026911661989186861839135094); (false, 250092617481660443455888899610393448561180218095874875349843381414327911753030769026571787572557294495275139227180, 0); (true, 137352236148712935476691589507100040004120171547205722593506091796724890426103719622421996559632724944075502852588, 116716591039627580475118844238756357921420818855085586976537454889744812579925490208470498068179158344349148766768)].
Lemma Ns_bits : bits_value 1 Ns_q = 2557. Proof. vm_compute. reflexivity. Qed.
Lemma Ns_run : powq pN Nw Nw Ns_q = Ns. Proof. vm_compute. reflexivity. Qed.
Lemma Ns_pow : is_pow pN 5 (1 * Nr * pQ * 70368744177664 * 2557) Ns. Proof. exact (is_pow_step _ _ _ _ _ _ _ (Nw_pow) Ns_bits Ns_run). Qed.
Definition Nt : Z := 173401102865823889323462395179344001098564118269698986388216921311999401651154007654288427220990766066340012690238.
Definition Nt_q : list (bool * Z * Z) := [(true, 88865978042692565367122705602968248589751036820240835282759591319402617117297827983210160811539680251912232516514, 54535918192100349476898179778971853391404974397275157188685390513154382369069316970217946694423450221709706926378); (true, 219627387368019867324697844661970485127300541761664787431585559178382514701338255789351024691582449796716188345781, 60905158575791350803439509293822394095741606455842381298450421725394169018192820492017572684100932722377740961141); (true, 34586546290425032807036397343422883839960648425055877906682286311668984179211570368950691874880186606229167660115, 48324858263183671635916421903305079786849223747263064333836381279778092235341092451255535505330494183428386449109); (true, 229790001075253380817340629894581972842514727001977738472040201984928153342539971889307529587174042955850831829981, 110286699637691362894945380412353905219223377635347725040761973402969864367626415372624605827935335692278088741371); (false, 43757815202469568579316133103626305327334788245322699347752044920222262628319964592452337857369173459032615988172, 0); (false, 4035391214699346001752775402231860409550651080241005723613871155700317912778622119623765756145371078668818591831, 0); (true, 54397924846993675955107651161901408548839794786384898932941037350664757105880697621121931166891641834249431667344, 136211269907303097646294240649278525592620435641427115289052641071421878816346413054061745505160194738302335996945); (true, 11488783370610272139648670298806736642484875613226374823904371182715218120091018130702656613513950353663943022612, 27658628830188011635771477024173136219226125321124118555414586551120521757107285033480005446347544627511594936711)].
Lemma Nt_bits : bits_value 1 Nt_q = 499. Proof. vm_compute. reflexivity. Qed.
Lemma Nt_run : powq pN Nw Nw Nt_q = Nt. Proof. vm_compute. reflexivity. Qed.
Lemma Nt_pow : is_pow pN 5 (1 * Nr * pQ * 70368744177664 * 499) Nt. Proof. exact (is_pow_step _ _ _ _ _ _ _ (Nw_pow) Nt_bits Nt_run). Qed.
Definition No : Z := 1.
Definition No_q : list (bool * Z * Z) := [(true, 157605360932506746203155549104728483719003952992401373726627842356090415392698323314494965477786240347363168941418, 99614588736419278687058185158760269716940867596625576129153312451121845268512372255879981643508137801644072918653); (true, 63285255277495230131163702620604469516069643075772747399451891576861110918052063292597762075228445172037203493988, 27405762602163398329415153001264552195919447502858466337734776438212881261916565879699479588049305045745279095166); (true, 171813004211769470552577860747274336043275311738835824363649271011158355203864771940750625552030584850865085686976, 149549710878813888213681341285850946355615470749510430953028927247656507327393720886525290794201666395046887162237); (true, 2375919340229086648979398296252884438076012248329088575046925956324591246728337506507945034478631759536872317187, 116261595582480473139393567420876728179770694342535096397242745029380491188342305777555483196289121829536835372122); (false, 161764271606857988663451727244263303429661589843948610343931299527611439329677396153375310377535078734421563797513, 0); (false, 19265095220636461065182455936703937692927112461979768156211748457694382404797733632219616150115124377953906899252, 0); (true, 227459760788104791441765874329034676985863168467208534604639929779060337938337621608360440352473723424710719711783, 183060951390261078056073690081923078904817161656952807546139131004733094882153248915073574057885517637564767570494); (true, 199030405617331746147688275097472475504858165412261678872286246039985748523846269772499392116437098375621179152751, 161517430526441695675737501856150217240014496461264152408006482215282735841965332166956475867762438619238706179011)].
Lemma No_bits : bits_value 1 No_q = 499. Proof. vm_compute. reflexivity. Qed.
Lemma No_run : powq pN Ns Ns No_q = No. Proof. vm_compute. reflexivity. Qed.
Lemma No_pow : is_pow pN 5 (1 * Nr * pQ * 70368744177664 * 2557 * 499) No. Proof. exact (is_pow_step _ _ _ _ _ _ _ (Ns_pow) No_bits No_run). Qed.
Definition Nh : Z := 81190499834449874697194055044998133701628534477045551723181571092237178745821659372095512244108283081846405551249.
Definition Nh_q : list (bool * Z * Z) := [(false, 4833711739913843842051270959014077164962109668064095037902875437778835845478451860753539967879523635412896376314, 0); (false, 67324014680650903160655374126784316220102610127244990384104097709592228662277611014526003589325949918561562570123, 0); (true, 228493495304987002096832928504184061143128823484491489261729162204615341370429438819800084683658519097196331323055, 443703884577528401213358042368347110145642002885291786120250232304767480430048280987217971861280706434745284989); (true, 4401087523709329652376844389937730895081401131709952696725392278733993911034996715081540691352360518018596757275, 3810911545281890152326736534877018125233026186146601440132012594789368434481426402526051368828558900310151842879); (false, 149543205209704066644887959182705051607153525630607353731863298807019258264739128609482880622856724499476627726187, 0); (true, 104882608757377219647888963288270890758819946513675183931257912160475751109595539925605088791147537926803619431916, 5937997807011748808320350946370738105285587898926006196933320534529043371844496611707664119778274278813794204797); (true, 2032224291618042864083491295067417078477668622794428899193947335065685513474415276134731155525689356668130680957, 12778662914865372490856035372052733420331998432093041905107901109472411095985559155208839550156565383066383182929); (true, 1533988149269253280744238478644204057264122608338461312017942762634719708713287932915657531400914575963984202318, 24652652794882647080299618403239598613762518761750952942536137108075007410020500915148553602605872002639305878753); (true, 192643679056023089325425449459910043512011848824821889320281972735768078581746341607321027672502661305882881477375, 11509771640739322669216863025502779354983976580937480046025624896293538461487356971143952859242232841906003539622); (false, 17603886821525789743875743963621674578416478992426628895514449329350752038897287089080966470814170700911575620853, 0); (false, 256621235852562768447725347522375980559703900962001723380743233788628223937626122673267186762998866285364721171, 0); (false, 6045266533740594130973694666817022630177535203884145025942141480940715174994446982115025135169922640187465358, 0); (false, 28698903014468675946327360588825524410439832831319716444712928329381901206053423600035248265394020747803016511200, 0); (false, 73402399705247193537414260220241711424084085770923745760067769468589166264401309020257963607438189707125766300900, 0); (true, 211576824078373562900610968122378825241573132668875814630527146300663535591930311442357552142635252467562082608193, 10589645978628893314307793503911024536105021894864196503359753243502991868850045845127247694132576259796234129339); (false, 25406734607821756111545717453254936903764657588705542312949573906805028514899757164250157888435762947283138964032, 0); (false, 41372312781937985364465623408225404329736907113182382362546137445096934963475883876850243677421686678468513496101, 0); (true, 240771980303726825669700714712323396440676214001412343963415846760377903139091955851495635748748830109985802026213, 20137712110205584179199197519705668822578702484563878650346664569849865426931960509777289598635511357806555300550); (true, 223565486576501518139910281426685852845048658380243688265445690046897485185016105799551550749708691177194210406831, 15247754232083080445260572911827606444412943631457307271228271990784318747886167236171778819841124444825286221168); (true, 7623022534523418340816906267090037949649267412971242533635620987308062528849366412968556173149026396640599343384, 3502106202647291843238302968392964186158399369875106167232683462422190687797185360806403933281374644176342968682)].
Lemma Nh_bits : bits_value 1 Nh_q = 1275943. Proof. vm_compute. reflexivity. Qed.
Lemma Nh_run : powq pN Ng Ng Nh_q = Nh. Proof. vm_compute. reflexivity. Qed.
Lemma Nh_pow : is_pow pN 5 (1 * Nr * 1275943) Nh. Proof. exact (is_pow_step _ _ _ _ _ _ _ (Ng_pow) Nh_bits Nh_run). Qed.
Definition Ny : Z := 150810267750359240349795314530975253698296747923534510973772608234806337092226177215783974863679917933044693766538.
Definition Ny_q : list (bool * Z * Z) := [(false, 25484359658476175902131390580839592104760661864960917712689928721370965917129809218586187807165669573093565127995, 0); (false, 56029262746926010367488940107386418785444434776489181536684071612779567134661351280010744964624941585237661193381, 0); (false, 3809479161896025301277793197026213936252215322128512846041508056842571642931232757069010880785104443169005346024, 0); (false, 113265013751410860260126510853254243739873482286741184922240645561047166146094933099937410711318114553033967685759, 0); (false, 157908335086693849673161286337807447186308065455901731558214978812890207913886562114579687051921210579551249942013, 0); (false, 228203678349118280529871026081950128068043132355474782817131577614500454104354899678765608824009636872540263441183, 0); (false, 48708294373814803823632760349255587410688498888063266046872510741962537855252806514346882195474448512851382127704, 0); (false, 23993366145615326243305491790401366115452057105628099160504352683512996931174537339334380514539813566163916177926, 0); (false, 48077206012453126982235788663891892015902140331753748119502319357898210880615370958796221247301759183437471496794, 0); (false, 42966102290635119377514733956537039195978951267181723887870712176288536413481906946922292509004431888890706126664, 0); (false, 137881938817909049116307648065024825240475999803302559177539944611992689975061408002888706746812800222342384715350, 0); (false, 27550738011816542800429968977566342410043470881527737702288147717979762986252838612475811555889627380262043856287, 0); (false, 37734927768400590298482521850450981496285718193205614856048957816088068103081830540195937455928461114581578543548, 0); (false, 28081089811055358119484232813999571221173850784943718264764632421101460213996172605175230878263742126088334976319, 0); (false, 14072978915615513322962532066129741150651557519456643431690041923803408415604486799508073602876879919140756172416, 0); (false, 3976791431637485025501124395769381330932808918649504305449865595070313656572625300427827184442126951797091551543, 0); (false, 191744656653810896459827261714189524832353960768522100707285498699469538808852206607560188822528576971296326783517, 0); (false, 41791451119250632160371856527535696817814738407834123114831798379552326069935556820893566368378382602053402563281, 0); (false, 33982686902948201967080512116611060439310722576763014954834495513525870289881112999595494168213980727111983191661, 0); (false, 112212946325940593963844503932594162922211541577942271940573061950884640122146617930378468815309694178561714880601, 0); (false, 108440795440306129916788359515112887842493247949879436322077840315949078728578441234227912935596832925683170927540, 0); (false, 165609340915614147809844682299641981200987862556650289505552689644980242692443951004297082910161831453898592837240, 0); (false, 246386099490869867609228469253326503091247606161564003969158374263882852820435423730629959567315965747638841435890, 0); (false, 170706896120517265219306211582107262788094099642070162493419505522448603507180228206805424180008913250118881053276, 0); (false, 5583929380825014640802674664567639620218802790891457846724501308309316679043998112180625997764922822848993261276, 0); (false, 243781387304003394235346764206738041730525787876228550463805018134752756852249092709815369804999086384666885725825, 0); (false, 98097355243760430066335710599581401471323030297567640916809905188994036199681036673413984825226131828330524035470, 0); (false, 192092921440628866670281571915290271659115311875008659775684670633614394724642865870414823683731453751624384406555, 0); (false, 89801672709038303986313741670198752007144834734706912425156891414906675097506471405518332433534586052199133404353, 0); (false, 17075932814501075917620167689725476529874323471580433284870126543527829984133308232919578133378910311497524711787, 0); (false, 47688434427838946974238292291048748841971667867539664388799681668515806015106445922945011675830520337973411569229, 0); (false, 207046543961151602691324806239276983230215122133949081231062643279188993845119138666391778602929468197396882186106, 0); (false, 17481119711276038219882050867508373911876396121290100357582556552125094310870703549856832444748355488345157394077, 0); (false, 75624600812477806282518947308806496313593385182012944614984620840296330030529342467162242594837330967437048928665, 0); (false, 88384155181852053513178367216263188152389034762573948547478977569596877359128287007327494889609860021759477510924, 0); (false, 768418510824387922242772614633062217238458354239052822268453850261582688530390432359446726325334465687545998734, 0); (false, 39002840236677452435381229911438966255579907414052592724840642782285498826361731018330109516661045386066859629512, 0); (false, 4048383845697834414055008101241298852446027406359456570608902016736651070105454034997813804287571172465271377144, 0); (false, 293859789648015014304330153650442588357386844160414951049802878216567660743834845274938301021360566647079790552, 0); (false, 126021971849973763163197291787491259985610799527349600767621077275749054821295094654436627664933172015580564712965, 0); (false, 126268192853194032146578377521835261830081606670546035993177053289629755062014299393658768069746912732753097713180, 0); (false, 188695879491492778101097119721103687562515693747213474602905431100248291435245118406724784807589430860784471400539, 0); (false, 146590597914122465559244877691025523064259810516650460083357387187386967601983992529493136115291217076525778711191, 0); (false, 239500787298021555355130105161575988876446464060170257033266208859433864787358198392552038181787960630545747178185, 0); (false, 58217680360777919173187867546752340721422135203884059657753093848459366333496846959968879517378918038572767795661, 0); (false, 55866333394353656933503938025672695879715690312048470872064028330266573283826182216629737488150322959517951800479, 0)].
Lemma Ny_bits : bits_value 1 Ny_q = 70368744177664. Proof. vm_compute. reflexivity. Qed.
Lemma Ny_run : powq pN Nh Nh Ny_q = Ny. Proof. vm_compute. reflexivity. Qed.
Lemma Ny_pow : is_pow pN 5 (1 * Nr * 1275943 * 70368744177664) Ny. Proof. exact (is_pow_step _ _ _ _ _ _ _ (Nh_pow) Ny_bits Ny_run). Qed.
Definition Nv : Z := 33774956008227656219775876656288133547078610493828613777258829345740556592044969439504850374928261397247202212840.
Definition Nv_q : list (bool * Z * Z) := [(false, 62210841857813113576337852292002250665711413077052818298049954062478559755132257381309164327470461494631827855151, 0); (false, 116871135524301948022252550391289633631859820763502730030506981778737631337226864567387984125533946092682262273996, 0); (true, 35537913081797646137744323485795022897216845233548179189124495257382552648607198223315530452726085980272301159697, 26424637236540908781005159426816484806457827724208637026999916346610149277527526941603944266797058487794502193819); (true, 171706443364484669767581288419339103134534481992084688496066101903185485048938301908316920389222088052952652713890, 90191371426952030724001847737760826281814102195342774740890243244535092439105381223787036548885456996321380279052); (false, 1471117632778832525599191083230840453736228971151158812786416264053944458911038911636870328055318963138246054750, 0); (true, 99695532437474796189954724396984777352955796578648421692017020393671158613698522217201780377544246135809183852797, 94118924726615145209770629743631539905125454335735346660926331547469487597999836464059068264626185068611003726365); (true, 25090547256093836466535330259691459599207752533440892470623443953371354019332698225472006256291326753730451690511, 91107925033923822397049856313673395028335529381847488316336223811381757987909303226527980289864529770561389823640); (true, 89652908732823414141830140509775119900831961336160655131044003302041862019662533163910807766638353001951401261625, 35708500413263431940220556468730919117640140560031818773671795011484683135970751862211212988088822946588104000679); (true, 34370062108696556241779187876689772142952163509293532234765777460098146470887718119324801297803060621555404650993, 113782129179285273526828650060225070952321324451980683656500933041909672899763755319014117836388129591510604775352); (false, 29620457320153458685269190935583059572071263527728847486402289679178069231508725627149662292889148393690591649751, 0); (false, 125849160538664642064122776305566596359707019261860298413552085885740695086394000355407841823400897378502093885783, 0); (false, 147362131380697488909495261109004758469170728923851265613889367657448348429864982348920675659849185521743478162045, 0); (false, 168907269734786808662698288808493514244335703297826982897594631515286095619684613662473852671130306017424806220950, 0); (false, 3009597124426674825588808373437994578491598304885568858526930923618393414229628004108355506202760152001264523530, 0); (true, 16103741637171936952171422962748745794760465950779924828624194161845047123835042930548644917632310474170415040336, 61626101655170902489663110081585911123647646782107493238986278103802759386187636827477821880458712219958768854511); (false, 7819345836456933773849602773990836691577243301889441589678411792561681826566983560798667126056612049138662995667, 0); (false, 8924954062585266025571818857539369065776005056700626906828703283349416724901789237368999623977696110841206922446, 0); (true, 90594538439040418155063718218702435402827441982063053131881439210314029490162084113537495896475863401788872698619, 28807297296752630825586479297537295213620808285984548330614545134598379041672144727822960529069119720559501080118); (true, 7869622270598469293016059241798744395946650608033352568052643922948787737357716909313484071435240151744255527730, 124317866114238497277233292930185260767479971477749689583001794238786437611376705123322555726900523796643038257102); (true, 6207204424074188577196487227220295504132073927044396914195972439224947835279594769894960397305158152380273374737, 44166296942534370303374403375386849364725061155746299482978415673164867560140273435239681214047195326037012788615)].
Lemma Nv_bits : bits_value 1 Nv_q = 1275943. Proof. vm_compute. reflexivity. Qed.
Lemma Nv_run : powq pN Nu Nu Nv_q = Nv. Proof. vm_compute. reflexivity. Qed.
Lemma Nv_pow : is_pow pN 5 (1 * Nr * pQ * 1275943) Nv. Proof. exact (is_pow_step _ _ _ _ _ _ _ (Nu_pow) Nv_bits Nv_run). Qed.
Definition Nz : Z := 258664426012969094010652733694893533536393512754914660539884262666720468348340822774968888139573360124440321458176.
Definition Nz_q : list (bool * Z * Z) := [(false, 4410145109403323467276228264029288262046831314634414528020789392425467584907881869677983793561173075654923532241, 0); (false, 33715789375580182285033592516188274881227203433495226663629100416813952641271129233919864723824507756359215947528, 0); (false, 89497161014492651754437464303693640854476152746254047372959822591593145718800646698565851764816431105006601462005, 0); (false, 108034645782280703322390464547835500446669174445223798166573067391818061574222460414871968257149098147742067938527, 0); (false, 17425253402027835481018528572469768916829965086545407142437688094937487620700362799198684010500753594617592312928, 0); (false, 14371282351686858374663280462039460443240107359050681226771242810263734997989452863330157100676677344799559572219, 0); (false, 215658453945472638403286294246219609650178042026091069476377339309751675714726576113012669221689836080790388484922, 0); (false, 184375804819968388727647969122892096600439018982151941883953153885710746909507058292466810401002588229099746162976, 0); (false, 126004225533770819151139761175847588435682856814065184441234890170312516913416512654999727686670152635910459436756, 0); (false, 246013734585551771684676899429623619431622450986756686966363154604159967009568427808053929763486184836934718064625, 0); (false, 228462383742820875955605027908403414266637127930786126892109402069981035586241876544228664688361177361862152809575, 0); (false, 243790054310582376104008358727126888353305255826555232478455278560146330837674526197169158427063345598617810085654, 0); (false, 118582218658362011170742917045009361441682485480830522077913196035737883792920657333696385756564251221130447399240, 0); (false, 114892494718344049978289812697434993720599236918225896161942105109130924832912825332657104935097494603361110792137, 0); (false, 163865076794825399607873184005183927685800879338674512456765366706711603739069519646293502483043006165406833795378, 0); (false, 84161601210649069894893211075608842476847650832017336033021945348494909079288823069098403109175888896976954143887, 0); (false, 1572567219725360506527676728942719737564315845709009499856020351248528141148047862899980130813465218491627441590, 0); (false, 227030653611983553909088748351022874545734977777874625993684040884708190199875369834425888907597242695954038055670, 0); (false, 219113934763867296999898210962881237037355754709484372144520100591894680774547205603703285578920490211671313615793, 0); (false, 49887232343155523402863204528833412890342902503032839446988908027094527441698319818259444235158602103180967685036, 0); (false, 57628091321979931452646351443877617903682245069626147586697583797239915139758527690676826059501744643331302326760, 0); (false, 27331154920097116038098075589781651048787307344154217338682980325134313259371614607979202376042937879243312433991, 0); (false, 77737074939453234616662562171347812535392670306478719012930854416118071524648110880568021271726950793304898118567, 0); (false, 148377150159548769310365915719549697159350749044190452723076273728169737053346787295673250662162202376185595753287, 0); (false, 142926092595354268469894438768756272953651750972702596869058436317269561550947279637986416531457053288791703967659, 0); (false, 205195780388953989723908240760693143842452205213301016518926456133473028210652216840278646981705336504295522040024, 0); (false, 202226038050165107851868537409652769265622476908139202528812310617537558998240608033091757512221455310887807976535, 0); (false, 188035846523031416475812205085469675548394982379239043331572966425459409312728976870787697087173517007794303784276, 0); (false, 76271959546123563804098663132990786375077685477394026577837139149199857304918415929092147695243220893051252108281, 0); (false, 6805019472885795887836262007782909543526108840966280534135427187544425641470492829393061108233120108247064982149, 0); (false, 554293848019104942291607016360180332259644904330307699814095173395529401032181121665858999728804551260986994689, 0); (false, 22261682546683845312221574438820938801843017324626169306210403886923230872205600713304424508460015796010282409811, 0); (false, 153403051545874597692483421808816548348485551336571986219313147063962183651372412542210188505554654319429704841159, 0); (false, 140183237083935322241267749878610530618671096685322153690745182802456520138936370172733359868685557790009904352503, 0); (false, 139497145456910485643186394170961769498076206529967399922399607812407196512856743020006557446110949833220262251151, 0); (false, 41159454501749536254976581499885314486810155152904711109411124158987985093234798378541830549480587345571288239358, 0); (false, 103566773128625381642986748620124039490735390679219506717556530343708470050698938204737585787197062947960838177271, 0); (false, 14743651966937578131850569941326708409951935294047134295647255357889126849500217202519123294635066886363831556589, 0); (false, 770272279785181955243210517488213934635631747097733944216183563631557281234981231713376249350409020039143129691, 0); (false, 226796526970465502849629677948336045259188209119922208450286831910143182890642498308216913532724393808405823566014, 0); (false, 104229016447821847215462504665645324049931757166422930344733340481913078424131443821250767837468196562432255212786, 0); (false, 69726012832488703386770359365169195453311192714296708661233723683134766154657210727236764259339726146799667921293, 0); (false, 51019217823267982736370150104473939900488601576438204514455120957627985758949840530058760890650199482609876730391, 0); (false, 1076363617707241666786355620074257670193340410094947559382676331327388663920422851680007467856129066692181601985, 0); (false, 181151411328025886815176192667968446554664778768091909694706152634165055319292955280911803130847968306306372849225, 0)].
Lemma Nz_bits : bits_value 1 Nz_q = 35184372088832. Proof. vm_compute. reflexivity. Qed.
Lemma Nz_run : powq pN Nv Nv Nz_q = Nz. Proof. vm_compute. reflexivity. Qed.
Lemma Nz_pow : is_pow pN 5 (1 * Nr * pQ * 1275943 * 35184372088832) Nz. Proof. exact (is_pow_step _ _ _ _ _ _ _ (Nv_pow) Nz_bits Nz_run). Qed.
Lemma pN_exp : 1 * Nr * pQ * 70368744177664 * 2557 * 499 = pN - 1. Proof. vm_compute. reflexivity. Qed.
Lemma pN_one : is_pow pN 5 (pN - 1) 1. Proof. exact (is_pow_exp _ _ _ _ _ No_pow pN_exp). Qed.
Lemma prime_499 : prime 499. Proof. apply prime_check_sound. vm_compute. reflexivity. Qed.
Lemma prime_2557 : prime 2557. Proof. apply prime_check_sound. vm_compute. reflexivity. Qed.
Lemma Nw1_exp : 1 * Nr * pQ * 1275943 * 35184372088832 = (pN - 1) / 2. Proof. vm_compute. reflexivity. Qed.
Lemma Nw1_inv : (Nz - 1) * 129332213006484547005326366847446766768196756377457330269942131333360234174170411387484444069786680062220160729088 - 1 = 129332213006484547005326366847446766768196756377457330269942131333360234174170411387484444069786680062220160729087 * pN. Proof. vm_compute. reflexivity. Qed.
Lemma Nw1_div : pN - 1 = 3675842578061421676390135839012792950148785745837396071634149488243117337281387659330802195819009059 * 2 ^ 46. Proof. vm_compute. reflexivity. Qed.
Lemma Nw1 : witness pN 5 2 46. Proof. exact (witness_intro pN 5 2 46 _ _ _ _ prime_2 eq_refl Nw1_div pN_one (is_pow_exp _ _ _ _ _ Nz_pow Nw1_exp) Nw1_inv). Qed.
Lemma Nw2_exp : 1 * Nr * 1275943 * 70368744177664 = (pN - 1) / pQ. Proof. vm_compute. reflexivity. Qed.
Lemma Nw2_inv : (Ny - 1) * 98725612001926275533467980018611401803240201475701805659893797847191595599735530173940400304811800164588569662579 - 1 = 57560431518642902618131532882450764963295812678047136151624962385436047369421844132050366971809755257136435074186 * pN. Proof. vm_compute. reflexivity. Qed.
Lemma Nw2_div : pN - 1 = 38993573870198286288306222754263105272353218195296283182129257193167519589638171992010996580352 * pQ ^ 1. Proof. vm_compute. reflexivity. Qed.
Lemma Nw2 : witness pN 5 pQ 1. Proof. exact (witness_intro pN 5 pQ 1 _ _ _ _ prime_Q eq_refl Nw2_div pN_one (is_pow_exp _ _ _ _ _ Ny_pow Nw2_exp) Nw2_inv). Qed.
Lemma Nw3_exp : 1 * Nr * pQ * 70368744177664 * 2557 = (pN - 1) / 499. Proof. vm_compute. reflexivity. Qed.
Lemma Nw3_inv : (Ns - 1) * 128399401446341783730971579004383428790753030403519646858494634550398052058600230934627136713500167579062994616214 - 1 = 100225940411828508289511925290993624428621417278999729276933500946882329111122698908979353646599638025181184230113 * pN. Proof. vm_compute. reflexivity. Qed.
Lemma Nw3_div : pN - 1 = 518365583192322833688682833055898864802391809128085492063896317969379696088859364278494765810768256762405453824 * 499 ^ 1. Proof. vm_compute. reflexivity. Qed.
Lemma Nw3 : witness pN 5 499 1. Proof. exact (witness_intro pN 5 499 1 _ _ _ _ prime_499 eq_refl Nw3_div pN_one (is_pow_exp _ _ _ _ _ Ns_pow Nw3_exp) Nw3_inv). Qed.
Lemma Nw4_exp : 1 * Nr * pQ * 70368744177664 * 499 = (pN - 1) / 2557. Proof. vm_compute. reflexivity. Qed.
Lemma Nw4_inv : (Nt - 1) * 74566134907963114406111905902579591356517039876647709038408922268583261472694211012906265635305969086912976547756 - 1 = 49986966622284302371640141745855047486723419124855378360613892407750256413735119628483376068195595244876940771323 * pN. Proof. vm_compute. reflexivity. Qed.
Lemma Nw4_div : pN - 1 = 101159337509960537352621327217400677957134733185340109714463927519249303225788354624547863957596151788987219968 * 2557 ^ 1. Proof. vm_compute. reflexivity. Qed.
Lemma Nw4 : witness pN 5 2557 1. Proof. exact (witness_intro pN 5 2557 1 _ _ _ _ prime_2557 eq_refl Nw4_div pN_one (is_pow_exp _ _ _ _ _ Nt_pow Nw4_exp) Nw4_inv). Qed.
Definition NF : Z := 595600066266441703050776644311974936576.
Lemma NF_split : NF = 2 ^ 46 * pQ * 499 * 2557. Proof. vm_compute. reflexivity. Qed.
Lemma pN_shape : pN = (729167376450651096517262942875110402 * NF + 155277856388702753249763128756150138049) * NF + 1. Proof. vm_compute. reflexivity. Qed.
Lemma prime_pN : prime pN.
Proof.
  apply (bls pN NF 729167376450651096517262942875110402 155277856388702753249763128756150138049); [reflexivity | discriminate | split; [discriminate | reflexivity] | reflexivity | exact pN_shape |].
  intros r Pr Dr. rewrite NF_split. apply mul_divides; [vm_compute; reflexivity | apply mul_divides; [vm_compute; reflexivity | apply mul_divides; [vm_compute; reflexivity | |] |] |].
  - exact (witness_divides pN _ _ _ r eq_refl Nw1 Pr Dr).
  - exact (witness_divides_1 pN _ _ r eq_refl Nw2 Pr Dr).
  - exact (witness_divides_1 pN _ _ r eq_refl Nw3 Pr Dr).
  - exact (witness_divides_1 pN _ _ r eq_refl Nw4 Pr Dr).
Qed.
Theorem prime_377 : prime MODULUS_377_INT.
Proof. exact prime_pN. Qed.
Print Assumptions prime_377.
