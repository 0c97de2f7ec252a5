(** The order of the base point of the curve is prime: Pocklington certificates (Prime.v), each with the quotients of the modular
    reductions.  Generated from the factorisations of L - 1 and of the primes found in it. *)
From Verif Require Import Prime Ed.
From Coq Require Import ZArith Znumtheory List Lia.
Import ListNotations.
Open Scope Z_scope.

Lemma prime_1224481 : prime 1224481. Proof. apply (trial_prime 1105); [lia|vm_compute; reflexivity]. Qed.
Lemma prime_531581 : prime 531581. Proof. apply (trial_prime 728); [lia|vm_compute; reflexivity]. Qed.
Definition w5a_full : list (bool * Z) := [
    (true, 0); (false, 0); (false, 0); (false, 0); (true, 0); (true, 0); (true, 1877591); (false, 131291684310094); (true, 1045952909996287); (true, 187124909440528); 
    (true, 159197020177219); (true, 302952483371839); (false, 866961136102982); (true, 24631737010759); (true, 90146596925010); (true, 1622462077426597); (true, 948768138565988); 
    (true, 1279490272103423); (false, 118117328318797); (false, 915806128821688); (true, 41791882241698); (true, 1100628940860366); (true, 2226194870774883); (false, 11803957166592); 
    (false, 293723537651548); (false, 678017928212821); (true, 789443378626176); (false, 377156946551182); (false, 949869625762734); (false, 271233844194573); (true, 457482563487848); 
    (true, 1544202295732226); (true, 42543849811885); (true, 1581438043241533); (false, 623179865595182); (true, 640232943263203); (true, 642977262506240); (false, 901691498159); 
    (false, 9818056074856); (true, 95230666679272); (true, 2304954825740104); (true, 214652933275763); (false, 172315492082659); (true, 1673380304287805); (true, 16141109956268); 
    (false, 947541183132227); (true, 2506179943660794); (true, 614434775936648); (true, 1103514983486726); (false, 132640111191688); (false, 1257559732178651)].
Definition w5a_part : list (bool * Z) := [
    (true, 0); (true, 0); (true, 0); (true, 0); (false, 0); (true, 1833); (false, 430775269143658); (false, 263836722024486); (true, 942896033992595); (true, 181116246675894); 
    (false, 64848907248985); (true, 190014004709076); (true, 304029965240027); (false, 151131391013581); (true, 2401247018554694); (true, 527405028378569); (true, 790397939195312); 
    (true, 233424906598565); (true, 309541422641966); (true, 695016321608810); (true, 994600928503958); (true, 481949972592230); (false, 130476759390420); (true, 41763677816933); 
    (false, 167584930872783); (true, 112625136301550); (true, 841479736506588); (true, 329716000445184); (false, 41066581094208); (false, 619966417070637)].
Definition w5b_full : list (bool * Z) := [
    (true, 0); (false, 0); (false, 0); (false, 0); (true, 0); (true, 0); (true, 1877591); (false, 131291684310094); (true, 1045952909996287); (true, 187124909440528); 
    (true, 159197020177219); (true, 302952483371839); (false, 866961136102982); (true, 24631737010759); (true, 90146596925010); (true, 1622462077426597); (true, 948768138565988); 
    (true, 1279490272103423); (false, 118117328318797); (false, 915806128821688); (true, 41791882241698); (true, 1100628940860366); (true, 2226194870774883); (false, 11803957166592); 
    (false, 293723537651548); (false, 678017928212821); (true, 789443378626176); (false, 377156946551182); (false, 949869625762734); (false, 271233844194573); (true, 457482563487848); 
    (true, 1544202295732226); (true, 42543849811885); (true, 1581438043241533); (false, 623179865595182); (true, 640232943263203); (true, 642977262506240); (false, 901691498159); 
    (false, 9818056074856); (true, 95230666679272); (true, 2304954825740104); (true, 214652933275763); (false, 172315492082659); (true, 1673380304287805); (true, 16141109956268); 
    (false, 947541183132227); (true, 2506179943660794); (true, 614434775936648); (true, 1103514983486726); (false, 132640111191688); (false, 1257559732178651)].
Definition w5b_part : list (bool * Z) := [
    (true, 0); (false, 0); (false, 0); (false, 0); (true, 0); (true, 0); (false, 938795); (true, 1100759481586298); (false, 850619598535320); (false, 546292524668647); 
    (false, 802506941234211); (false, 769194293284805); (false, 29024414843316); (false, 596195007210629); (false, 73352453503857); (true, 212554408536685); (true, 2462991884792129); 
    (false, 76306218291486); (true, 6918650661206); (false, 1052561014711525); (true, 1944458230039059); (true, 637713295638712); (false, 596381985619053); (true, 641026680038741); 
    (false, 485305281558); (false, 5053163242902); (false, 488145105186710); (false, 855371772495272); (true, 2000492719067348); (true, 654225224218967); (false, 210334659241653); 
    (false, 910242507055400)].
Lemma prime_1257559732178653 : prime 1257559732178653.
Proof. apply (check2_prime _ 1224481 531581 2 2 w5a_full w5a_part (-466659544684812) (464870912375773) w5b_full w5b_part (212927577457398) (-192995844966701) prime_1224481 prime_531581); [discriminate|vm_compute; reflexivity|vm_compute; reflexivity|vm_compute; reflexivity]. Qed.
Definition w4_full : list (bool * Z) := [
    (true, 0); (true, 0); (true, 0); (true, 0); (false, 0); (true, 0); (true, 2398162105253924515); (false, 2318992027876307186); (false, 9456145261043884); 
    (false, 3657742036708003773); (true, 4197564480403148416); (false, 4067222247339865112); (false, 844776789448479468); (true, 6566516776889489394); (false, 4224556308576883414); 
    (true, 2596391827771805350); (false, 88605884077468052); (false, 1252745949902718756); (true, 1923309296401451137); (false, 3228767138461943108); (false, 3241001394253523380); 
    (true, 1439730774165587125); (false, 2720695262405364098); (false, 239461313041045659); (false, 39604288552435082); (false, 731802040192251845); (true, 3221298576285547478); 
    (false, 721989785650825608); (true, 1703499206215069748); (false, 457318390062520574); (false, 3780707875843658312); (false, 3596184840738807529); (false, 985512815414039659); 
    (false, 2538821067040673149); (true, 2147275407484067093); (true, 5824735565198544510); (true, 795183343639227854); (false, 494809493018409278); (false, 1234812660735465643); 
    (true, 1752025384371762018); (false, 43414066173930388); (true, 1922876101237837718); (false, 4219895520882322354); (true, 4940534164022007484); (false, 1042935530881059); 
    (true, 7944647309385959814); (false, 169142522578158628); (false, 3230898642109838806); (true, 388715655744423655); (true, 76538298189552231); (false, 2682306558867539131); 
    (true, 3858557837326669); (true, 1316876155571188614); (true, 3196804107628409779); (true, 4458809084824829554); (true, 1889255755061327390); (true, 8218981299999211613); 
    (false, 41321737996474687); (true, 6409411727534162678); (true, 380520146793731605); (true, 363463607013929023); (false, 0)].
Definition w4_part : list (bool * Z) := [
    (true, 0); (true, 0); (false, 0); (true, 0); (true, 0); (true, 0); (false, 292744397614004); (false, 928038625432216325); (false, 454092319897711611); (true, 1216350757486632393); 
    (true, 2172984189602079512); (false, 1726834767139209811)].
Lemma prime_4434155615661930479 : prime 4434155615661930479.
Proof. apply (check1_prime _ 1257559732178653 2 w4_full w4_part (1010501025739283171) (-94754006754933215) prime_1257559732178653); vm_compute; reflexivity. Qed.
Definition w3_full : list (bool * Z) := [
    (true, 0); (false, 0); (false, 0); (false, 0); (true, 0); (true, 0); (true, 0); (false, 32403588718226137); (false, 1607353413646725202964404); 
    (true, 109083362628910064148584441); (false, 106957438679760198985055); (true, 49333167231956733420292239); (false, 152415677272147289636874225); 
    (false, 38933994912024171843644822); (false, 14606124896705492504610781); (true, 103501932135112952657178436); (true, 36399497596861932425191982); 
    (true, 109241889485368857412499141); (true, 98833588000848012223238480); (true, 242974588732936064969341499); (true, 9484613108736534070829754); 
    (false, 5042487862147320448264096); (true, 118526977232327469733655985); (false, 26362581212803008616915188); (false, 53621018717439318846156540); 
    (false, 26220234573643529689115434); (true, 1514288428022016873091950); (true, 6743752943902786217579895); (true, 208367285405230544193955829); 
    (false, 39664878711033152656238948); (true, 252482520489411652898335); (false, 141171554000017815831314475); (false, 82675739246156327383345701); 
    (true, 263494401984074388432222514); (false, 52962766854570663850); (false, 8833405825239386454831921); (true, 324066726964427101941286381); (false, 42983266169696889701927693); 
    (false, 19458867210964704667701754); (false, 68302164386500841653193699); (false, 95517628770991642779254845); (false, 25686589911173309160624660); 
    (false, 8369093418888603291258318); (false, 18420776746076400036162115); (true, 5800086216861705716434256); (true, 247747748498436736611871891); (true, 2423397446594692211869760); 
    (true, 33217933933930258957270525); (true, 63581597801530686816766563); (false, 54840563655606587711707009); (false, 23079349165005244645249122); 
    (false, 86801804981574533982851643); (true, 326839081507469736890776437); (false, 679496867311732758050784); (false, 88406621242403641541983861); 
    (true, 132113029427660378169333727); (true, 5656248491152388724953178); (true, 120978318387349917394671121); (true, 47422304651644809737946487); 
    (true, 54744219016752092729735688); (true, 71493549209984286947127571); (false, 78868660153197042568838154); (false, 96810201457713749208484853); 
    (true, 98451733926249743610876808); (true, 201439236143615213001131525); (true, 15244154281742963190417773); (false, 67296026330823997308110574); 
    (true, 12806459140203562844635451); (true, 22382730505211749332225453); (true, 38250649294494287986040369); (true, 42052783873037055002933596); 
    (false, 15216011520791808179267916); (false, 90220823121150603052195699); (true, 268747271737012614396366759); (false, 18818534907602107471179697); 
    (true, 98176243190649739764236288); (false, 18461562357357000631801722); (false, 20468777936511747744632327); (false, 156267641721811203970121198); 
    (true, 178007381949970930049590254); (false, 23058054405665403805498219); (true, 13018845257410255909811492); (true, 204142096559648900347385283); 
    (false, 24267733026104122792163663); (false, 3888480956679966491760812); (false, 90794259174462198739751237); (true, 20703839227707206906282848); 
    (false, 172054593956031949258510689)].
Definition w3_part : list (bool * Z) := [
    (true, 0); (false, 0); (false, 0); (true, 0); (false, 0); (true, 0); (false, 0); (false, 2073829677966472774); (false, 5945665732273380560698350); 
    (false, 4896226848661359734432396); (false, 2280509885969109424278951); (false, 130790614921432972698007344); (false, 114790229982582456155186612); 
    (true, 1006603734303181253662368); (false, 82133495764408352887561335); (false, 120989217545099543588439385); (true, 94436102599833808036158834); 
    (false, 100166145001173924076201018); (true, 51176512222759079539645847); (false, 3113899218594167203600917); (true, 326057616572731665733124296); 
    (true, 23169630943894914114272249); (true, 9976283397491568503194961); (true, 8789300974291271736830324); (true, 151765893018544748163420371); (false, 4877625889379437891713874)].
Lemma prime_172054593956031949258510691 : prime 172054593956031949258510691.
Proof. apply (check1_prime _ 4434155615661930479 2 w3_full w3_part (-17779243434318459953124787) (8471625932319896702492053) prime_4434155615661930479); vm_compute; reflexivity. Qed.
Definition w2_full : list (bool * Z) := [
    (true, 0); (true, 0); (true, 0); (false, 0); (true, 0); (false, 0); (false, 0); (false, 349325857287178071418934062587); (false, 132727081592145878700922027800538989798); 
    (false, 19369316004619452272808222939004939638299); (true, 13864675684403610263405268401355368275044); (true, 36085616859018785335353913275709199270340); 
    (true, 6783471130462442681752612304755979291173); (true, 23195745856775332080070445360842985514482); (true, 18004589878788772587530515761001622651431); 
    (true, 28091474993263385868861795165686074338579); (false, 5466829426595511803713355242870585680599); (false, 4792831405920344425028051623995638830607); 
    (false, 3610222895783468269446270307527004129896); (false, 3033948965620230608190408766559355666510); (true, 2889630445880743548681511175818486306933); 
    (true, 15665370497463430245236467571860310797446); (false, 801215831541741355132612946980309921424); (true, 17474842742995215007131299764514134368566); 
    (true, 1764784852870191152591949718050219653330); (false, 2398890462556425039006310723064013584817); (false, 425581879724678029498043171561441927793); 
    (true, 24492437842763604184348678388673382241921); (true, 23777950115972198044299613516321736117151); (true, 11334667768457363402433055105465560189142); 
    (true, 19290579412872902427785408583652956637); (true, 23037016580522301258486325157668002355043); (false, 6068807289572084979381716494949928633434); 
    (true, 13837786122323624739487871550822792226725); (true, 15420038669167434492533005827929477313357); (true, 17664089534305217712545938803113247055037); 
    (false, 12520661903309848942476227545178781383219); (false, 8636566810961319601584751883887455264007); (true, 29098447178308328890196983028721823226122); 
    (true, 10357788662882300982778980268007194831613); (true, 1313943376151682330310867456140887874876); (true, 25599560225142082876940005391855885947481); 
    (false, 1241343984970157165950930951382113519902); (false, 17248954655615917600497788026957760565531); (false, 478560377481259318552294620760140040205); 
    (false, 6301730825411498617992850329882980148885); (true, 5638690888256235522614138892024987243644); (true, 2484772322612608633629894871994213194768); 
    (true, 29297812654855486234385452071453660684558); (true, 19300526782509465583264272033810609144469); (true, 11721279824107278325556313447144920850267); 
    (true, 922108512480441794723951476991006021075); (true, 340069782893599724530854082896399751316); (true, 8117466011822120120745528630460960500); 
    (false, 18001072013625309445392982645607419247134); (false, 4548694705883462977981585899980320355441); (false, 3563314589035876754676145224631864458708); 
    (false, 318968143364910229071008615537422987031); (true, 23948754312283797305894596942531135126434); (false, 8740695528960769785101481204935611563412); 
    (true, 74520723899630860343926291187323604439); (false, 19450326195842929835955360675950763831445); (false, 11545832931599078745574029588029197190330); 
    (true, 1180022321305621550791466652476014178136); (false, 6900993258136272264316925183357509507013); (true, 27581626639041029411303922857240249666833); 
    (true, 7508949726749941459631229288273949973568); (false, 4486457512736336997361831844319038098300); (true, 19217064079985795094216270294248515985); 
    (false, 17837048803418192473220279548311854733676); (false, 2367370581251278403722965816223282265); (false, 665350109660497077405722145502054899170); 
    (false, 1342074633185963699652324110467744524496); (true, 15468970107906540904531198549313154643209); (true, 139076606899457682421136574241747802920); 
    (true, 383916749232634076868846082976734306874); (false, 11103872731710052706152506819294476021121); (true, 37416439512228008567699061235773507097121); 
    (true, 19727693469161804580598311108276119025965); (false, 15229520380207042920296901863529580495159); (true, 12077713548948380487736506938084544748111); 
    (true, 33166369004415874453285421051997272986840); (false, 1474511315530351631114481833479063396095); (false, 16474221397776311879920831178914924326715); 
    (false, 10286022100317472646128932109436410644666); (false, 3774368083820769808332372710458169806011); (true, 26500945041715864518622331523202947564992); 
    (false, 3948280741196103345044652415908222198974); (true, 1366343128273618876291791713464479273640); (true, 24946366432129286962406993087125606583091); 
    (false, 527115294801837335384314394076250827690); (false, 1706979944781852908541666704435200725571); (false, 143363431203567407571437881109704892168); 
    (true, 19544156826884214721019191662736657270093); (true, 1769286984811173823980999561589138418735); (false, 10426022935937027635778052163086409133554); 
    (true, 20918028950748336587048931585331186944698); (true, 38773974477384094031287433482095139818716); (false, 13598866866696748753999737946278859450552); 
    (true, 13538538357445848663489629898489785570151); (true, 20513514849724271930854487467834749902947); (true, 25782505488006988192343824350003641099786); 
    (true, 31307185024028101658834724696048914661767); (true, 14403794816954194117146020113968775723260); (false, 13942524741703729158142533548147500287); 
    (false, 10763261521692813831232777509352609145494); (false, 7612081617982375999688556402149779227729); (false, 5007450174469081418196467463253201501716); 
    (true, 24900151121103976948357222818165365757118); (true, 1817749685074967770868431812129874478362); (false, 11181516775575042234692148879173769995125); 
    (false, 3577828414554956165570638043829062106); (false, 3894863679747071770256829760512653083676); (false, 2614666576820434511794370425187651080615); 
    (true, 58192570011749252121558130031286767426); (false, 5744821150879624889995136013396957740557); (false, 1430201917322301569723119310857660392955); 
    (true, 11672297907225740636589426697695777275152); (false, 6362009620342796317817042256771771609274); (false, 16307767176676938830744574323837634238668); 
    (true, 92839649347727649683214990238059249452); (true, 983316980248113882891791668872215306287); (true, 5406481361195408388110703941940277185838); 
    (true, 14460095175754175757467393118212662059759); (true, 12622390826327416052204363651926760834709); (true, 5908330804611692317838242544622579025532); 
    (false, 76432388226052114724526162604356095735); (false, 7619265482004745560154399259635426915544); (true, 3546132289386311574819410644534201372132); 
    (true, 27024568292378564807076738499169820730840); (false, 18435447484647749799414404734316296361536); (false, 11152770522280145523811701749013994537467); 
    (true, 33865307173051686578565390960835052860400); (false, 19757330305831588566944191468367130476337)].
Definition w2_part : list (bool * Z) := [
    (true, 0); (true, 0); (false, 0); (true, 0); (false, 0); (false, 0); (false, 0); (false, 20821443634461049522097); (true, 35582727951749561139672184478506847998237); 
    (true, 39370561574554687301581838168829004414486); (true, 34560817969519434990886678306333903303987); (false, 19293079453473215695698998085832837987456); 
    (false, 380288709916973613942502556697489333234); (false, 16635008556631933400475953206080385080329); (false, 17907292299602302366417758034714585391413); 
    (false, 14599048782307286849932576057763754948145); (true, 971431682247644942009228690512624938726); (false, 1370965788785077018286373018622158657); 
    (true, 5386059564595668639357184563906369756578); (true, 1242683584051650149527848379523960869815); (false, 2630382719010991443572685526520117421222); 
    (false, 837263356213712444687325741322744717274); (true, 10310390982886396884317052184490097818554); (true, 1586190821784979916441459249440682587843); 
    (false, 7666898685170038292600220041457734787029); (true, 9173955458683166872136660192551249814696); (true, 28948975113991476961760718558251605025304); 
    (true, 15843175350051321021271226685164880127904); (false, 2659666646197729244138036022980969550938); (true, 21863757744279512894159191721587587694155); 
    (true, 101390361674700917265942562400919592073); (false, 1564287817366282619059731248455431668964); (true, 29828781167515742964764306696043480635009); 
    (true, 4008982218049814191852102300302208068688); (true, 2630930558861487594910332034193975035926); (false, 1395691641171629548326246902906297595646); 
    (false, 6607785709320182381223143520816606648848); (true, 13692663406152281510216047375549691483942); (true, 20600812059806080197748111100446930957463); 
    (true, 34739126423856202892583423970774564569802); (false, 19491737482358789991289569573383607547672); (true, 7497011770619491644432398638029799801725); 
    (false, 7308585297401317084387724670572847442742); (false, 1582728664036369908457436297281939119257); (true, 87272670945330454374536224206744759772); 
    (true, 2930252104431852704621644124163911201887); (false, 11899491259521033692969125360158426181743)].
Lemma prime_19757330305831588566944191468367130476339 : prime 19757330305831588566944191468367130476339.
Proof. apply (check1_prime _ 172054593956031949258510691 2 w2_full w2_part (-3385675872469944473147229741170731090145) (1567758921019043986448917253982060556964) prime_172054593956031949258510691); vm_compute; reflexivity. Qed.
Definition w1_full : list (bool * Z) := [
    (true, 0); (true, 0); (false, 0); (false, 0); (true, 0); (false, 0); (true, 0); (true, 46476436684064842683); (false, 17894553902857206055508041733161791055307); 
    (false, 163801594517078895452742343591837327292910); (true, 177280907162405572089078559681975578968828); (true, 41853429677885589353303442799543486311222); 
    (false, 109491176986473789992688937980024998301747); (true, 89106219172722199554433830872776694950200); (true, 87376825392508000094615690086792394745997); 
    (true, 1482242167195657404753202406891139262797); (false, 7383685083569108084944879168518245679252); (false, 29761564342405130916628314076928722820248); 
    (true, 232499790273481487111073822560174943919155); (false, 65149818628026690343745234418739555281871); (true, 249149361520518102642170573648418792475790); 
    (false, 7810524741794540882184071639995880796346); (true, 266391551668559646180640082460820822359492); (true, 349855689452168353429766638026389478633597); 
    (true, 454609601794332389339516905310790383685182); (true, 355223264068201415565803525288081503817552); (true, 147950773677460612094795483770259960123406); 
    (false, 47131017823370624232475307672166544259170); (true, 342437106871934794724340294533533148852452); (false, 150046703735688744875885451878844131290845); 
    (true, 75162998580494658103435237372936191731902); (true, 507066304036441456887858525916262040575951); (true, 389781570524823338652639872295517529186715); 
    (false, 237708492986367877696525933153093977528090); (false, 103504925041145791903799772468411819718862); (false, 245459626396058473383071313182829868423563); 
    (false, 179041257488065071391916062420410446701673); (true, 45997914074779700278501057689235789999765); (false, 149061292865447710908122852357145068309308); 
    (true, 19889744122114503382022368596211286106042); (false, 54638821870190009106684202424516419303517); (true, 123047162959398949512434741504663929234462); 
    (false, 22121060031346326443549911877730009787815); (false, 64382827832946150187093290402215201292383); (true, 141811714010363911779108684991055717876850); 
    (false, 105380214260364746409645880362397525076781); (true, 36993075371335657471731598275637104666567); (true, 43769678508955486146361887327604857668664); 
    (false, 154068182833691180145453895463434914131538); (true, 133298628058540864254078314732106402937636); (true, 40987128373589239846074423256802586820017); 
    (true, 49087220178194141087108369814057268854500); (true, 131143441478648698177031330893129495911833); (true, 321354305884833537424498232110043172851548); 
    (false, 8539420249198644067693178334696677089898); (false, 212304799842107285817424104402172239223454); (true, 325448115934942305369801961591006669488370); 
    (false, 3407207154725012632403458999169010124638); (true, 161514014339437228891310318436405309249339); (false, 194542079454920477286930578860262260505549); 
    (false, 7188610825707866754440682582293142412491); (true, 195056272995165747446768013312393625306502); (false, 231009893535950309810325312229730439568353); 
    (false, 5917681984981655941697449426894753635760); (false, 192907630955750628364155894284769403401068); (false, 10163526750559100613171704951530267700672); 
    (true, 182019044250507272825668633664792554037867); (true, 257455763996734481307312789350436423361); (true, 413175034455683212754287794684526878375909); 
    (false, 9870949635405381435421312026957186038635); (true, 552035021896032985445689455928497065203781); (true, 154120651194052926530462776588288702750206); 
    (false, 89310093119359453980928593665530791538975); (true, 12987195685711248169007482666437835701501); (true, 451815392851435334253087415386344835937243); 
    (false, 35642902864956763089276207272434024752896); (false, 80578088601872375994142492825340900778894); (true, 316457356098734067536514649245598019390140); 
    (true, 161537626625462543915158645388066981749935); (true, 65761201431636907810051232422556299169572); (true, 388624333957608688871476377359813995296); 
    (true, 158843755890032283661487609974420866913416); (true, 409367314082274133555727279661417482299462); (false, 32414921461102815934217836491641363069262); 
    (true, 15313743235209309015248157512409088852486); (false, 132524190066404592566003687338241857439630); (true, 142886370417086908238289413036038391813560); 
    (false, 116605410591968419672196325377345716375982); (false, 69447989818932984077492409193238322022731); (true, 208755790919370938131383959249834661555528); 
    (true, 482288423691960266206745533367674112259145); (false, 1496479971161744414639507896214826429791); (true, 119580002713720457780033521749688811811111); 
    (true, 237959418544650270671403542444263395026220); (true, 538193098112003455369755597785730670947562); (false, 3230717468130204731060741740958324676606); 
    (false, 34561098606040142294320299600940895647650); (false, 7749068533895069243015504051663621348284); (false, 155413981069358316342157950989114373392026); 
    (false, 116701426691020094924660494941284623677561); (false, 9744832898151118407665289329936950847207); (false, 190354815941563448168850417881308220348144); 
    (true, 1004869654463091172246524325684041474108); (true, 449015458124613807572105692622534303748020); (false, 396976520024994314101596180935554074049); 
    (false, 127073412646984854702795316312381361818477); (true, 8160399099143286491257779041534706710175); (false, 213294729340656582484091472786845801695300); 
    (true, 242513265370721446186635483212954734921988); (false, 1547710625605717342827232876951496275469); (true, 314904847882414400127129486112257407984833); 
    (false, 154396950265527777006944181060052905779072); (true, 8576481960885694948243835062436185414009); (false, 123958677570074565892958707459774197497312); 
    (true, 26672903831902532947834215510757308098640); (false, 68817849677509755252698048376318653319509); (false, 23865813048853806969944922921693704246113); 
    (false, 13520211357834348814835677796559495952905); (false, 34197824451878734629881594509410819485862); (false, 10418131075810183904691659441242756537073); 
    (false, 80122998106191471235957918968950885892677); (true, 1470642562706707416351154419476382414557); (false, 7887859501851512966122659782920135886906); 
    (true, 72291819704044497615490074180541589457373); (true, 438556421489382910420410377987426482762384); (true, 1856494990928363389081009632140570506403); 
    (false, 120228995011092717901681934939580758060541); (true, 242161747528211588534491968332763923940109); (false, 46509350671272293106756240480210335927388); 
    (false, 18256453119280605310762522615481295765105); (true, 951508237374284298200547097759253350874); (true, 94074406990476576693716201880599781566621); 
    (false, 2437576660071356325991488759172727315); (false, 45643378123907381296035709577603977715891); (true, 2382873530519510565006028371523230692); 
    (false, 214325018063759033307653567637053343011797); (true, 83094935795742413781698532364962235721432); (false, 276602624281642239937218680557139826668745)].
Definition w1_part : list (bool * Z) := [
    (true, 0); (true, 0); (true, 0); (false, 0)].
Lemma prime_276602624281642239937218680557139826668747 : prime 276602624281642239937218680557139826668747.
Proof. apply (check1_prime _ 19757330305831588566944191468367130476339 2 w1_full w1_part (94074944912245044309966580483695483989395) (-5572) prime_19757330305831588566944191468367130476339); vm_compute; reflexivity. Qed.
Definition wL_full : list (bool * Z) := [
    (true, 0); (false, 0); (false, 0); (false, 0); (false, 0); (false, 0); (false, 0); (false, 0); (false, 15); 
    (false, 7237005577332262213973186563042994239969362190503992292854688928977177499240); (false, 366098619717808128819716404516769999285687009209230871130201714971063287108); 
    (false, 2749250827445665192446140270154516795078445639981165598865190313677752906816); (false, 5477992513560120794091624584356882757115879159076018145870596263255392560461); 
    (false, 6455397486956186243939054146344199889966432884838984090389805380206955652528); (false, 6848222005804396403532409446759737605095915534899677084212128472147524458514); 
    (false, 4404637533860566105224845558775561502567995599334282561130869252656244708216); (false, 6344952710459813663401061200246444799712370231571395486938305767254096773433); 
    (false, 3163107197207370937930991316012012106014371812879058366484028739607151408778); (false, 2628189130059977259604009887393911648678018574174390891857497164229346540132); 
    (false, 3580026414676122394183928986360043766884554686494593054927996580121262596083); (false, 7145125301357622140591966255111047871363928676335560979025758388457046542); 
    (false, 1515022659095161548900299684217948022186501425454672017185996982379240606138); (false, 5004238144559635885309856792530035627214407298699067711348595712045700619772); 
    (false, 6361169281223376129754080860584115998493510754666201571212199917201126649041); (false, 3788141946557211057232979619043239968366074548177822530131911716997283382082); 
    (false, 58272111604074977346670768098860224042312863419570940591746295022589491978); (false, 1418268929545428020808796892624387889159162513634399091099428603123913991055); 
    (false, 5015096101613392387313879377591511020302573455830953689339086832636222206622); (false, 112862514080225007213758983391407509839427967941092271776062268741101388053); 
    (false, 3508290961168695654617931500777477337422909145233684818696301782414245582550); (false, 1162952297848897753561006296451807016629854512007663636735016971565896589250); 
    (false, 3683821412237788459395340409318992124758409751528627494865108078682334947363); (false, 88805970674079735938139350135373028713269631928012987132793027312168982018); 
    (false, 882446119489155019619427471450529950705933243102420410089804274243902482057); (false, 2339843117867339109358751222222393047407036896425305512903773409013182905290); 
    (false, 1064055729410227555868913812154114098778045610653859872923133831392720518576); (false, 3187548639188564239291021907342051216725966550642248342513819099519254213907); 
    (false, 378196952109680405488439724256051506715635609523665580363442045836367216054); (false, 769934405888589115162258549464431527665042676276394620316330391967670297713); 
    (false, 4417403972987421051356363482232091307476451264533282013946035361398372730742); (false, 444576983841708039923907759923972463130844037138045986882061346158599622659); 
    (false, 552305218422584814255837714583191643004819486592375678668581833631737114968); (false, 2142502202083746126790373097488306986624396283884547600603526589966585800559); 
    (false, 1269271836615943992518934017810528121274611735274854711908701729216884331750); (false, 232347647351598085284573391833414518300859631034751207175070316754040126891); 
    (false, 2581187900821675684808705644622435981219048268706815161287293937230503851); (false, 1781414204650243104157023672078993588233493503831220870032655247404226229008); 
    (false, 3473654756403860370369952276065119666506368480716566826755720694999671289471); (false, 5081022895833437830707779944264570939889238735731304010309058550568013315033); 
    (false, 2874918834892406057122680400571829481164099436581489108246196541762950865787); (false, 2235701014347501144551491374302573737602074563853514356871945551567919400190); 
    (false, 4550739247055229395527306011770540945540358252041714054040504422027234857372); (false, 343562798744928680226326157874145223528923566439678599129360147608850065128); 
    (false, 4589583017078137945073885316075168951650370439264340345229000808732033787672); (false, 617040910492287966847360910780666291541838171429730324583858830052056465657); 
    (false, 3006546625787682408267960222263959120535579887220906941085114509984065197069); (false, 50559585514730526309468333045055157235061094560121531345488908613683552352); 
    (false, 251579929714913647953866607325129006719690073408770390047581439344935923276); (false, 1003823108147302530705174551873390522180940744334328634643905535423179043149); 
    (false, 4775006333496893297388294568409353766279116604947064423075045936215055400903); (false, 3960338622550643212623860077445943987021951095471274811298886453318305142551); 
    (false, 1006780119609810597829075256124770821301930432436857407681664958636088446986); (false, 4166238563801900446761204423051479520121043807662739888967423843137916581605); 
    (false, 2867054407278699166456624574815007264405049733773994256539717994792953592355); (false, 1908663609024597844698787339875401237475567677834140548365298299795744447157); 
    (false, 1338829669934700050892845480995378192129845834615140146135348124917744138589); (false, 5447634765357526005473109885891474464039141980192716469631976701129507897750); 
    (false, 4230021902216946829437423743755255216776754758622144647176317622013226990); (false, 3767687060475148103976842769588609008462146942726786594409099442186938613407); 
    (false, 373084021360846956223288192432147711484334075415174954807874646198949968024); (false, 495421956777786667018549766997104802908328842141657291216835599164656281751); 
    (false, 1989376929931884829546856454419667748963025122325407879095441307773245061383); (false, 47493208148645229379691690290545079405991123734819432938178754656191426063); 
    (false, 4606157369340806584613763895433739512795140676705292238255420762098413272797); (false, 1183325610642282490843336503609556120120992117772879902602281040275346612052); 
    (false, 3563510913959965262704127517259054092755368135625437338032052812729635611725); (false, 3764799315554267081882624116270822057826175125098769029647906944301981211295); 
    (false, 319375559308628983155697962082615473687260046107089437207543726477497727710); (false, 199208753639950638420435835718056318846534885675814195114321985883514742448); 
    (false, 5104424779348200040037676486045999342053117968617292633618365909056807499937); (false, 2119078797943476936188903322073701101054945468860107952904274823585017743193); 
    (false, 6036164502801952199802136967430594362769365217300935457631900950011033107310); (false, 1135851932188162383121458795872507790055356116573102484390734182384235822092); 
    (false, 903791592907115627561977526657093746325920868736150043114862348126510281746); (false, 7926107520988504206730777653511049135406213355518906886834908121614028470); 
    (false, 6827706876569385569883199367751530024958933265021382768877415751661754914807); (false, 4612577820657270722347264030870846536419913927735641281487108361590963444688); 
    (false, 3854432742148653186004824637757889194356861904535781002705670995096575029319); (false, 7253673877326188032161559302662706664948316392819412228616881873440862179); 
    (false, 1597593181741941043220755343500328011110870376117980001866167804561082426800); (false, 1499943146676670184935008498744961287705370242488709964411428022657445866509); 
    (false, 6156930553902381422914762610155927486919783357223050647992505083758239252055); (false, 5302730044100712108517502989217108554488927377259811470939161977346698063209); 
    (false, 1067531095182327165696497720993927818696906233721263513275322696223842044918); (false, 3320088343440450045825756761238226744514279616272597511557210589627012710143); 
    (false, 156871197280514472776279603596767705567258317462732490939645609002494291271); (false, 3851662871381573532341037996454240167816914668397061625233364405314108839732); 
    (false, 140022049341937283012208358295545908362751529784108035526020792589181917415); (false, 2825416909219960025880796797012020217257692711451279682541226421409717536326); 
    (false, 1079009879450428648654584439939912408840448126683122330644103138410297168063); (false, 2112235687410916670945605054302904976339289431275277014421481525688946125532); 
    (false, 515367831931475040768056415954354812027150254955672514894509296672549910444); (false, 2750837392455731964840052843044144488425155985411964757765869503791866611288); 
    (false, 836557540499796423405266095551284213250639024415798070437786383253582133457); (false, 5626567453254850051401070287785856585877929979429723999169022554707011444454); 
    (false, 1801705591122906861964605961563647781682567574006683882043457801858247081610); (false, 2369828982899185248015565494918121864431027059699727244453043114990441239931); 
    (false, 1461487111809893981783359087343299724023859942277389410295443544297397363843); (false, 239606265034245397954452989916436565021537011654581865425252670468738870628); 
    (false, 12833206238152570694228999947486413903172079375490499389598184071204306251); (false, 4335058499205042049362759876350671564986994313320304864553971399845718595230); 
    (false, 952925419617937790101762517816463092915007320438860251349679939340070239684); (false, 1064086006429545394315043222928690967872501519177599420349644432992296272098); 
    (false, 3594390361019113693466200928758649705252185197778983533762305758699992837422); (false, 5832431647487564677703582192953771905822507757304168759649137513752033262377); 
    (false, 4130994979898709939610137291401495673104954749406001905721929497073883125022); (false, 728235730657282476806371796397220838478671962600511124393991513611055534482); 
    (false, 552764318352996615715132760962257648134142702611490887895819140114522581704); (false, 3941172597303890622482402542517241483995439813434489978069389265719303679144); 
    (false, 11171138331647133502311251210497400467675368916099043978709852007578125133); (false, 4901960876205371316897491413634105695864029702242674389737346461463461343057); 
    (false, 2039480427661440323138711856813373009164143598277519116380298299071336522586); (false, 3725916218372835489934028297384696002730442133873423967929123055573929237311); 
    (false, 4590520053058154879197853946252538247946124883174056940299432034883294539); (false, 4783386312395135020870605330269019672318431825134295305137436913956776093551); 
    (false, 6881334378232831913248478618206235428793286754850668119838972434323625879663); (false, 2093799635801560917771467374599641500453035779492095580363000365990190896296); 
    (false, 3142909412857918883332269870547636673448531741128950517342155548214835371160); (true, 7126243947360563402375389438501879860939517809124803545351329355430378704093); 
    (false, 345077265582712608755432515067601426110098091761112356106779945722802183047); (true, 252153472976439047503385772241241105976649038370675743276223760522443941827); 
    (false, 3746955838407307484505956270406943960236505786185036557583176745305880161615); (false, 495228723028359574635543427561469583691821819958121386473865173979297142080); 
    (true, 2064445551266525637284551620045034900047709678703148836223929592927417760798); (true, 8127954296339446608176858920670911598118720962865843227494897349340438066782); 
    (false, 4181650569074710011424700486321793861597438795871318981300503915476507406033); (true, 84723199601103382878583682329206003514036813424138356052214449856503918398); 
    (true, 4307172855825093330131879358765379850901658643061735528157915677786407393033); (true, 9444848412770476886711161107522128202325926974083263463195078436785850373804); 
    (true, 10728708658044941525467366986325357992228884768407829808027133588088742854516); (false, 5788316241162426126038094172268646007650906769705341891109745581449072602556); 
    (true, 6833674945641884054473148816785497088808280102243923567066079740019489977610); (true, 1152065191027074268595461601410067751656223697725913952359403358078785342042); 
    (true, 12627514713929568047456992637192584315309745563240181607442635142608514082050); (true, 216228528373473144992899200415828968293004614272900643805331441642632255764); 
    (true, 2714970617922534571827784680799559793486473033077877179805952090028626458085); (false, 2048515418483396076648218623922288477890702455293952291061185411211043046895); 
    (false, 1377558948714950334175465765182751530151749828742252606536811150799370252276); (true, 1996604449994375680803732756161385372328631356771395265557235376843222263323); 
    (true, 13863711714306416927530950047601043375137874035237993737092836413184389163492); (true, 2818224618787672685984805435978392277471976674335709526904582612471332474851); 
    (false, 38871898066020901303410422871957081306020265386340569615844662380983659817); (true, 8587908613503804398685659451107609912411854285755652826113831422731054760040); 
    (true, 618266858806362024045511585345393626775485788315068425103181220481330885915); (true, 10613496129462130814539561918038347149555760755479794889631365785747371521592); 
    (true, 6307541941691314893243490662318159649055364322524637283782950168626957434170); (false, 954065859197096493311350662418292192615806600660501933438854785311305134099); 
    (true, 2169179207102459291176084076793593541915330592980809801842168446019952525061); (false, 673018169632212969639163024459880533043097753709639194291762976941569007984); 
    (true, 523586732908894943471325809688644954702864167655849174614016553133832267088); (false, 542654837211902388959030124483145335613993145046831063358957089311738537989); 
    (false, 200249166696442363265970586544264097940452062029566471981183175501361482978); (false, 211851632839464392772094768258106436530881383296404650328133610497372242218); 
    (true, 9368646760036804412967633836730153720924365058936374504958612027628192582245); (false, 446273738775623970761337091787227857759547986951757001237713417745929257994); 
    (true, 1000725918680890940216552054603324884924361660049864425226149480299258628036); (true, 5726356521995468666978353032911096593946686406617831957304611207481503325200); 
    (true, 13295301017281469708545790065966550441931792195982241730084478881790726202406); (true, 5100869524605045074352917608092710671578902052686995710162622186659137887224); 
    (false, 3116996308106970215845590076866841312060289413821465369537120054492882793895); (true, 3179752858070188612017497504042512084609293677724713023858827299535267723947); 
    (true, 1095819497870615289138910608298316862135990128689379224771320140643955737408); (true, 2337102962263338892319023250391030928391630329960184663642881763592060541857); 
    (true, 717629864575992189692592411046818169884704859209948748432435040322612306745); (false, 43609543192353349912728584070333082781320249216416258104834423552650389900); 
    (false, 36062505962958643318204719200937865289850778755198753821284380483246339322); (true, 3044921309226502812528161395612313839227637592411801312422304352055730383008); 
    (true, 1637366800206943142412371274554457431774184719174295386135157437870901740420); (true, 272281831510640804709649548877258289447837847289915764758394317712444534602); 
    (false, 2027001126983461828391945561466319207949333186498938449058584284748971883625); (false, 5110629990138319183426983725887921106065042512267901794645106273387825408709); 
    (true, 2631203003118133627934205711515286343973024964791768384696216833911627410312); (true, 897339328873364464974671634583641450015984591601504720443419148148810359767); 
    (false, 2610751432830575997619445966957210491225610658653671049679895135276824920283); (true, 14204153120227670594755346387905865709843221813858501001523535682614875980091); 
    (false, 114933696236993950471995065112725229699201225861483063504225812751157007977); (true, 142211480479651146336429231134471317978748901910354029454695608644908097033); 
    (true, 9844167464453736210569364619556343951400433039936662249678518957641512761397); (false, 4641678687386561343777072983215178119263328320262248395006721141319866691455); 
    (false, 2084637883106558910684496544873192597853685690073899903007433019471901270147); (true, 10274625480730445950851051683979706349911128270415596692092404416628093208739); 
    (false, 261729290878924438106067528078841906307031281883557993741395504831826128689); (true, 13150405545024974427397492049334921566212093254452848615375235640246228384740); 
    (true, 12777962727083420528175335952554724355360559543047207735433099916392571414570); (false, 3321154598374707462318437608720696850787097086925182372975648570955914873570); 
    (false, 2123301711734786763912975141788298515979670242635090354002496563318389636); (false, 2270486301345296836878585829345854484375286321844726652256030107132645265886); 
    (false, 511703004137156305417996270916492166563775036174553944258292265510840628721); (false, 1303951373063273800981209312782560116913861698713584368052892117300511609838); 
    (false, 5123530551778949122423295587407871560929073510654679756477586856126778997361); (true, 763919912384040748273755078616141642346237110590913265628550277554692051336); 
    (false, 66684136227988461204858962626216572959061732580926224743526006951176397582); (false, 264735739886654715916059960546671996302629674644532695774424660553333841); 
    (true, 12616796066076031724863953829797977658158869924859557555640638030204242187803); (false, 1744950723259183122177357925329542688238741171039601873475542026070772306777); 
    (false, 1042110512597933672269345094716121225765480538148000215833736282334930425516); (true, 3358724097956035394342090659053090797466596439698688480089509398454026856991); 
    (true, 6775367507554842868955726492991103813327697701871265296325664968735425043707); (false, 4658934573541933200774887048370060818527328270047948881250152158703956704434); 
    (false, 528164045674839196775837058964605716431510406570469546739057264413816729641); (false, 5772026633804048546405650502167982550796852884365293799763050850945138841854); 
    (true, 604954752522449920390957627374259516240424904637346690205308001986860219661); (true, 441294626837549104394187694700415279984638606835790037012064542605554876107); 
    (false, 816005136290311965279319651650910434288646144492422698848599475556187115904); (false, 33806388530569948999472969566113526286564077763275345286137652258021406893); 
    (false, 5061890120916446342815476454643115019922328803584137529645769911696455702727); (true, 1962743265376848321971793333152232135056696455201882225385299704321308778676); 
    (true, 6426817959902662380346345210371813805143603787064033666917128256736275254222); (false, 1283314003965291149285808950439972273032714504855855327878885903202500596953); 
    (true, 10010509150136690256082127123717984109408822799127599016683125091679080225971); (false, 3764905444661031479172203694403656979167065126708938804194192067945929491539); 
    (false, 1641376707864594015672902632839896326749105939399257895666961296211951486544); (true, 824723877393816871896591877190736181121752481688828188219827984037602140460); 
    (false, 122832416046843881312366268510369422497295368486195182099875161781444074146); (true, 526071947207224155484837764181478117734775643702026214548753297269883201854); 
    (true, 45128863470270743916598101786194757794472098841630505748451875594183680); (true, 341441076186452403199917873108004518867939600581341259097924052572165982291); 
    (false, 5358002245281589939805744272044598056522800032165538054441582921088238052971); (false, 24773425338267497269080807348688559912889414888670886546215884906895403194); 
    (true, 1416597826237638178617990898910312884641406713404240934800581724240984282952); (true, 4619403770222745809578421271396784307084577234138521738369976367934939659913); 
    (true, 3479579045108173087083440637233528966406194809057722433624062637924062460018); (true, 13439368372964786786082676354258437008078575716378700293320697142174521489300); 
    (false, 6735627506613423768328207340092283028263934492348306977397830147896632233521); (true, 10029038504499876058827718311801507959449745850405164195517905261909396827461); 
    (false, 38756983092250552556924596288100256027801126768388047384381946326754662878); (true, 1170083209955792990090294620026114556085334903973378324248967698421635421291); 
    (true, 75812982807644451226172154879312211338368715079785400511607704948755764218); (true, 2739475012852726463490372227546113315514114739691362956648509467698513537831); 
    (false, 5367646325865200115650638284725490853820954516455919424212062079922671027280); (true, 3223926407677642324491220398024371313047274299482007660012679723510736698063); 
    (false, 58061951469045258524015422016540099069088898489234847151027529334013000049); (false, 517847483966457027496171379611095975093138551595522815913979512162029227379); 
    (true, 4145399265198328253671532420848563785361912699129838875982375824731474105355); (true, 5950581770969097209627333688168772446557071006867915917907361862529509569495); 
    (true, 1153765768639681771114698330081050750334129183931000439433436853033091097815); (true, 232702666806811819969220788656250815199588678237737413909882739943222478185); 
    (true, 10142370308516479998975020649918504612527052524683526778125003698304823455448); (false, 4481939582230414648195234463942290385899500617864257846000284064835647828334); 
    (true, 4817333365186732408635348848956335158470017293895391873159204745205594973164); (true, 636250384954690955468714319183014362220978758881328021278319197846137662716); 
    (false, 2440208144321047936363710874419881381971939898365900573560926586293457786292); (false, 7237005577332262213973186563042994240857116359379907606001950938285454250987)].
Definition wL_part : list (bool * Z) := [
    (true, 0); (false, 0); (true, 0); (false, 0); (false, 0); (false, 0); (false, 0); (true, 0); (false, 1180591620717411303423); 
    (false, 7237005577332262148468490748552037267540307668870186080822129444820427749816); (true, 1885178727098820731891406126137868713026169488819676955566191267336752566880); 
    (true, 4460460577519254000154614908083969709135982838162369233541486552158999531085); (true, 9798051978343783278418794006374323176637583106976849570273957790464117555225); 
    (true, 3079285926757157112348630337259153364883490458613189682035007588027015500); (true, 6440698711044238196006083390196071763307329586897214006752892749035185770768); 
    (true, 4015808991353794025805456034107131254746509694422359031679193343094062079076); (false, 121519143698457150148402787929160464601486360567607496437357575251095675679); 
    (true, 340546737780875140957277988865173993670081434194262030407868215121144036916); (false, 1793236243103340414126070225649795135369080081690096111000907629793505025084); 
    (true, 14032507260303563176004557654754349381931955484871945272408933305027973617221); (true, 4823190705467234999394338508689652519680349197135289616417099307638095650067); 
    (true, 6414067089903716018112317678896853725554108106941448719186333943699451337391); (true, 1853648032037993482985491965454657361362492081754614428946638017561741160485); 
    (false, 4925537360523802348250306482711578556825987725710529495005551291821681464755); (false, 191066610328982834746374093136655894302694606187925785179162474035355085257); 
    (false, 1918499835427985255930231457452197729189608629537182893618618577797591965733); (true, 2892387536320642112384223017198930762765384037206581019311523439023816467732); 
    (true, 9549429754520055131960380765470724592281089484241121278983265241186029103870); (true, 561513373936313409693424753723187194364686415050592243573510094344263366101); 
    (false, 621363596808176124213104158369480103882669841277557863243014924301439452903); (true, 68956922021728972828328363664171338397364267948926361589243183935354392276); 
    (false, 179378352939275221605994312316747492950830748011258065255282512451272883394); (true, 571446051281846603771694712682937300422978772230449701382281028804101617363); 
    (true, 11898776945189261090664321418729136075871170743325382929581037304752511823372); (true, 5632289803976943961003106586660494670250894835453614188121963895087236493936); 
    (true, 622172964032460344418415123350700241480958333980622394602105529853754808361); (true, 3695947586200900850613370982578036464257833004624288601982471008508127944300); 
    (false, 3250769737430837463636531989155289931974283705300339131187315501167882311420); (false, 5278714859490606982664642978658975420830951120585002706238739648488892265624); 
    (false, 1593702518527699478232578782661590362687633959821591661271486741547990292101); (true, 257681491357204934276811710440032937427474894157729522812167972095556148292); 
    (true, 8951753408676055997249742015017472750534029412580808247230242563557375461704); (true, 7086610988100792908111708729376358179334039848684525348466282375138274195489); 
    (false, 1574901285426116034546009205495524138297729754386896180622023468516931474427); (false, 26248399910395354020782229867858275012688375227454362187330713354291711956); 
    (true, 728844423237576256126949266331969567460901013472727112701637209028715266716); (true, 13453101740235604313388195151429361920676624341092816557807713326292334072381); 
    (true, 10549913004877828170252860095092308461713259234945751830982325708631525309849); (true, 1316603054028902219659709382626905223888959408990419198957791577584368525680); 
    (false, 1150454081586262386348676895878636628212008360850242589283252171461166809912); (false, 3658791868794606438832004976534700331706402582304141592319406032491091711080); 
    (true, 6217323356328337041474674632160684886678389410970444914180808830070529621421); (true, 339001174717249313788311203890265002053550575734873993698767649857855571593); 
    (false, 4933410984810495884900883310532892374241443273171199011340747346120503123476); (false, 4292283841332098468300782335984846195238332294480339033367574273681282083519); 
    (false, 197819584378172438452565870086241223158391154858942676408286465143828491188); (true, 10880938874896461823792144563861036454692211580182722863094047534308246662354); 
    (true, 3732411867913047426365924351795883464567737315011569410738064252025153782146); (true, 6457245958417372366001194853950713863080161269408558127184201731024032053401); 
    (false, 4419649073775282851911850544639413680037464361129072120896031457692106535651); (true, 19719500401700784144134281928461317407200834184903825093541068967894846531); 
    (true, 941096321287818900916587196138551209470776194697025396617675943601202862807); (true, 1412181814194358494587100763122910805962330748314243723759779138386028156934); 
    (false, 1070413730959455653525368758291795756660876345783129608640980765195155138145); (true, 12499638431261810698812452328435659214846438316199187987049242515812781088223); 
    (true, 6117215757140382461339898880205785178930257707744760560318235920017045222249); (false, 1055406577588106149488332422191575682362953718313826929550497532631790678098); 
    (true, 9099456950224613351501343530496318703265865408458829757398389044504788529671); (false, 2115616133945088716176048083183160267073797868878887239833124768577836567285); 
    (false, 1472395895331971042961989665402837039929198251734146586546987691000124761101); (false, 6003901465870679390730458512419635627139022350360233728578549963586878628690); 
    (false, 76386373446888563696907795802901235523895681745275726694886109721522686771); (false, 1690196543236141280905447628689239788262711520194952425797987134721873849448); 
    (true, 2339371414156554099651294029161741178640034064068312991046030419168419693750); (false, 1763620430272933119788907965765088727970825150503388170313453066208922855059); 
    (false, 414365743233742665779160911601057711009836395510202707265620284724117782459); (false, 156410995667804080878366343374135399268399252916009773516485698474564425901); 
    (true, 13639879740992190010645851345888025210069091738539037970497213810322516157056); (true, 502584573171755586175636180031254532439713387086661635273847157707658612378); 
    (true, 2557775399136614685756650177231176436260143753001454680005760522664008024564); (false, 251178990077172473357949892755059379440916442029337427493208113508133250603); 
    (true, 11510601454946130659393985327075359750414287165349648193709161026119188815264); (false, 2929292582547065039428247276158744096043704361985568080709066210623969999095); 
    (false, 87627377815189135763551196719921277597252160498296968966491051925211186307); (false, 5302371019342069018214281194594999684423831177585825109857029367229435994749); 
    (true, 1060390124495875306015556980744839596331180510761281374897278720456210295189); (true, 4304151056204095792070075949264881222076404282730890029562719515141449874345); 
    (false, 5896016387889827810156885668389368292044113528660142563938624360774503829329); (true, 13040307785661176347061474003540761065321876473125413556810106556484710960363); 
    (false, 1883363356155802282691409421920283036301105847505899145632917045284290179410); (false, 1209294805221729489259258784278661786725633062622095712627083604501905116778); 
    (true, 4079612751610509098788772396336034160423649206727600726528458891600480105355); (false, 6808794005067893418001365792221646053845783182317500270155761809772783997243); 
    (false, 245498340487866880215618429837366470631266417091779108350769242608455356508); (false, 5614238870948737033508195673741085500858327650494163497212370002494426763410); 
    (true, 2254186313146590005311853013043737433384862678416060796308844812876313550296); (true, 2876194394410381150508890941726559727901239054776095394182853468771250503748); 
    (false, 1059179582302475562269853740525530299192733803870415800758982067796915118219); (false, 4762683734647311768470264414843641555356801115116255477675990479296423951281); 
    (true, 519115386362396739297477638155513070313992154357650858724313797176979999); (false, 204966443223482328464602730190048245463009713519627649140264438131951466846); 
    (true, 1320494856517329474994531784831322442856278673047879388745551819040063036); (false, 1683049208251838519838532484307973073636472740648728926789370215163127538291); 
    (true, 2654517989881375270444887583620497943927314100240602025434359368794372299891); (false, 27763502303565549735555363852485162495366731108471674319496440843172763); 
    (true, 4853250631136201477731363276670582356694521643197931199935271164776433530); (false, 5783462129015891955269966291299480499029544717905330632872867950894482422534); 
    (false, 3635657979810006127563023890795605377791458167194151074125861847802556028610); (true, 8230287715713717791909582339169995180231836778814793407235244644073753572734); 
    (false, 2481057857746939199964201523464926043590231971919656365295098640739305944251); (false, 1249793947744797067928801553195984031559706199141510056794080934292803457998); 
    (false, 1754432258692898357239585418871764500034893269313110597920198388853503020434); (true, 2888885002401442494253691067498378601972967660612107312190248928334413468972); 
    (false, 18507836594118180807166378055642526409990205611621147499734710271072611193); (false, 1936176173352267343520497200905905078743049758970125478992980689367857384192)].
Lemma check_L : check1 L 276602624281642239937218680557139826668747 2 wL_full wL_part (2233364593245673852815932892735013076939656528578070433728021143254617821614) (-918259049265850385831298250211759012539362291049224222049079815310237912731) = true. Proof. vm_compute. reflexivity. Qed.
Theorem prime_L : prime L.
Proof. apply (check1_prime _ _ _ _ _ _ _ prime_276602624281642239937218680557139826668747 check_L). vm_compute. reflexivity. Qed.
