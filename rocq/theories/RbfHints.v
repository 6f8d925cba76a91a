(** Hints for the certificates of RbfCert.v, generated offline: distances at scale 2^24, how to enclose the flat distances, and rounded inverses of
    the RBF matrices at scale 128.  They are data only: every one is checked by the certificates. *)
From Coq Require Import ZArith List.
From Verif Require Import RbfCert.
Import ListNotations.
Open Scope Z_scope.
Definition dist_hint_2 : list (list Z) :=
  [[26348470];
   []].
Definition dist_hint_3 : list (list Z) :=
  [[22152242; 26012032];
   [26012202];
   []].
Definition dist_hint_4 : list (list Z) :=
  [[26304414; 24483144; 25025134];
   [24840589; 25388899];
   [23594854];
   []].
Definition dist_hint_5 : list (list Z) :=
  [[20538468; 20716972; 20381207; 26253987];
   [20677151; 20609587; 26353527];
   [21011557; 24924420];
   [25602802];
   []].
Definition dist_hint_6 : list (list Z) :=
  [[17769827; 26100601; 20561438; 19643455; 26173333];
   [26082647; 19729109; 20974784; 25860114];
   [19007742; 20508363; 18810134];
   [26349941; 20317694];
   [19728295];
   []].
Definition dist_hint_7 : list (list Z) :=
  [[21831522; 25377900; 17660959; 18387960; 18497500; 25148795];
   [17033808; 18594073; 26331277; 18153136; 24288206];
   [26108949; 21366886; 20366029; 17272516];
   [25731700; 26316251; 17658309];
   [18197414; 17467220];
   [25399341];
   []].
Definition dist_hint_8 : list (list Z) :=
  [[25259350; 25199558; 25468731; 16955084; 17574391; 18169571; 17271105];
   [14736970; 26281523; 16793359; 26172279; 26073044; 17422746];
   [25940480; 26275411; 16285736; 17119606; 25930303];
   [17043733; 17699460; 18000395; 17202671];
   [20829874; 20889395; 25681193];
   [26253123; 20775333];
   [20836578];
   []].
Definition dist_hint_9 : list (list Z) :=
  [[18801735; 17834309; 26139008; 26183693; 18740585; 17928083; 19396357; 16999124];
   [25342639; 25754686; 16469817; 26152848; 15977666; 25280124; 17596574];
   [17889800; 18173789; 18570670; 17645511; 25490224; 17885584];
   [19015365; 16249462; 25666431; 16627799; 18948569];
   [25983560; 16897893; 19988969; 18719032];
   [19240769; 17118675; 25932806];
   [19006550; 26282977];
   [19815889];
   []].
Definition dist_hint_10 : list (list Z) :=
  [[26339621; 17714476; 21817447; 18147542; 17994690; 25908601; 18069659; 17985509; 17341600];
   [17746059; 18079920; 21959984; 17343147; 26021289; 18017360; 17889636; 17988196];
   [17698719; 17701909; 26146881; 16903992; 22516207; 17954430; 26229188];
   [18319668; 18024696; 17855488; 18115241; 26151157; 22137272];
   [22115550; 17888280; 18082641; 26126847; 17991678];
   [17656980; 17756657; 17475394; 25996599];
   [22176115; 17849377; 17656645];
   [25864924; 17758815];
   [17380569];
   []].
Definition dist_hint_11 : list (list Z) :=
  [[18637510; 17450271; 24661164; 16594196; 18093886; 18071245; 26308535; 20511234; 17565474; 18052267];
   [26318983; 17484015; 25824610; 17537283; 17277341; 17041526; 16250549; 25252099; 17821473];
   [18705596; 26162055; 17918136; 17374612; 17316702; 15893612; 25639059; 17236541];
   [17216157; 18178323; 18157885; 26186042; 20686156; 17236275; 18125049];
   [18078514; 19018602; 17472378; 16160680; 26154463; 17429455];
   [24758426; 18163097; 21196224; 17361058; 26180894];
   [17958518; 20178345; 17744633; 24797534];
   [21267745; 17092524; 18186301];
   [25785403; 20881508];
   [17149935];
   []].
Definition dist_hint_12 : list (list Z) :=
  [[18788100; 21041613; 26347609; 26140911; 17151375; 20937368; 16048174; 18247275; 20755144; 16108379; 15960967];
   [26086498; 18979290; 20620214; 18194955; 20171229; 17058578; 23475153; 15826872; 19321572; 16140141];
   [22844081; 18815386; 17166814; 18929111; 16939792; 17898393; 26201100; 16346602; 16154371];
   [17621861; 16975577; 17356227; 26340442; 16139028; 26107212; 15597771; 15908489];
   [17553867; 19922499; 15205632; 22443050; 16268165; 23226482; 17068644];
   [26352334; 21813375; 18523684; 18738637; 19560567; 22544064];
   [15771055; 19564231; 16537416; 17604409; 16637466];
   [16018209; 26331557; 26008570; 25520733];
   [15867256; 25731281; 22181612];
   [15390866; 26082015];
   [25151948];
   []].
Definition dist_hint_13 : list (list Z) :=
  [[26106214; 16806703; 26183541; 17489507; 17688708; 16736337; 17711890; 26104832; 16293791; 26005026; 16321435; 17962418];
   [19779315; 14556341; 16226891; 16191594; 20011142; 16186759; 22333548; 19962457; 26157050; 19440261; 16165687];
   [15439309; 16704781; 25933304; 22548711; 26287517; 19630441; 20034179; 16515739; 19583333; 16496433];
   [25368177; 26231547; 14781846; 24944407; 15842692; 14789611; 25643054; 15599897; 25882248];
   [17718936; 16586552; 17508449; 16609789; 26152759; 17870379; 25919722; 26160623];
   [25810049; 26215580; 16348676; 16560107; 17123437; 16452291; 17057944];
   [26072962; 19515048; 19687594; 16471857; 19644875; 16534492];
   [16938193; 15930721; 17524250; 17091286; 17609526];
   [19845663; 26152957; 19917206; 16583522];
   [16161901; 22330124; 26248321];
   [16593667; 17575776];
   [26128171];
   []].
Definition dist_hint_14 : list (list Z) :=
  [[23288543; 18358362; 22764724; 22418798; 18169008; 18265363; 15469419; 18100359; 15125177; 25639827; 15627917; 23432697; 15220110];
   [18139475; 22608570; 22530568; 18177619; 15131167; 14788245; 15220580; 25856144; 14845228; 17978931; 23433518; 18324674];
   [15924717; 20407525; 18896892; 26246238; 15528267; 16255068; 26302999; 26292950; 16605437; 15290502; 26141855];
   [16506335; 20205547; 16077461; 19244995; 19670921; 19362903; 19444966; 19945095; 22734678; 15865403];
   [15672374; 19870681; 19070598; 15965675; 19201911; 19203208; 15775382; 22791704; 19847525];
   [16279517; 15481325; 25930802; 26249324; 26118720; 25739821; 15428371; 16216854];
   [25969366; 19324017; 15848967; 25845771; 15875602; 18408929; 26141032];
   [26011167; 14930339; 14590466; 25829463; 25896570; 26197244];
   [15892305; 25905578; 26196780; 18560193; 15910636];
   [14963433; 26222509; 15015263; 26347554];
   [15324747; 15209444; 15655345];
   [18434987; 19390911];
   [18238376];
   []].
Definition dist_hint_15 : list (list Z) :=
  [[22409300; 25805132; 18225729; 18717472; 16054378; 14454041; 26344230; 17208193; 16373007; 26326795; 18432709; 25474368; 16596681; 15428877];
   [15115359; 21079633; 17132122; 16609570; 20573566; 23240208; 12912723; 16194662; 22664952; 21361145; 15270329; 26069715; 15350626];
   [15547955; 26091853; 26251214; 15416786; 14960276; 26037509; 14745708; 25937417; 24572879; 15764062; 15709630; 15825548];
   [18213621; 15053813; 22576677; 18240239; 26217655; 18159837; 14738008; 22572805; 24432365; 21043980; 15294350];
   [26268279; 15046340; 16324140; 16781673; 26274797; 16492023; 18033099; 26086766; 23343718; 14633281];
   [17727888; 16752103; 16655048; 25777517; 19032111; 18272374; 14651804; 22838118; 26185177];
   [18283866; 26040527; 17958812; 18434627; 22755626; 15128963; 21688577; 24551901];
   [16872379; 18862918; 26206977; 14855906; 26220666; 17074090; 26060400];
   [16975262; 17030043; 25873236; 25720775; 13764226; 25566319];
   [16371239; 15184641; 26085733; 22728272; 26098991];
   [18220504; 15269767; 16954300; 25652562];
   [15651459; 20838683; 15665516];
   [15748435; 16225055];
   [15461246];
   []].
Definition dist_hint_16 : list (list Z) :=
  [[22027925; 22190630; 15772175; 26342979; 14699132; 15683589; 14933492; 15856171; 26165016; 21952131; 22192761; 17453903; 15488418; 17843526; 26195191];
   [15925371; 15803323; 14741908; 15084346; 14964291; 26306845; 21857957; 25829771; 17630035; 22290725; 17590182; 15206558; 22130003; 25825123];
   [21057343; 23438072; 15987199; 26091336; 17066360; 25438588; 14872836; 22290991; 21334451; 20640259; 13911656; 15855741; 15956198];
   [15594330; 23163725; 13607855; 15701117; 21118059; 14237566; 21940425; 25400651; 20685069; 26245714; 21993364; 16643265];
   [25917265; 25796403; 18284964; 16496475; 15146930; 25681930; 15907994; 15411763; 17446296; 15304091; 25953175];
   [17041295; 25657814; 15899214; 16277376; 26286926; 17093659; 15317587; 26216091; 26057781; 18386736];
   [26212666; 26052345; 26128588; 15074661; 13716895; 26309338; 25414705; 15614259; 17285675];
   [23453139; 15535329; 15241180; 15772694; 15068412; 16978553; 26336736; 25942996];
   [14562632; 15591298; 21134671; 20878636; 13390013; 22013504; 15423935];
   [26022260; 14691488; 25910168; 26206570; 26172083; 15515483];
   [16054140; 17489787; 14559496; 22048316; 14675144];
   [20349683; 25905931; 15598143; 23492112];
   [25904494; 17410007; 15502135];
   [16102900; 25412738];
   [15453566];
   []].
Definition dist_hint_17 : list (list Z) :=
  [[14976082; 26236116; 22901015; 26092052; 14677481; 26070286; 22444026; 14241964; 18767085; 22052045; 17114262; 26342951; 19095786; 14608318; 15283047; 17205569];
   [15157004; 15496387; 17632867; 14392623; 15600024; 16004944; 25080023; 22335645; 21399066; 15103297; 25993414; 26324095; 26301265; 23124302; 18635073];
   [15770757; 15407565; 14927840; 15186939; 26211676; 26222139; 26093685; 15279811; 25664020; 15230964; 26062243; 14784270; 15229759; 26174574];
   [14724970; 26014199; 15361789; 15308080; 14490575; 25973689; 26191915; 18497097; 22222416; 15343205; 18007544; 22479631; 25908457];
   [25359966; 26048218; 25939332; 25987014; 14185651; 14027422; 16824776; 26274960; 14367976; 25180623; 17650427; 16523144];
   [17470114; 26325502; 16777885; 25852807; 17683828; 25333304; 13815586; 13764628; 24251472; 26343683; 16439561];
   [15433963; 18494508; 15228098; 22974710; 25164360; 22621958; 22474738; 14034289; 26195746; 14372196];
   [16022656; 22399993; 15744136; 16157745; 15294552; 22886261; 26298203; 15518403; 15546587];
   [16805199; 14203189; 26219653; 18054927; 17218349; 16736366; 25442813; 25992091];
   [15132591; 14165121; 23015249; 19094876; 14060576; 26268120; 17116386];
   [25485427; 15166547; 26028806; 26101159; 15874269; 18762841];
   [14260391; 16898240; 16276026; 18378431; 26336112];
   [15260276; 17995118; 15557215; 25796694];
   [26075650; 22451381; 14274482];
   [14289491; 26032976];
   [14520308];
   []].
Definition dist_hint_18 : list (list Z) :=
  [[14233112; 26190831; 16862948; 17285713; 14682083; 15053100; 17989694; 14739294; 17706631; 26175729; 26129581; 24310940; 23468523; 26063413; 26008556; 14652395; 14389950];
   [14787472; 17288391; 16717950; 26233132; 26217797; 23731900; 25831169; 24130633; 14671164; 26082252; 17840250; 17853452; 26033200; 14902362; 14385353; 14582472];
   [15175319; 26145607; 23437729; 14985152; 15007709; 17269483; 26109727; 14612798; 24577828; 26149052; 14571017; 17775781; 17256000; 17792992; 26077972];
   [24474683; 14738187; 25787289; 17856594; 26141038; 14113016; 26340126; 26040449; 17578893; 14239533; 14787770; 26161941; 14665427; 23424602];
   [26337020; 26116273; 14260684; 14813311; 17717823; 14477067; 14882133; 14284747; 18138420; 26082702; 25811873; 14557086; 23205068];
   [17524393; 26291846; 14656360; 14574144; 17521784; 23936973; 14603236; 25999767; 17686339; 14807690; 17824071; 26120377];
   [15543825; 17940221; 14755024; 14545270; 17428967; 25961800; 25690945; 17522555; 24519017; 23621251; 14440690];
   [14469805; 23081909; 25934181; 25583348; 14454322; 17267749; 14763948; 26189681; 26226317; 17729615];
   [26233951; 24135257; 17338788; 26098792; 15177052; 24281740; 15109094; 17655182; 25873543];
   [14762082; 14954217; 16738299; 14182306; 25701688; 26345227; 26316722; 17995337];
   [17607247; 14570713; 26109833; 23921618; 17737936; 17363253; 26255690];
   [25862769; 14559997; 15179894; 17372318; 14613199; 15218002];
   [23327614; 14858259; 14941988; 26301369; 17977283];
   [25799187; 15049891; 26100130; 17710520];
   [17684448; 14582344; 15155073];
   [24099949; 14594543];
   [26111175];
   []].
Definition dist_hint_19 : list (list Z) :=
  [[25764198; 14231700; 17150894; 25866547; 26284224; 18535673; 14332412; 26062759; 14853484; 25840746; 25756449; 13781675; 13802400; 14271530; 15027613; 26274173; 14608557; 25982527];
   [22687996; 15187323; 26326280; 16658203; 14108206; 15379167; 17917212; 26087960; 18166001; 16755484; 22346577; 22670188; 14079271; 26345047; 24491149; 15020538; 14251782];
   [14983882; 14363965; 22873972; 26331162; 26244294; 18004230; 26069451; 18299599; 14046530; 24462080; 16785319; 16469771; 15388506; 22275761; 15297134; 26325382];
   [26166776; 14852271; 17025244; 26188207; 26011712; 26281434; 26220961; 15123392; 14976667; 14860791; 15190238; 26246096; 14743907; 26316874; 26052217];
   [14045942; 25990931; 17792412; 13868069; 18154284; 12894161; 14136394; 13893741; 25497101; 26198368; 18238117; 26078861; 18645816; 25707197];
   [14354613; 25787764; 18720420; 26175140; 17887307; 24526548; 13774636; 21728740; 22718505; 15206517; 16166420; 15673150; 25666673];
   [14797948; 25967511; 14546317; 26182546; 13617881; 25938010; 26343810; 25939028; 14774016; 13864693; 14991392; 26046113];
   [26087174; 16399734; 14059607; 15263921; 15199163; 14985779; 26241702; 24242830; 26039590; 16269944; 18072204];
   [14222774; 25952786; 18042055; 18458000; 18037729; 18235863; 26157797; 17829183; 14203333; 13139740];
   [26306445; 15025014; 15185076; 26252766; 15236640; 16323424; 15362950; 24288331; 18238411];
   [18212272; 18167670; 17625808; 18061165; 14405174; 18129450; 26129688; 12815726];
   [22607722; 22738439; 22665839; 26281257; 16368362; 26315687; 26290473];
   [16213766; 16480478; 26301648; 22411342; 26251670; 26168722];
   [24561663; 25902876; 13719516; 15542072; 13947946];
   [15117680; 22773518; 26284543; 14198267];
   [15322921; 16365402; 17981580];
   [26138104; 13974630];
   [18361976];
   []].
Definition dist_hint_20 : list (list Z) :=
  [[16183376; 16114223; 26214056; 26137024; 15792238; 26054148; 26053720; 15868292; 16423880; 26187097; 15924436; 15759419; 15856987; 16288556; 26203026; 16097303; 15927273; 15671746; 25942497];
   [20573682; 26260089; 14210645; 21086821; 16030639; 14402867; 20657242; 14250929; 26206040; 26240101; 14255152; 26297629; 14432096; 16062351; 26165108; 26205262; 14227146; 26080017];
   [25779574; 26230810; 20804014; 16130832; 25808908; 20797826; 14745249; 14055280; 14385375; 26250830; 26010945; 13968050; 16074432; 14112981; 26123357; 25946163; 14716870];
   [15969966; 25991164; 26123940; 15800777; 26053475; 15794095; 15639164; 16429677; 16179978; 15997904; 15438932; 25992738; 15772002; 15834828; 16132185; 16095460];
   [25747902; 16000666; 20936713; 14256244; 26047288; 20723673; 13906006; 26132726; 26315245; 14217352; 16292125; 26184711; 14178722; 14535575; 20390940];
   [15592361; 26262176; 19996129; 26264944; 14046557; 25796978; 13849688; 14153296; 26048628; 16299349; 26112532; 13549634; 14349356; 14261687];
   [16456445; 15778521; 16341939; 16250539; 26025450; 26007858; 16080761; 16303321; 26233824; 26044921; 16053078; 26160945; 16318206];
   [13955397; 14067294; 20000863; 26014716; 14382854; 13985152; 25570708; 15814873; 13456735; 25880813; 26029113; 20884154];
   [26025250; 26253050; 14098444; 26057962; 13742731; 26141181; 16414057; 13857209; 14464503; 25732300; 26026233];
   [25723619; 14357457; 14006440; 20426909; 21475206; 26057238; 25708718; 20314456; 26221961; 14353440];
   [26298891; 13883763; 26050408; 14018316; 15693506; 14159557; 13921996; 26332517; 20972778];
   [20630427; 26014507; 26224525; 16190937; 20507606; 14098800; 21114014; 14435445];
   [26088008; 26091569; 15886724; 20853476; 13575366; 20395718; 26046775];
   [20323760; 26263592; 13754692; 20877544; 13862977; 14053575];
   [26090983; 14065830; 20491601; 14049094; 25792241];
   [15972570; 25835730; 16326390; 16008930];
   [26218535; 20410372; 25969340];
   [26007536; 26327862];
   [13821554];
   []].
Definition dist_hint_21 : list (list Z) :=
  [[26173334; 26009175; 25964521; 25758884; 26086754; 14986228; 14186203; 25840351; 26177022; 17711830; 26106035; 17778977; 15036768; 15423648; 17372065; 14866036; 14375190; 15203845; 15134134; 17763217];
   [15033108; 14918256; 15078896; 25897324; 14458030; 14661396; 15106489; 26142799; 17209976; 26317830; 17177070; 26337150; 26235667; 18157988; 26017030; 14447255; 14896700; 25988555; 17978964];
   [15238612; 22596158; 24465483; 13948966; 24163500; 23302312; 14241949; 26334332; 14655861; 25994336; 15008611; 15379977; 15522425; 22074480; 14097260; 24357967; 22857546; 14856505];
   [23613788; 13743901; 14022069; 24197077; 22686934; 24027347; 15150067; 14554929; 14783423; 22226605; 22804604; 25805231; 14869103; 14159287; 24408112; 15479328; 26342819];
   [24064727; 24063879; 13937741; 15508864; 13981635; 14687166; 14552360; 15108551; 14933940; 15557825; 26187486; 22350967; 23966522; 14015090; 23196967; 25835362];
   [23192765; 23586438; 14126371; 14459423; 14612655; 18952307; 14548624; 24445212; 23938927; 14470371; 13974223; 23376626; 23389287; 13991672; 14783744];
   [14452745; 23939014; 23464680; 14776311; 18895982; 25986202; 24637578; 14049039; 15048537; 24671987; 23381636; 23356775; 13902004; 26210723];
   [14070339; 23406806; 14513588; 19364426; 26157960; 14144585; 23909066; 14816080; 14280370; 23605372; 23340681; 23565328; 26111263];
   [23903798; 26170005; 14758263; 26319924; 22512490; 23138757; 14855148; 15374905; 23700114; 13926186; 15847889; 15188841];
   [14469260; 19299580; 14679753; 13987914; 13910506; 14492549; 24322649; 23658051; 23255694; 23722626; 14281005];
   [26352206; 17220875; 15331674; 26063409; 26022365; 26239269; 26187178; 26087958; 14833659; 17518613];
   [26323299; 14401015; 14644151; 26226288; 14380935; 19785253; 18506571; 14857754; 26290894];
   [26267365; 15129186; 17373992; 15249052; 14374988; 14773653; 26153621; 26172848];
   [22247556; 26306827; 15082894; 14340737; 24767800; 23451102; 15014441];
   [14725811; 23693345; 23822778; 14006966; 15789057; 25840505];
   [15119274; 26002337; 26128611; 26287553; 17574631];
   [14122651; 24563058; 22712000; 26189319];
   [14415820; 23603105; 14571701];
   [13989208; 15180532];
   [15000076];
   []].
Definition dist_hint_22 : list (list Z) :=
  [[25405072; 25299518; 14816384; 17043584; 14790527; 17534359; 14382368; 13425820; 26309147; 26249287; 14034711; 16703861; 23153885; 15007248; 25784932; 26128443; 15260041; 14808925; 17701926; 26139228; 26289369];
   [12783858; 14638322; 17208831; 21011558; 26038699; 14572336; 22776767; 14253787; 21554778; 14186067; 16979612; 13357951; 26132878; 16799110; 26321519; 14921650; 26237818; 25183291; 26327179; 14788923];
   [19381836; 12761463; 14145108; 26291959; 16141972; 24790928; 16486460; 14157623; 21709895; 25389549; 24787498; 19031431; 25166198; 13873879; 13846252; 16605142; 25143861; 19456822; 18957794];
   [26329515; 14056801; 14732657; 23576034; 16537083; 14189792; 23736226; 23880608; 26192703; 14311160; 14349217; 14879849; 23928517; 13656723; 23073391; 26259766; 23848940; 22972373];
   [21033173; 26069810; 14467930; 13392809; 14249492; 21530633; 14154329; 25290776; 22810654; 14857718; 25148410; 15101366; 26303195; 26213512; 16811481; 14758423; 26300254];
   [14646127; 22529614; 25130920; 15462610; 23460025; 23396942; 14861186; 25150293; 24087012; 26134481; 15566270; 15654788; 13825341; 26211774; 14077296; 24098590];
   [14613758; 26284319; 14298268; 14601527; 26244408; 17518669; 26281534; 15024354; 17385223; 26145525; 26197188; 26310559; 17471249; 14655816; 15004584];
   [22302613; 23795372; 15620113; 14639606; 14355683; 22393897; 14216530; 26286553; 23155746; 23087051; 24456348; 26330812; 23556908; 14175076];
   [22293891; 25001147; 19874025; 23187544; 12939003; 14306981; 23233878; 17261686; 14235682; 22026811; 13358174; 14345924; 16518164];
   [22137022; 14627485; 26345070; 22312432; 23677214; 14306154; 23013703; 22967523; 24354441; 14360652; 14174254; 23735066];
   [23133897; 26181415; 25009763; 14088968; 14557716; 15924699; 15937553; 13704691; 14586302; 23649363; 14054806];
   [14003152; 19899122; 23905094; 14018784; 23453036; 23601406; 14392609; 13987654; 23890342; 23816575];
   [13437139; 26327380; 17804253; 15212129; 26349570; 14893515; 25751520; 14838284; 14915158];
   [16401081; 13425527; 14248564; 17107127; 22081039; 23193527; 16546794; 14333418];
   [14822936; 13793214; 23772539; 22946549; 26258625; 23028507; 23955677];
   [15396493; 26292557; 14811215; 16686790; 26136311; 26210999];
   [23175500; 13775168; 26298151; 13767689; 23826566];
   [13899252; 15397232; 23826729; 13701051];
   [14742203; 23140735; 22949470];
   [14883628; 14935824];
   [14355586];
   []].
Definition dist_hint_23 : list (list Z) :=
  [[13099332; 23905892; 26341943; 17605042; 13200748; 17407489; 26141424; 17535666; 17703841; 26334772; 13848252; 13184912; 17578505; 26216690; 13059691; 17582350; 17462617; 13122624; 26289957; 26269202; 26263816; 26273100];
   [15376451; 18070832; 26345021; 16902870; 13580767; 17260565; 25940140; 13160211; 13251838; 15079681; 17701936; 26144592; 25558309; 17891081; 13444594; 26139408; 26215917; 17805609; 26054001; 26160901; 25872071];
   [26148248; 16753244; 15362362; 26281690; 15469348; 23990886; 13491751; 13530196; 18616420; 26230205; 26255402; 15362938; 19682739; 24012206; 13540432; 19716423; 19582227; 13640559; 23919755; 19506612];
   [26100466; 17734314; 13542669; 17844463; 13476269; 26121471; 13444322; 26266997; 26181943; 13155708; 17768179; 17608318; 13188752; 26256183; 17756126; 18010990; 12891253; 26201514; 17851565];
   [26271304; 26233627; 26217177; 17319430; 17399050; 17537542; 17337554; 26142734; 26139687; 26311054; 13078939; 17327793; 17571615; 13271625; 13014546; 17482579; 17467041; 12819534];
   [26058784; 25603366; 13435804; 13146353; 25953256; 15221151; 17635879; 13544464; 17219489; 26256099; 26109947; 26108871; 17860545; 26061464; 13254099; 26216677; 17811206];
   [26142184; 17764088; 17400431; 17581671; 26302084; 12983994; 26011376; 13570776; 13394780; 17872533; 17498654; 26138931; 13220309; 17823878; 17375653; 25672779];
   [25959635; 26145877; 13384653; 14974085; 17744917; 13559559; 17095140; 26284720; 13244608; 13246053; 17785404; 26250339; 26257953; 13129865; 17996058];
   [26131256; 17520123; 13610580; 26312547; 17841857; 13341189; 26004643; 26045456; 26221000; 13185536; 13213031; 17906078; 17450168; 25742426];
   [17405412; 23555691; 13124818; 17477556; 26051393; 26204244; 26112768; 26239035; 26286046; 12918726; 17486849; 17469744; 12712970];
   [23420655; 26191893; 17824649; 26106484; 26203329; 17842267; 17628234; 13250827; 13079328; 26334654; 26200747; 25751559];
   [26233030; 26191733; 15140659; 20138046; 13599313; 23399663; 20287770; 20192309; 23593075; 13650900; 20085660];
   [13027437; 17853082; 17708859; 26191676; 13343742; 17555220; 17447647; 26125172; 13080171; 17232020];
   [26299415; 26290021; 17546467; 17641331; 13296411; 26044837; 17419677; 17417617; 13328972];
   [17778390; 26114573; 13154233; 26189421; 18019474; 13290040; 13284912; 26194612];
   [13185487; 13041384; 17343638; 26092574; 13211481; 26308458; 17769566];
   [26226165; 26220742; 26047527; 17340428; 17460681; 13403507];
   [13038944; 26225687; 17646972; 17668556; 26242561];
   [17704344; 26316653; 26265330; 26087018];
   [26056896; 13123024; 16845086];
   [26144247; 13248751];
   [12911330];
   []].
Definition dist_hint_24 : list (list Z) :=
  [[17591566; 26192028; 26269526; 12491716; 25643848; 26099147; 12969205; 13220712; 17621811; 26230908; 13106368; 17244711; 26325904; 17384634; 17607708; 26114730; 13209346; 26186235; 17590084; 26272107; 17437204; 13292008; 17409889];
   [26195470; 25785415; 25994379; 17824794; 13230748; 26099240; 13138946; 26229032; 18024242; 13299536; 17611118; 13151199; 26044986; 17389402; 26258884; 26190246; 13423966; 17929166; 17537382; 26178840; 13196867; 17707316];
   [17231013; 17873564; 13331909; 26095967; 26068885; 17678955; 13328363; 25873314; 26325022; 13174722; 17576754; 13179787; 26245391; 17745199; 17719133; 17554504; 13229543; 13059473; 26207415; 17371869; 26311790];
   [26189115; 26346913; 17136226; 17796432; 26346197; 26028964; 13160914; 17944859; 25893472; 25831133; 13093839; 13135005; 17734469; 17342542; 17803299; 13068096; 12656718; 13239041; 16986786; 26028690];
   [13152811; 17863281; 16856387; 25712040; 25747816; 26017586; 17323919; 13025866; 26226334; 13102536; 25848221; 17894384; 17123532; 17715191; 25852313; 26327515; 13287339; 17285720; 13053824];
   [13290055; 25692590; 13843219; 18210757; 26120481; 25993408; 17274987; 26174294; 17374366; 17938625; 13271455; 25701807; 13105714; 18154489; 26320665; 17298464; 25959202; 17196458];
   [26234937; 17898751; 25971424; 26040671; 26178210; 26291326; 17434896; 26149255; 13279833; 17517791; 17155504; 17770957; 25814970; 13036532; 12948653; 17561841; 13144804];
   [17590799; 13312180; 13264770; 26075226; 25767889; 17834754; 12890230; 13196945; 17958138; 17569291; 17470915; 26307097; 26262217; 26056452; 17245278; 13092368];
   [13341303; 26289026; 17447013; 26169715; 26287631; 26184750; 13233269; 17781778; 17653636; 17646660; 13281778; 26215516; 26175250; 17659020; 26207064];
   [17799894; 26333576; 17842893; 13078654; 26200685; 17675426; 13495733; 13193445; 26159020; 17611242; 17405543; 26066980; 26303033; 17302675];
   [13376581; 18225024; 13716067; 17158973; 17303257; 13321480; 26086744; 13028920; 17301247; 25816349; 17575188; 25701848; 17744231];
   [13153251; 17622789; 26220038; 26290371; 17479485; 17534294; 17674731; 13155964; 26252563; 13229594; 17778914; 26216734];
   [13461208; 17323488; 26183941; 13313782; 26078746; 26133324; 26303860; 17696899; 17622911; 13156342; 26069215];
   [26285686; 26279950; 17754977; 17550573; 17575998; 26209855; 13176510; 26137933; 17630463; 13176933];
   [17401563; 26286195; 26255753; 13238360; 17732847; 17505620; 26326668; 12848756; 17639079];
   [13210534; 26262370; 26272964; 26193234; 17628008; 17663878; 13032344; 26284801];
   [26018396; 26340662; 26071554; 26220516; 13144872; 26238341; 26225470];
   [26203624; 13062696; 13063815; 12873675; 26207198; 12965683];
   [13440948; 26243295; 26296485; 26086509; 13238557];
   [17242625; 17260047; 26038828; 26028232];
   [17388735; 13145479; 17563385];
   [26139774; 17393586];
   [26261692];
   []].
Definition dist_hint (n : nat) : list (list Z) := nth n [[]; []; dist_hint_2; dist_hint_3; dist_hint_4; dist_hint_5; dist_hint_6; dist_hint_7; dist_hint_8; dist_hint_9; dist_hint_10; dist_hint_11; dist_hint_12; dist_hint_13; dist_hint_14; dist_hint_15; dist_hint_16; dist_hint_17; dist_hint_18; dist_hint_19; dist_hint_20; dist_hint_21; dist_hint_22; dist_hint_23; dist_hint_24] [].
Definition flat_hint_2 : list (list hint) :=
  [[Hclamp; Hat 26353574];
   [Hat 26353574; Hclamp]].
Definition flat_hint_3 : list (list hint) :=
  [[Hclamp; Hat 22189908; Hat 26325630];
   [Hat 22189908; Hclamp; Hat 26325775];
   [Hat 26325630; Hat 26325775; Hclamp]].
Definition flat_hint_4 : list (list hint) :=
  [[Hclamp; Hat 26352155; Hat 25523198; Hat 25931999];
   [Hat 26352155; Hclamp; Hat 25808044; Hat 26132661];
   [Hat 25523198; Hat 25808044; Hclamp; Hat 24552670];
   [Hat 25931999; Hat 26132661; Hat 24552670; Hclamp]].
Definition flat_hint_5 : list (list hint) :=
  [[Hclamp; Hat 18304435; Hat 18807909; Hat 17843111; Hat 26351298];
   [Hat 18304435; Hclamp; Hat 18695944; Hat 18506074; Hat 26353397];
   [Hat 18807909; Hat 18695944; Hclamp; Hat 19596406; Hat 25867646];
   [Hat 17843111; Hat 18506074; Hat 19596406; Hclamp; Hat 26216701];
   [Hat 26351298; Hat 26353397; Hat 25867646; Hat 26216701; Hclamp]].
Definition flat_hint_6 : list (list hint) :=
  [[Hclamp; Hat 4829712; Hat 26338471; Hat 18369842; Hat 15421462; Hat 26345856];
   [Hat 4829712; Hclamp; Hat 26336224; Hat 15727166; Hat 19499766; Hat 26295457];
   [Hat 26338471; Hat 26336224; Hclamp; Hat 12890519; Hat 18216496; Hat 11982683];
   [Hat 18369842; Hat 15727166; Hat 12890519; Hclamp; Hat 26353428; Hat 17650566];
   [Hat 15421462; Hat 19499766; Hat 18216496; Hat 26353428; Hclamp; Hat 15723988];
   [Hat 26345856; Hat 26295457; Hat 11982683; Hat 17650566; Hat 15723988; Hclamp]].
Definition flat_hint_7 : list (list hint) :=
  [[Hclamp; Hat 21528887; Hat 26127269; Hat 3267517; Hat 9747570; Hat 10371843; Hat 26007701];
   [Hany; Hclamp; Hclamp; Hany; Hany; Hany; Hany];
   [Hany; Hclamp; Hclamp; Hany; Hany; Hany; Hany];
   [Hat 3267517; Hat 10899275; Hat 26340704; Hclamp; Hat 26261128; Hat 26352998; Hat 3224524];
   [Hany; Hany; Hany; Hany; Hclamp; Hany; Hclamp];
   [Hat 10371843; Hat 8236646; Hat 17795965; Hat 26352998; Hat 8540661; Hclamp; Hat 26134320];
   [Hany; Hany; Hclamp; Hany; Hany; Hany; Hclamp]].
Definition flat_hint_8 : list (list hint) :=
  [[Hclamp; Hany; Hany; Hany; Hclamp; Hany; Hany; Hany];
   [Hany; Hclamp; Hclamp; Hany; Hany; Hany; Hany; Hany];
   [Hany; Hclamp; Hclamp; Hany; Hany; Hany; Hany; Hany];
   [Hany; Hany; Hany; Hclamp; Hclamp; Hany; Hany; Hany];
   [Hclamp; Hany; Hany; Hany; Hclamp; Hany; Hany; Hany];
   [Hany; Hany; Hclamp; Hany; Hany; Hclamp; Hany; Hany];
   [Hany; Hany; Hclamp; Hany; Hany; Hany; Hclamp; Hany];
   [Hclamp; Hany; Hany; Hany; Hany; Hany; Hany; Hclamp]].
Definition flat_hint_9 : list (list hint) :=
  [[Hclamp; Hany; Hany; Hany; Hany; Hany; Hany; Hany; Hclamp];
   [Hany; Hclamp; Hany; Hany; Hclamp; Hany; Hany; Hany; Hany];
   [Hat 5551477; Hat 26109999; Hclamp; Hat 6107307; Hat 8379333; Hat 10771019; Hat 2978615; Hat 26176520; Hat 6068591];
   [Hany; Hany; Hany; Hclamp; Hany; Hclamp; Hany; Hany; Hany];
   [Hany; Hclamp; Hany; Hany; Hclamp; Hany; Hany; Hany; Hany];
   [Hany; Hany; Hany; Hclamp; Hany; Hclamp; Hany; Hany; Hany];
   [Hany; Hclamp; Hany; Hany; Hany; Hany; Hclamp; Hany; Hany];
   [Hany; Hany; Hany; Hclamp; Hany; Hany; Hany; Hclamp; Hany];
   [Hclamp; Hany; Hany; Hany; Hany; Hany; Hany; Hany; Hclamp]].
Definition flat_hint_10 : list (list hint) :=
  [[Hclamp; Hany; Hany; Hany; Hany; Hany; Hany; Hany; Hany; Hclamp];
   [Hany; Hclamp; Hany; Hany; Hany; Hclamp; Hany; Hany; Hany; Hany];
   [Hany; Hany; Hclamp; Hany; Hany; Hany; Hclamp; Hany; Hany; Hany];
   [Hat 21497730; Hat 7702384; Hat 3885366; Hclamp; Hat 9334709; Hat 7276389; Hat 5770058; Hat 7962023; Hat 26345530; Hat 22160292];
   [Hat 8194332; Hat 21799534; Hat 3935188; Hat 9334709; Hclamp; Hat 22116668; Hat 6086902; Hat 7721241; Hat 26341696; Hat 7009232];
   [Hany; Hclamp; Hany; Hany; Hany; Hclamp; Hany; Hany; Hany; Hany];
   [Hany; Hany; Hclamp; Hany; Hany; Hany; Hclamp; Hany; Hany; Hany];
   [Hat 7631777; Hat 7213319; Hat 22877746; Hat 7962023; Hat 7721241; Hat 4669576; Hat 22236229; Hclamp; Hat 26297179; Hat 4693070];
   [Hany; Hany; Hany; Hany; Hany; Hclamp; Hany; Hany; Hclamp; Hany];
   [Hclamp; Hany; Hany; Hany; Hany; Hany; Hany; Hany; Hany; Hclamp]].
Definition flat_hint_11 : list (list hint) :=
  [[Hclamp; Hany; Hclamp; Hany; Hany; Hany; Hany; Hany; Hany; Hany; Hany];
   [Hany; Hclamp; Hany; Hclamp; Hany; Hany; Hany; Hany; Hany; Hany; Hany];
   [Hclamp; Hany; Hclamp; Hany; Hany; Hany; Hany; Hany; Hany; Hany; Hany];
   [Hany; Hclamp; Hany; Hclamp; Hany; Hany; Hany; Hany; Hany; Hany; Hany];
   [Hclamp; Hany; Hany; Hany; Hclamp; Hany; Hany; Hany; Hany; Hany; Hany];
   [Hany; Hclamp; Hany; Hany; Hany; Hclamp; Hany; Hany; Hany; Hany; Hany];
   [Hany; Hclamp; Hany; Hany; Hany; Hany; Hclamp; Hany; Hany; Hany; Hany];
   [Hany; Hclamp; Hany; Hany; Hany; Hany; Hany; Hclamp; Hany; Hany; Hany];
   [Hany; Hclamp; Hany; Hany; Hany; Hany; Hany; Hany; Hclamp; Hany; Hany];
   [Hclamp; Hany; Hany; Hany; Hany; Hany; Hany; Hany; Hany; Hclamp; Hany];
   [Hany; Hany; Hclamp; Hany; Hany; Hany; Hany; Hany; Hany; Hany; Hclamp]].
Definition flat_hint_12 : list (list hint) :=
  [[Hclamp; Hany; Hany; Hany; Hany; Hclamp; Hany; Hany; Hany; Hany; Hany; Hany];
   [Hany; Hclamp; Hany; Hany; Hany; Hany; Hany; Hclamp; Hany; Hany; Hany; Hany];
   [Hany; Hany; Hclamp; Hany; Hany; Hclamp; Hany; Hany; Hany; Hany; Hany; Hany];
   [Hany; Hany; Hany; Hclamp; Hany; Hclamp; Hany; Hany; Hany; Hany; Hany; Hany];
   [Hany; Hany; Hany; Hany; Hclamp; Hclamp; Hany; Hany; Hany; Hany; Hany; Hany];
   [Hclamp; Hany; Hany; Hany; Hany; Hclamp; Hany; Hany; Hany; Hany; Hany; Hany];
   [Hany; Hany; Hany; Hclamp; Hany; Hany; Hclamp; Hany; Hany; Hany; Hany; Hany];
   [Hclamp; Hany; Hany; Hany; Hany; Hany; Hany; Hclamp; Hany; Hany; Hany; Hany];
   [Hany; Hany; Hany; Hclamp; Hany; Hany; Hany; Hany; Hclamp; Hany; Hany; Hany];
   [Hany; Hclamp; Hany; Hany; Hany; Hany; Hany; Hany; Hany; Hclamp; Hany; Hany];
   [Hclamp; Hany; Hany; Hany; Hany; Hany; Hany; Hany; Hany; Hany; Hclamp; Hany];
   [Hclamp; Hany; Hany; Hany; Hany; Hany; Hany; Hany; Hany; Hany; Hany; Hclamp]].
Definition flat_hint_13 : list (list hint) :=
  [[Hclamp; Hany; Hclamp; Hany; Hany; Hany; Hany; Hany; Hany; Hany; Hany; Hany; Hany];
   [Hany; Hclamp; Hany; Hclamp; Hany; Hany; Hany; Hany; Hany; Hany; Hany; Hany; Hany];
   [Hclamp; Hany; Hclamp; Hany; Hany; Hany; Hany; Hany; Hany; Hany; Hany; Hany; Hany];
   [Hany; Hclamp; Hany; Hclamp; Hany; Hany; Hany; Hany; Hany; Hany; Hany; Hany; Hany];
   [Hclamp; Hany; Hany; Hany; Hclamp; Hany; Hany; Hany; Hany; Hany; Hany; Hany; Hany];
   [Hany; Hclamp; Hany; Hany; Hany; Hclamp; Hany; Hany; Hany; Hany; Hany; Hany; Hany];
   [Hclamp; Hany; Hany; Hany; Hany; Hany; Hclamp; Hany; Hany; Hany; Hany; Hany; Hany];
   [Hany; Hclamp; Hany; Hany; Hany; Hany; Hany; Hclamp; Hany; Hany; Hany; Hany; Hany];
   [Hany; Hany; Hany; Hclamp; Hany; Hany; Hany; Hany; Hclamp; Hany; Hany; Hany; Hany];
   [Hclamp; Hany; Hany; Hany; Hany; Hany; Hany; Hany; Hany; Hclamp; Hany; Hany; Hany];
   [Hany; Hany; Hclamp; Hany; Hany; Hany; Hany; Hany; Hany; Hany; Hclamp; Hany; Hany];
   [Hclamp; Hany; Hany; Hany; Hany; Hany; Hany; Hany; Hany; Hany; Hany; Hclamp; Hany];
   [Hany; Hclamp; Hany; Hany; Hany; Hany; Hany; Hany; Hany; Hany; Hany; Hany; Hclamp]].
Definition flat_hint_14 : list (list hint) :=
  [[Hclamp; Hany; Hany; Hany; Hany; Hany; Hany; Hclamp; Hany; Hany; Hany; Hany; Hany; Hany];
   [Hany; Hclamp; Hany; Hany; Hany; Hany; Hclamp; Hany; Hany; Hany; Hany; Hany; Hany; Hany];
   [Hany; Hany; Hclamp; Hclamp; Hany; Hany; Hany; Hany; Hany; Hany; Hany; Hany; Hany; Hany];
   [Hany; Hany; Hclamp; Hclamp; Hany; Hany; Hany; Hany; Hany; Hany; Hany; Hany; Hany; Hany];
   [Hany; Hany; Hany; Hclamp; Hclamp; Hany; Hany; Hany; Hany; Hany; Hany; Hany; Hany; Hany];
   [Hany; Hany; Hany; Hany; Hclamp; Hclamp; Hany; Hany; Hany; Hany; Hany; Hany; Hany; Hany];
   [Hany; Hclamp; Hany; Hany; Hany; Hany; Hclamp; Hany; Hany; Hany; Hany; Hany; Hany; Hany];
   [Hclamp; Hany; Hany; Hany; Hany; Hany; Hany; Hclamp; Hany; Hany; Hany; Hany; Hany; Hany];
   [Hany; Hclamp; Hany; Hany; Hany; Hany; Hany; Hany; Hclamp; Hany; Hany; Hany; Hany; Hany];
   [Hclamp; Hany; Hany; Hany; Hany; Hany; Hany; Hany; Hany; Hclamp; Hany; Hany; Hany; Hany];
   [Hany; Hclamp; Hany; Hany; Hany; Hany; Hany; Hany; Hany; Hany; Hclamp; Hany; Hany; Hany];
   [Hclamp; Hany; Hany; Hany; Hany; Hany; Hany; Hany; Hany; Hany; Hany; Hclamp; Hany; Hany];
   [Hany; Hany; Hclamp; Hany; Hany; Hany; Hany; Hany; Hany; Hany; Hany; Hany; Hclamp; Hany];
   [Hclamp; Hany; Hany; Hany; Hany; Hany; Hany; Hany; Hany; Hany; Hany; Hany; Hany; Hclamp]].
Definition flat_hint_15 : list (list hint) :=
  [[Hclamp; Hany; Hany; Hany; Hany; Hclamp; Hany; Hany; Hany; Hany; Hany; Hany; Hany; Hany; Hany];
   [Hany; Hclamp; Hclamp; Hany; Hany; Hany; Hany; Hany; Hany; Hany; Hany; Hany; Hany; Hany; Hany];
   [Hany; Hclamp; Hclamp; Hany; Hany; Hany; Hany; Hany; Hany; Hany; Hany; Hany; Hany; Hany; Hany];
   [Hany; Hany; Hclamp; Hclamp; Hany; Hany; Hany; Hany; Hany; Hany; Hany; Hany; Hany; Hany; Hany];
   [Hany; Hclamp; Hany; Hany; Hclamp; Hany; Hany; Hany; Hany; Hany; Hany; Hany; Hany; Hany; Hany];
   [Hclamp; Hany; Hany; Hany; Hany; Hclamp; Hany; Hany; Hany; Hany; Hany; Hany; Hany; Hany; Hany];
   [Hclamp; Hany; Hany; Hany; Hany; Hany; Hclamp; Hany; Hany; Hany; Hany; Hany; Hany; Hany; Hany];
   [Hany; Hany; Hclamp; Hany; Hany; Hany; Hany; Hclamp; Hany; Hany; Hany; Hany; Hany; Hany; Hany];
   [Hclamp; Hany; Hany; Hany; Hany; Hany; Hany; Hany; Hclamp; Hany; Hany; Hany; Hany; Hany; Hany];
   [Hclamp; Hany; Hany; Hany; Hany; Hany; Hany; Hany; Hany; Hclamp; Hany; Hany; Hany; Hany; Hany];
   [Hany; Hany; Hany; Hclamp; Hany; Hany; Hany; Hany; Hany; Hany; Hclamp; Hany; Hany; Hany; Hany];
   [Hany; Hany; Hany; Hany; Hany; Hany; Hany; Hclamp; Hany; Hany; Hany; Hclamp; Hany; Hany; Hany];
   [Hany; Hclamp; Hany; Hany; Hany; Hany; Hany; Hany; Hany; Hany; Hany; Hany; Hclamp; Hany; Hany];
   [Hclamp; Hany; Hany; Hany; Hany; Hany; Hany; Hany; Hany; Hany; Hany; Hany; Hany; Hclamp; Hany];
   [Hclamp; Hany; Hany; Hany; Hany; Hany; Hany; Hany; Hany; Hany; Hany; Hany; Hany; Hany; Hclamp]].
Definition flat_hint_16 : list (list hint) :=
  [[Hclamp; Hany; Hany; Hclamp; Hany; Hany; Hany; Hany; Hany; Hany; Hany; Hany; Hany; Hany; Hany; Hany];
   [Hany; Hclamp; Hclamp; Hany; Hany; Hany; Hany; Hany; Hany; Hany; Hany; Hany; Hany; Hany; Hany; Hany];
   [Hany; Hclamp; Hclamp; Hany; Hany; Hany; Hany; Hany; Hany; Hany; Hany; Hany; Hany; Hany; Hany; Hany];
   [Hclamp; Hany; Hany; Hclamp; Hany; Hany; Hany; Hany; Hany; Hany; Hany; Hany; Hany; Hany; Hany; Hany];
   [Hany; Hclamp; Hany; Hany; Hclamp; Hany; Hany; Hany; Hany; Hany; Hany; Hany; Hany; Hany; Hany; Hany];
   [Hclamp; Hany; Hany; Hany; Hany; Hclamp; Hany; Hany; Hany; Hany; Hany; Hany; Hany; Hany; Hany; Hany];
   [Hclamp; Hany; Hany; Hany; Hany; Hany; Hclamp; Hany; Hany; Hany; Hany; Hany; Hany; Hany; Hany; Hany];
   [Hclamp; Hany; Hany; Hany; Hany; Hany; Hany; Hclamp; Hany; Hany; Hany; Hany; Hany; Hany; Hany; Hany];
   [Hclamp; Hany; Hany; Hany; Hany; Hany; Hany; Hany; Hclamp; Hany; Hany; Hany; Hany; Hany; Hany; Hany];
   [Hany; Hany; Hclamp; Hany; Hany; Hany; Hany; Hany; Hany; Hclamp; Hany; Hany; Hany; Hany; Hany; Hany];
   [Hany; Hany; Hany; Hany; Hany; Hany; Hclamp; Hany; Hany; Hany; Hclamp; Hany; Hany; Hany; Hany; Hany];
   [Hany; Hany; Hany; Hany; Hclamp; Hany; Hany; Hany; Hany; Hany; Hany; Hclamp; Hany; Hany; Hany; Hany];
   [Hclamp; Hany; Hany; Hany; Hany; Hany; Hany; Hany; Hany; Hany; Hany; Hany; Hclamp; Hany; Hany; Hany];
   [Hclamp; Hany; Hany; Hany; Hany; Hany; Hany; Hany; Hany; Hany; Hany; Hany; Hany; Hclamp; Hany; Hany];
   [Hany; Hany; Hclamp; Hany; Hany; Hany; Hany; Hany; Hany; Hany; Hany; Hany; Hany; Hany; Hclamp; Hany];
   [Hany; Hany; Hclamp; Hany; Hany; Hany; Hany; Hany; Hany; Hany; Hany; Hany; Hany; Hany; Hany; Hclamp]].
Definition flat_hint_17 : list (list hint) :=
  [[Hclamp; Hclamp; Hany; Hany; Hany; Hany; Hany; Hany; Hany; Hany; Hany; Hany; Hany; Hany; Hany; Hany; Hany];
   [Hclamp; Hclamp; Hany; Hany; Hany; Hany; Hany; Hany; Hany; Hany; Hany; Hany; Hany; Hany; Hany; Hany; Hany];
   [Hany; Hclamp; Hclamp; Hany; Hany; Hany; Hany; Hany; Hany; Hany; Hany; Hany; Hany; Hany; Hany; Hany; Hany];
   [Hany; Hclamp; Hany; Hclamp; Hany; Hany; Hany; Hany; Hany; Hany; Hany; Hany; Hany; Hany; Hany; Hany; Hany];
   [Hany; Hany; Hclamp; Hany; Hclamp; Hany; Hany; Hany; Hany; Hany; Hany; Hany; Hany; Hany; Hany; Hany; Hany];
   [Hclamp; Hany; Hany; Hany; Hany; Hclamp; Hany; Hany; Hany; Hany; Hany; Hany; Hany; Hany; Hany; Hany; Hany];
   [Hany; Hclamp; Hany; Hany; Hany; Hany; Hclamp; Hany; Hany; Hany; Hany; Hany; Hany; Hany; Hany; Hany; Hany];
   [Hany; Hclamp; Hany; Hany; Hany; Hany; Hany; Hclamp; Hany; Hany; Hany; Hany; Hany; Hany; Hany; Hany; Hany];
   [Hclamp; Hany; Hany; Hany; Hany; Hany; Hany; Hany; Hclamp; Hany; Hany; Hany; Hany; Hany; Hany; Hany; Hany];
   [Hany; Hany; Hany; Hany; Hclamp; Hany; Hany; Hany; Hany; Hclamp; Hany; Hany; Hany; Hany; Hany; Hany; Hany];
   [Hany; Hany; Hclamp; Hany; Hany; Hany; Hany; Hany; Hany; Hany; Hclamp; Hany; Hany; Hany; Hany; Hany; Hany];
   [Hclamp; Hany; Hany; Hany; Hany; Hany; Hany; Hany; Hany; Hany; Hany; Hclamp; Hany; Hany; Hany; Hany; Hany];
   [Hany; Hany; Hclamp; Hany; Hany; Hany; Hany; Hany; Hany; Hany; Hany; Hany; Hclamp; Hany; Hany; Hany; Hany];
   [Hany; Hany; Hany; Hclamp; Hany; Hany; Hany; Hany; Hany; Hany; Hany; Hany; Hany; Hclamp; Hany; Hany; Hany];
   [Hclamp; Hany; Hany; Hany; Hany; Hany; Hany; Hany; Hany; Hany; Hany; Hany; Hany; Hany; Hclamp; Hany; Hany];
   [Hclamp; Hany; Hany; Hany; Hany; Hany; Hany; Hany; Hany; Hany; Hany; Hany; Hany; Hany; Hany; Hclamp; Hany];
   [Hclamp; Hany; Hany; Hany; Hany; Hany; Hany; Hany; Hany; Hany; Hany; Hany; Hany; Hany; Hany; Hany; Hclamp]].
Definition flat_hint_18 : list (list hint) :=
  [[Hclamp; Hclamp; Hany; Hany; Hany; Hany; Hany; Hany; Hany; Hany; Hany; Hany; Hany; Hany; Hany; Hany; Hany; Hany];
   [Hclamp; Hclamp; Hany; Hany; Hany; Hany; Hany; Hany; Hany; Hany; Hany; Hany; Hany; Hany; Hany; Hany; Hany; Hany];
   [Hany; Hclamp; Hclamp; Hany; Hany; Hany; Hany; Hany; Hany; Hany; Hany; Hany; Hany; Hany; Hany; Hany; Hany; Hany];
   [Hclamp; Hany; Hany; Hclamp; Hany; Hany; Hany; Hany; Hany; Hany; Hany; Hany; Hany; Hany; Hany; Hany; Hany; Hany];
   [Hclamp; Hany; Hany; Hany; Hclamp; Hany; Hany; Hany; Hany; Hany; Hany; Hany; Hany; Hany; Hany; Hany; Hany; Hany];
   [Hclamp; Hany; Hany; Hany; Hany; Hclamp; Hany; Hany; Hany; Hany; Hany; Hany; Hany; Hany; Hany; Hany; Hany; Hany];
   [Hclamp; Hany; Hany; Hany; Hany; Hany; Hclamp; Hany; Hany; Hany; Hany; Hany; Hany; Hany; Hany; Hany; Hany; Hany];
   [Hany; Hany; Hclamp; Hany; Hany; Hany; Hany; Hclamp; Hany; Hany; Hany; Hany; Hany; Hany; Hany; Hany; Hany; Hany];
   [Hclamp; Hany; Hany; Hany; Hany; Hany; Hany; Hany; Hclamp; Hany; Hany; Hany; Hany; Hany; Hany; Hany; Hany; Hany];
   [Hany; Hany; Hany; Hclamp; Hany; Hany; Hany; Hany; Hany; Hclamp; Hany; Hany; Hany; Hany; Hany; Hany; Hany; Hany];
   [Hany; Hclamp; Hany; Hany; Hany; Hany; Hany; Hany; Hany; Hany; Hclamp; Hany; Hany; Hany; Hany; Hany; Hany; Hany];
   [Hany; Hany; Hany; Hany; Hclamp; Hany; Hany; Hany; Hany; Hany; Hany; Hclamp; Hany; Hany; Hany; Hany; Hany; Hany];
   [Hany; Hany; Hany; Hany; Hclamp; Hany; Hany; Hany; Hany; Hany; Hany; Hany; Hclamp; Hany; Hany; Hany; Hany; Hany];
   [Hany; Hany; Hclamp; Hany; Hany; Hany; Hany; Hany; Hany; Hany; Hany; Hany; Hany; Hclamp; Hany; Hany; Hany; Hany];
   [Hany; Hany; Hany; Hclamp; Hany; Hany; Hany; Hany; Hany; Hany; Hany; Hany; Hany; Hany; Hclamp; Hany; Hany; Hany];
   [Hany; Hclamp; Hany; Hany; Hany; Hany; Hany; Hany; Hany; Hany; Hany; Hany; Hany; Hany; Hany; Hclamp; Hany; Hany];
   [Hclamp; Hany; Hany; Hany; Hany; Hany; Hany; Hany; Hany; Hany; Hany; Hany; Hany; Hany; Hany; Hany; Hclamp; Hany];
   [Hclamp; Hany; Hany; Hany; Hany; Hany; Hany; Hany; Hany; Hany; Hany; Hany; Hany; Hany; Hany; Hany; Hany; Hclamp]].
Definition flat_hint_19 : list (list hint) :=
  [[Hclamp; Hany; Hclamp; Hany; Hany; Hany; Hany; Hany; Hany; Hany; Hany; Hany; Hany; Hany; Hany; Hany; Hany; Hany; Hany];
   [Hany; Hclamp; Hany; Hclamp; Hany; Hany; Hany; Hany; Hany; Hany; Hany; Hany; Hany; Hany; Hany; Hany; Hany; Hany; Hany];
   [Hclamp; Hany; Hclamp; Hany; Hany; Hany; Hany; Hany; Hany; Hany; Hany; Hany; Hany; Hany; Hany; Hany; Hany; Hany; Hany];
   [Hclamp; Hany; Hany; Hclamp; Hany; Hany; Hany; Hany; Hany; Hany; Hany; Hany; Hany; Hany; Hany; Hany; Hany; Hany; Hany];
   [Hany; Hany; Hclamp; Hany; Hclamp; Hany; Hany; Hany; Hany; Hany; Hany; Hany; Hany; Hany; Hany; Hany; Hany; Hany; Hany];
   [Hany; Hclamp; Hany; Hany; Hany; Hclamp; Hany; Hany; Hany; Hany; Hany; Hany; Hany; Hany; Hany; Hany; Hany; Hany; Hany];
   [Hany; Hclamp; Hany; Hany; Hany; Hany; Hclamp; Hany; Hany; Hany; Hany; Hany; Hany; Hany; Hany; Hany; Hany; Hany; Hany];
   [Hclamp; Hany; Hany; Hany; Hany; Hany; Hany; Hclamp; Hany; Hany; Hany; Hany; Hany; Hany; Hany; Hany; Hany; Hany; Hany];
   [Hany; Hany; Hany; Hany; Hclamp; Hany; Hany; Hany; Hclamp; Hany; Hany; Hany; Hany; Hany; Hany; Hany; Hany; Hany; Hany];
   [Hclamp; Hany; Hany; Hany; Hany; Hany; Hany; Hany; Hany; Hclamp; Hany; Hany; Hany; Hany; Hany; Hany; Hany; Hany; Hany];
   [Hany; Hany; Hany; Hany; Hclamp; Hany; Hany; Hany; Hany; Hany; Hclamp; Hany; Hany; Hany; Hany; Hany; Hany; Hany; Hany];
   [Hany; Hclamp; Hany; Hany; Hany; Hany; Hany; Hany; Hany; Hany; Hany; Hclamp; Hany; Hany; Hany; Hany; Hany; Hany; Hany];
   [Hclamp; Hany; Hany; Hany; Hany; Hany; Hany; Hany; Hany; Hany; Hany; Hany; Hclamp; Hany; Hany; Hany; Hany; Hany; Hany];
   [Hclamp; Hany; Hany; Hany; Hany; Hany; Hany; Hany; Hany; Hany; Hany; Hany; Hany; Hclamp; Hany; Hany; Hany; Hany; Hany];
   [Hclamp; Hany; Hany; Hany; Hany; Hany; Hany; Hany; Hany; Hany; Hany; Hany; Hany; Hany; Hclamp; Hany; Hany; Hany; Hany];
   [Hclamp; Hany; Hany; Hany; Hany; Hany; Hany; Hany; Hany; Hany; Hany; Hany; Hany; Hany; Hany; Hclamp; Hany; Hany; Hany];
   [Hany; Hany; Hany; Hclamp; Hany; Hany; Hany; Hany; Hany; Hany; Hany; Hany; Hany; Hany; Hany; Hany; Hclamp; Hany; Hany];
   [Hclamp; Hany; Hany; Hany; Hany; Hany; Hany; Hany; Hany; Hany; Hany; Hany; Hany; Hany; Hany; Hany; Hany; Hclamp; Hany];
   [Hany; Hclamp; Hany; Hany; Hany; Hany; Hany; Hany; Hany; Hany; Hany; Hany; Hany; Hany; Hany; Hany; Hany; Hany; Hclamp]].
Definition flat_hint_20 : list (list hint) :=
  [[Hclamp; Hclamp; Hany; Hany; Hany; Hany; Hany; Hany; Hany; Hany; Hany; Hany; Hany; Hany; Hany; Hany; Hany; Hany; Hany; Hany];
   [Hclamp; Hclamp; Hany; Hany; Hany; Hany; Hany; Hany; Hany; Hany; Hany; Hany; Hany; Hany; Hany; Hany; Hany; Hany; Hany; Hany];
   [Hclamp; Hany; Hclamp; Hany; Hany; Hany; Hany; Hany; Hany; Hany; Hany; Hany; Hany; Hany; Hany; Hany; Hany; Hany; Hany; Hany];
   [Hany; Hany; Hany; Hclamp; Hclamp; Hany; Hany; Hany; Hany; Hany; Hany; Hany; Hany; Hany; Hany; Hany; Hany; Hany; Hany; Hany];
   [Hany; Hclamp; Hany; Hany; Hclamp; Hany; Hany; Hany; Hany; Hany; Hany; Hany; Hany; Hany; Hany; Hany; Hany; Hany; Hany; Hany];
   [Hclamp; Hany; Hany; Hany; Hany; Hclamp; Hany; Hany; Hany; Hany; Hany; Hany; Hany; Hany; Hany; Hany; Hany; Hany; Hany; Hany];
   [Hany; Hclamp; Hany; Hany; Hany; Hany; Hclamp; Hany; Hany; Hany; Hany; Hany; Hany; Hany; Hany; Hany; Hany; Hany; Hany; Hany];
   [Hany; Hclamp; Hany; Hany; Hany; Hany; Hany; Hclamp; Hany; Hany; Hany; Hany; Hany; Hany; Hany; Hany; Hany; Hany; Hany; Hany];
   [Hclamp; Hany; Hany; Hany; Hany; Hany; Hany; Hany; Hclamp; Hany; Hany; Hany; Hany; Hany; Hany; Hany; Hany; Hany; Hany; Hany];
   [Hclamp; Hany; Hany; Hany; Hany; Hany; Hany; Hany; Hany; Hclamp; Hany; Hany; Hany; Hany; Hany; Hany; Hany; Hany; Hany; Hany];
   [Hany; Hany; Hclamp; Hany; Hany; Hany; Hany; Hany; Hany; Hany; Hclamp; Hany; Hany; Hany; Hany; Hany; Hany; Hany; Hany; Hany];
   [Hclamp; Hany; Hany; Hany; Hany; Hany; Hany; Hany; Hany; Hany; Hany; Hclamp; Hany; Hany; Hany; Hany; Hany; Hany; Hany; Hany];
   [Hclamp; Hany; Hany; Hany; Hany; Hany; Hany; Hany; Hany; Hany; Hany; Hany; Hclamp; Hany; Hany; Hany; Hany; Hany; Hany; Hany];
   [Hclamp; Hany; Hany; Hany; Hany; Hany; Hany; Hany; Hany; Hany; Hany; Hany; Hany; Hclamp; Hany; Hany; Hany; Hany; Hany; Hany];
   [Hclamp; Hany; Hany; Hany; Hany; Hany; Hany; Hany; Hany; Hany; Hany; Hany; Hany; Hany; Hclamp; Hany; Hany; Hany; Hany; Hany];
   [Hany; Hclamp; Hany; Hany; Hany; Hany; Hany; Hany; Hany; Hany; Hany; Hany; Hany; Hany; Hany; Hclamp; Hany; Hany; Hany; Hany];
   [Hclamp; Hany; Hany; Hany; Hany; Hany; Hany; Hany; Hany; Hany; Hany; Hany; Hany; Hany; Hany; Hany; Hclamp; Hany; Hany; Hany];
   [Hclamp; Hany; Hany; Hany; Hany; Hany; Hany; Hany; Hany; Hany; Hany; Hany; Hany; Hany; Hany; Hany; Hany; Hclamp; Hany; Hany];
   [Hclamp; Hany; Hany; Hany; Hany; Hany; Hany; Hany; Hany; Hany; Hany; Hany; Hany; Hany; Hany; Hany; Hany; Hany; Hclamp; Hany];
   [Hany; Hany; Hclamp; Hany; Hany; Hany; Hany; Hany; Hany; Hany; Hany; Hany; Hany; Hany; Hany; Hany; Hany; Hany; Hany; Hclamp]].
Definition flat_hint_21 : list (list hint) :=
  [[Hclamp; Hany; Hany; Hany; Hany; Hany; Hclamp; Hany; Hany; Hany; Hany; Hany; Hany; Hany; Hany; Hany; Hany; Hany; Hany; Hany; Hany];
   [Hany; Hclamp; Hclamp; Hany; Hany; Hany; Hany; Hany; Hany; Hany; Hany; Hany; Hany; Hany; Hany; Hany; Hany; Hany; Hany; Hany; Hany];
   [Hany; Hclamp; Hclamp; Hany; Hany; Hany; Hany; Hany; Hany; Hany; Hany; Hany; Hany; Hany; Hany; Hany; Hany; Hany; Hany; Hany; Hany];
   [Hany; Hclamp; Hany; Hclamp; Hany; Hany; Hany; Hany; Hany; Hany; Hany; Hany; Hany; Hany; Hany; Hany; Hany; Hany; Hany; Hany; Hany];
   [Hany; Hclamp; Hany; Hany; Hclamp; Hany; Hany; Hany; Hany; Hany; Hany; Hany; Hany; Hany; Hany; Hany; Hany; Hany; Hany; Hany; Hany];
   [Hany; Hany; Hany; Hclamp; Hany; Hclamp; Hany; Hany; Hany; Hany; Hany; Hany; Hany; Hany; Hany; Hany; Hany; Hany; Hany; Hany; Hany];
   [Hclamp; Hany; Hany; Hany; Hany; Hany; Hclamp; Hany; Hany; Hany; Hany; Hany; Hany; Hany; Hany; Hany; Hany; Hany; Hany; Hany; Hany];
   [Hclamp; Hany; Hany; Hany; Hany; Hany; Hany; Hclamp; Hany; Hany; Hany; Hany; Hany; Hany; Hany; Hany; Hany; Hany; Hany; Hany; Hany];
   [Hany; Hclamp; Hany; Hany; Hany; Hany; Hany; Hany; Hclamp; Hany; Hany; Hany; Hany; Hany; Hany; Hany; Hany; Hany; Hany; Hany; Hany];
   [Hany; Hany; Hclamp; Hany; Hany; Hany; Hany; Hany; Hany; Hclamp; Hany; Hany; Hany; Hany; Hany; Hany; Hany; Hany; Hany; Hany; Hany];
   [Hany; Hclamp; Hany; Hany; Hany; Hany; Hany; Hany; Hany; Hany; Hclamp; Hany; Hany; Hany; Hany; Hany; Hany; Hany; Hany; Hany; Hany];
   [Hany; Hany; Hclamp; Hany; Hany; Hany; Hany; Hany; Hany; Hany; Hany; Hclamp; Hany; Hany; Hany; Hany; Hany; Hany; Hany; Hany; Hany];
   [Hany; Hclamp; Hany; Hany; Hany; Hany; Hany; Hany; Hany; Hany; Hany; Hany; Hclamp; Hany; Hany; Hany; Hany; Hany; Hany; Hany; Hany];
   [Hclamp; Hany; Hany; Hany; Hany; Hany; Hany; Hany; Hany; Hany; Hany; Hany; Hany; Hclamp; Hany; Hany; Hany; Hany; Hany; Hany; Hany];
   [Hclamp; Hany; Hany; Hany; Hany; Hany; Hany; Hany; Hany; Hany; Hany; Hany; Hany; Hany; Hclamp; Hany; Hany; Hany; Hany; Hany; Hany];
   [Hclamp; Hany; Hany; Hany; Hany; Hany; Hany; Hany; Hany; Hany; Hany; Hany; Hany; Hany; Hany; Hclamp; Hany; Hany; Hany; Hany; Hany];
   [Hclamp; Hany; Hany; Hany; Hany; Hany; Hany; Hany; Hany; Hany; Hany; Hany; Hany; Hany; Hany; Hany; Hclamp; Hany; Hany; Hany; Hany];
   [Hclamp; Hany; Hany; Hany; Hany; Hany; Hany; Hany; Hany; Hany; Hany; Hany; Hany; Hany; Hany; Hany; Hany; Hclamp; Hany; Hany; Hany];
   [Hclamp; Hany; Hany; Hany; Hany; Hany; Hany; Hany; Hany; Hany; Hany; Hany; Hany; Hany; Hany; Hany; Hany; Hany; Hclamp; Hany; Hany];
   [Hclamp; Hany; Hany; Hany; Hany; Hany; Hany; Hany; Hany; Hany; Hany; Hany; Hany; Hany; Hany; Hany; Hany; Hany; Hany; Hclamp; Hany];
   [Hany; Hany; Hclamp; Hany; Hany; Hany; Hany; Hany; Hany; Hany; Hany; Hany; Hany; Hany; Hany; Hany; Hany; Hany; Hany; Hany; Hclamp]].
Definition flat_hint_22 : list (list hint) :=
  [[Hclamp; Hany; Hany; Hclamp; Hany; Hany; Hany; Hany; Hany; Hany; Hany; Hany; Hany; Hany; Hany; Hany; Hany; Hany; Hany; Hany; Hany; Hany];
   [Hany; Hclamp; Hclamp; Hany; Hany; Hany; Hany; Hany; Hany; Hany; Hany; Hany; Hany; Hany; Hany; Hany; Hany; Hany; Hany; Hany; Hany; Hany];
   [Hany; Hclamp; Hclamp; Hany; Hany; Hany; Hany; Hany; Hany; Hany; Hany; Hany; Hany; Hany; Hany; Hany; Hany; Hany; Hany; Hany; Hany; Hany];
   [Hclamp; Hany; Hany; Hclamp; Hany; Hany; Hany; Hany; Hany; Hany; Hany; Hany; Hany; Hany; Hany; Hany; Hany; Hany; Hany; Hany; Hany; Hany];
   [Hclamp; Hany; Hany; Hany; Hclamp; Hany; Hany; Hany; Hany; Hany; Hany; Hany; Hany; Hany; Hany; Hany; Hany; Hany; Hany; Hany; Hany; Hany];
   [Hclamp; Hany; Hany; Hany; Hany; Hclamp; Hany; Hany; Hany; Hany; Hany; Hany; Hany; Hany; Hany; Hany; Hany; Hany; Hany; Hany; Hany; Hany];
   [Hclamp; Hany; Hany; Hany; Hany; Hany; Hclamp; Hany; Hany; Hany; Hany; Hany; Hany; Hany; Hany; Hany; Hany; Hany; Hany; Hany; Hany; Hany];
   [Hclamp; Hany; Hany; Hany; Hany; Hany; Hany; Hclamp; Hany; Hany; Hany; Hany; Hany; Hany; Hany; Hany; Hany; Hany; Hany; Hany; Hany; Hany];
   [Hclamp; Hany; Hany; Hany; Hany; Hany; Hany; Hany; Hclamp; Hany; Hany; Hany; Hany; Hany; Hany; Hany; Hany; Hany; Hany; Hany; Hany; Hany];
   [Hany; Hclamp; Hany; Hany; Hany; Hany; Hany; Hany; Hany; Hclamp; Hany; Hany; Hany; Hany; Hany; Hany; Hany; Hany; Hany; Hany; Hany; Hany];
   [Hany; Hany; Hclamp; Hany; Hany; Hany; Hany; Hany; Hany; Hany; Hclamp; Hany; Hany; Hany; Hany; Hany; Hany; Hany; Hany; Hany; Hany; Hany];
   [Hclamp; Hany; Hany; Hany; Hany; Hany; Hany; Hany; Hany; Hany; Hany; Hclamp; Hany; Hany; Hany; Hany; Hany; Hany; Hany; Hany; Hany; Hany];
   [Hclamp; Hany; Hany; Hany; Hany; Hany; Hany; Hany; Hany; Hany; Hany; Hany; Hclamp; Hany; Hany; Hany; Hany; Hany; Hany; Hany; Hany; Hany];
   [Hany; Hclamp; Hany; Hany; Hany; Hany; Hany; Hany; Hany; Hany; Hany; Hany; Hany; Hclamp; Hany; Hany; Hany; Hany; Hany; Hany; Hany; Hany];
   [Hclamp; Hany; Hany; Hany; Hany; Hany; Hany; Hany; Hany; Hany; Hany; Hany; Hany; Hany; Hclamp; Hany; Hany; Hany; Hany; Hany; Hany; Hany];
   [Hany; Hclamp; Hany; Hany; Hany; Hany; Hany; Hany; Hany; Hany; Hany; Hany; Hany; Hany; Hany; Hclamp; Hany; Hany; Hany; Hany; Hany; Hany];
   [Hany; Hany; Hclamp; Hany; Hany; Hany; Hany; Hany; Hany; Hany; Hany; Hany; Hany; Hany; Hany; Hany; Hclamp; Hany; Hany; Hany; Hany; Hany];
   [Hclamp; Hany; Hany; Hany; Hany; Hany; Hany; Hany; Hany; Hany; Hany; Hany; Hany; Hany; Hany; Hany; Hany; Hclamp; Hany; Hany; Hany; Hany];
   [Hclamp; Hany; Hany; Hany; Hany; Hany; Hany; Hany; Hany; Hany; Hany; Hany; Hany; Hany; Hany; Hany; Hany; Hany; Hclamp; Hany; Hany; Hany];
   [Hany; Hany; Hany; Hany; Hclamp; Hany; Hany; Hany; Hany; Hany; Hany; Hany; Hany; Hany; Hany; Hany; Hany; Hany; Hany; Hclamp; Hany; Hany];
   [Hany; Hany; Hany; Hany; Hclamp; Hany; Hany; Hany; Hany; Hany; Hany; Hany; Hany; Hany; Hany; Hany; Hany; Hany; Hany; Hany; Hclamp; Hany];
   [Hany; Hclamp; Hany; Hany; Hany; Hany; Hany; Hany; Hany; Hany; Hany; Hany; Hany; Hany; Hany; Hany; Hany; Hany; Hany; Hany; Hany; Hclamp]].
Definition flat_hint_23 : list (list hint) :=
  [[Hclamp; Hclamp; Hany; Hany; Hany; Hany; Hany; Hany; Hany; Hany; Hany; Hany; Hany; Hany; Hany; Hany; Hany; Hany; Hany; Hany; Hany; Hany; Hany];
   [Hclamp; Hclamp; Hany; Hany; Hany; Hany; Hany; Hany; Hany; Hany; Hany; Hany; Hany; Hany; Hany; Hany; Hany; Hany; Hany; Hany; Hany; Hany; Hany];
   [Hany; Hclamp; Hclamp; Hany; Hany; Hany; Hany; Hany; Hany; Hany; Hany; Hany; Hany; Hany; Hany; Hany; Hany; Hany; Hany; Hany; Hany; Hany; Hany];
   [Hany; Hany; Hany; Hclamp; Hany; Hany; Hclamp; Hany; Hany; Hany; Hany; Hany; Hany; Hany; Hany; Hany; Hany; Hany; Hany; Hany; Hany; Hany; Hany];
   [Hany; Hany; Hclamp; Hany; Hclamp; Hany; Hany; Hany; Hany; Hany; Hany; Hany; Hany; Hany; Hany; Hany; Hany; Hany; Hany; Hany; Hany; Hany; Hany];
   [Hclamp; Hany; Hany; Hany; Hany; Hclamp; Hany; Hany; Hany; Hany; Hany; Hany; Hany; Hany; Hany; Hany; Hany; Hany; Hany; Hany; Hany; Hany; Hany];
   [Hclamp; Hany; Hany; Hany; Hany; Hany; Hclamp; Hany; Hany; Hany; Hany; Hany; Hany; Hany; Hany; Hany; Hany; Hany; Hany; Hany; Hany; Hany; Hany];
   [Hany; Hclamp; Hany; Hany; Hany; Hany; Hany; Hclamp; Hany; Hany; Hany; Hany; Hany; Hany; Hany; Hany; Hany; Hany; Hany; Hany; Hany; Hany; Hany];
   [Hclamp; Hany; Hany; Hany; Hany; Hany; Hany; Hany; Hclamp; Hany; Hany; Hany; Hany; Hany; Hany; Hany; Hany; Hany; Hany; Hany; Hany; Hany; Hany];
   [Hany; Hclamp; Hany; Hany; Hany; Hany; Hany; Hany; Hany; Hclamp; Hany; Hany; Hany; Hany; Hany; Hany; Hany; Hany; Hany; Hany; Hany; Hany; Hany];
   [Hany; Hclamp; Hany; Hany; Hany; Hany; Hany; Hany; Hany; Hany; Hclamp; Hany; Hany; Hany; Hany; Hany; Hany; Hany; Hany; Hany; Hany; Hany; Hany];
   [Hclamp; Hany; Hany; Hany; Hany; Hany; Hany; Hany; Hany; Hany; Hany; Hclamp; Hany; Hany; Hany; Hany; Hany; Hany; Hany; Hany; Hany; Hany; Hany];
   [Hclamp; Hany; Hany; Hany; Hany; Hany; Hany; Hany; Hany; Hany; Hany; Hany; Hclamp; Hany; Hany; Hany; Hany; Hany; Hany; Hany; Hany; Hany; Hany];
   [Hany; Hany; Hany; Hclamp; Hany; Hany; Hany; Hany; Hany; Hany; Hany; Hany; Hany; Hclamp; Hany; Hany; Hany; Hany; Hany; Hany; Hany; Hany; Hany];
   [Hany; Hany; Hclamp; Hany; Hany; Hany; Hany; Hany; Hany; Hany; Hany; Hany; Hany; Hany; Hclamp; Hany; Hany; Hany; Hany; Hany; Hany; Hany; Hany];
   [Hclamp; Hany; Hany; Hany; Hany; Hany; Hany; Hany; Hany; Hany; Hany; Hany; Hany; Hany; Hany; Hclamp; Hany; Hany; Hany; Hany; Hany; Hany; Hany];
   [Hany; Hclamp; Hany; Hany; Hany; Hany; Hany; Hany; Hany; Hany; Hany; Hany; Hany; Hany; Hany; Hany; Hclamp; Hany; Hany; Hany; Hany; Hany; Hany];
   [Hclamp; Hany; Hany; Hany; Hany; Hany; Hany; Hany; Hany; Hany; Hany; Hany; Hany; Hany; Hany; Hany; Hany; Hclamp; Hany; Hany; Hany; Hany; Hany];
   [Hclamp; Hany; Hany; Hany; Hany; Hany; Hany; Hany; Hany; Hany; Hany; Hany; Hany; Hany; Hany; Hany; Hany; Hany; Hclamp; Hany; Hany; Hany; Hany];
   [Hany; Hany; Hany; Hany; Hclamp; Hany; Hany; Hany; Hany; Hany; Hany; Hany; Hany; Hany; Hany; Hany; Hany; Hany; Hany; Hclamp; Hany; Hany; Hany];
   [Hany; Hany; Hclamp; Hany; Hany; Hany; Hany; Hany; Hany; Hany; Hany; Hany; Hany; Hany; Hany; Hany; Hany; Hany; Hany; Hany; Hclamp; Hany; Hany];
   [Hany; Hany; Hany; Hany; Hclamp; Hany; Hany; Hany; Hany; Hany; Hany; Hany; Hany; Hany; Hany; Hany; Hany; Hany; Hany; Hany; Hany; Hclamp; Hany];
   [Hany; Hany; Hany; Hany; Hclamp; Hany; Hany; Hany; Hany; Hany; Hany; Hany; Hany; Hany; Hany; Hany; Hany; Hany; Hany; Hany; Hany; Hany; Hclamp]].
Definition flat_hint_24 : list (list hint) :=
  [[Hclamp; Hany; Hany; Hany; Hclamp; Hany; Hany; Hany; Hany; Hany; Hany; Hany; Hany; Hany; Hany; Hany; Hany; Hany; Hany; Hany; Hany; Hany; Hany; Hany];
   [Hany; Hclamp; Hany; Hany; Hany; Hany; Hclamp; Hany; Hany; Hany; Hany; Hany; Hany; Hany; Hany; Hany; Hany; Hany; Hany; Hany; Hany; Hany; Hany; Hany];
   [Hany; Hany; Hclamp; Hclamp; Hany; Hany; Hany; Hany; Hany; Hany; Hany; Hany; Hany; Hany; Hany; Hany; Hany; Hany; Hany; Hany; Hany; Hany; Hany; Hany];
   [Hany; Hany; Hclamp; Hclamp; Hany; Hany; Hany; Hany; Hany; Hany; Hany; Hany; Hany; Hany; Hany; Hany; Hany; Hany; Hany; Hany; Hany; Hany; Hany; Hany];
   [Hclamp; Hany; Hany; Hany; Hclamp; Hany; Hany; Hany; Hany; Hany; Hany; Hany; Hany; Hany; Hany; Hany; Hany; Hany; Hany; Hany; Hany; Hany; Hany; Hany];
   [Hany; Hany; Hclamp; Hany; Hany; Hclamp; Hany; Hany; Hany; Hany; Hany; Hany; Hany; Hany; Hany; Hany; Hany; Hany; Hany; Hany; Hany; Hany; Hany; Hany];
   [Hany; Hclamp; Hany; Hany; Hany; Hany; Hclamp; Hany; Hany; Hany; Hany; Hany; Hany; Hany; Hany; Hany; Hany; Hany; Hany; Hany; Hany; Hany; Hany; Hany];
   [Hclamp; Hany; Hany; Hany; Hany; Hany; Hany; Hclamp; Hany; Hany; Hany; Hany; Hany; Hany; Hany; Hany; Hany; Hany; Hany; Hany; Hany; Hany; Hany; Hany];
   [Hclamp; Hany; Hany; Hany; Hany; Hany; Hany; Hany; Hclamp; Hany; Hany; Hany; Hany; Hany; Hany; Hany; Hany; Hany; Hany; Hany; Hany; Hany; Hany; Hany];
   [Hany; Hany; Hclamp; Hany; Hany; Hany; Hany; Hany; Hany; Hclamp; Hany; Hany; Hany; Hany; Hany; Hany; Hany; Hany; Hany; Hany; Hany; Hany; Hany; Hany];
   [Hany; Hany; Hany; Hclamp; Hany; Hany; Hany; Hany; Hany; Hany; Hclamp; Hany; Hany; Hany; Hany; Hany; Hany; Hany; Hany; Hany; Hany; Hany; Hany; Hany];
   [Hclamp; Hany; Hany; Hany; Hany; Hany; Hany; Hany; Hany; Hany; Hany; Hclamp; Hany; Hany; Hany; Hany; Hany; Hany; Hany; Hany; Hany; Hany; Hany; Hany];
   [Hclamp; Hany; Hany; Hany; Hany; Hany; Hany; Hany; Hany; Hany; Hany; Hany; Hclamp; Hany; Hany; Hany; Hany; Hany; Hany; Hany; Hany; Hany; Hany; Hany];
   [Hany; Hclamp; Hany; Hany; Hany; Hany; Hany; Hany; Hany; Hany; Hany; Hany; Hany; Hclamp; Hany; Hany; Hany; Hany; Hany; Hany; Hany; Hany; Hany; Hany];
   [Hclamp; Hany; Hany; Hany; Hany; Hany; Hany; Hany; Hany; Hany; Hany; Hany; Hany; Hany; Hclamp; Hany; Hany; Hany; Hany; Hany; Hany; Hany; Hany; Hany];
   [Hany; Hclamp; Hany; Hany; Hany; Hany; Hany; Hany; Hany; Hany; Hany; Hany; Hany; Hany; Hany; Hclamp; Hany; Hany; Hany; Hany; Hany; Hany; Hany; Hany];
   [Hany; Hany; Hany; Hany; Hany; Hclamp; Hany; Hany; Hany; Hany; Hany; Hany; Hany; Hany; Hany; Hany; Hclamp; Hany; Hany; Hany; Hany; Hany; Hany; Hany];
   [Hclamp; Hany; Hany; Hany; Hany; Hany; Hany; Hany; Hany; Hany; Hany; Hany; Hany; Hany; Hany; Hany; Hany; Hclamp; Hany; Hany; Hany; Hany; Hany; Hany];
   [Hany; Hclamp; Hany; Hany; Hany; Hany; Hany; Hany; Hany; Hany; Hany; Hany; Hany; Hany; Hany; Hany; Hany; Hany; Hclamp; Hany; Hany; Hany; Hany; Hany];
   [Hany; Hany; Hclamp; Hany; Hany; Hany; Hany; Hany; Hany; Hany; Hany; Hany; Hany; Hany; Hany; Hany; Hany; Hany; Hany; Hclamp; Hany; Hany; Hany; Hany];
   [Hany; Hclamp; Hany; Hany; Hany; Hany; Hany; Hany; Hany; Hany; Hany; Hany; Hany; Hany; Hany; Hany; Hany; Hany; Hany; Hany; Hclamp; Hany; Hany; Hany];
   [Hclamp; Hany; Hany; Hany; Hany; Hany; Hany; Hany; Hany; Hany; Hany; Hany; Hany; Hany; Hany; Hany; Hany; Hany; Hany; Hany; Hany; Hclamp; Hany; Hany];
   [Hclamp; Hany; Hany; Hany; Hany; Hany; Hany; Hany; Hany; Hany; Hany; Hany; Hany; Hany; Hany; Hany; Hany; Hany; Hany; Hany; Hany; Hany; Hclamp; Hany];
   [Hclamp; Hany; Hany; Hany; Hany; Hany; Hany; Hany; Hany; Hany; Hany; Hany; Hany; Hany; Hany; Hany; Hany; Hany; Hany; Hany; Hany; Hany; Hany; Hclamp]].
Definition flat_hint (n : nat) : list (list hint) := nth n [[]; []; flat_hint_2; flat_hint_3; flat_hint_4; flat_hint_5; flat_hint_6; flat_hint_7; flat_hint_8; flat_hint_9; flat_hint_10; flat_hint_11; flat_hint_12; flat_hint_13; flat_hint_14; flat_hint_15; flat_hint_16; flat_hint_17; flat_hint_18; flat_hint_19; flat_hint_20; flat_hint_21; flat_hint_22; flat_hint_23; flat_hint_24] [].
Definition inverse_SE3_2 : list (list Z) :=
  [[145; (-49)];
   [(-49); 145]].
Definition inverse_SE3_3 : list (list Z) :=
  [[155; (-52); (-27)];
   [(-52); 155; (-27)];
   [(-27); (-27); 142]].
Definition inverse_SE3_4 : list (list Z) :=
  [[154; (-23); (-33); (-29)];
   [(-23); 153; (-31); (-28)];
   [(-33); (-31); 162; (-38)];
   [(-29); (-28); (-38); 159]].
Definition inverse_SE3_5 : list (list Z) :=
  [[168; (-35); (-33); (-36); (-11)];
   [(-35); 168; (-34); (-34); (-11)];
   [(-33); (-34); 167; (-30); (-19)];
   [(-36); (-34); (-30); 168; (-15)];
   [(-11); (-11); (-19); (-15); 140]].
Definition inverse_SE3_6 : list (list Z) :=
  [[162; (-44); 4; (-28); (-36); 4];
   [(-44); 160; 4; (-34); (-25); 1];
   [4; 4; 160; (-41); (-30); (-34)];
   [(-28); (-34); (-41); 165; 18; (-30)];
   [(-36); (-25); (-30); 18; 162; (-36)];
   [4; 1; (-34); (-30); (-36); 157]].
Definition inverse_SE3_7 : list (list Z) :=
  [[166; (-3); (-2); (-53); (-40); (-33); 18];
   [(-3); 172; (-54); (-47); 9; (-40); 15];
   [(-2); (-54); 170; 22; (-7); (-16); (-55)];
   [(-53); (-47); 22; 175; 16; 12; (-61)];
   [(-40); 9; (-7); 16; 169; (-37); (-53)];
   [(-33); (-40); (-16); 12; (-37); 164; 6];
   [18; 15; (-55); (-61); (-53); 6; 181]].
Definition inverse_SE3_8 : list (list Z) :=
  [[181; 19; 12; 44; (-58); (-47); (-42); (-54)];
   [19; 210; (-102); 21; (-79); 35; 31; (-73)];
   [12; (-102); 214; 13; 36; (-81); (-72); 33];
   [44; 21; 13; 182; (-58); (-47); (-43); (-55)];
   [(-58); (-79); 36; (-58); 189; (-15); (-15); 48];
   [(-47); 35; (-81); (-47); (-15); 183; 41; (-15)];
   [(-42); 31; (-72); (-43); (-15); 41; 173; (-15)];
   [(-54); (-73); 33; (-55); 48; (-15); (-15); 182]].
Definition inverse_SE3_9 : list (list Z) :=
  [[173; (-26); (-33); 23; 26; (-27); (-25); (-25); (-42)];
   [(-26); 178; 33; (-2); (-43); (-1); (-55); 22; (-43)];
   [(-33); 33; 180; (-35); (-32); (-24); (-43); 35; (-36)];
   [23; (-2); (-35); 177; (-23); (-48); 22; (-42); (-23)];
   [26; (-43); (-32); (-23); 175; 17; (-35); (-21); (-19)];
   [(-27); (-1); (-24); (-48); 17; 170; (-20); (-32); 19];
   [(-25); (-55); (-43); 22; (-35); (-20); 188; (-33); 36];
   [(-25); 22; 35; (-42); (-21); (-32); (-33); 171; (-25)];
   [(-42); (-43); (-36); (-23); (-19); 19; 36; (-25); 176]].
Definition inverse_SE3_10 : list (list Z) :=
  [[229; 86; (-94); (-3); (-28); (-88); 88; (-28); (-33); (-88)];
   [86; 230; (-94); (-30); (-1); (-88); 89; (-29); (-34); (-88)];
   [(-94); (-94); 244; (-34); (-35); 95; (-97); (-1); (-45); 96];
   [(-3); (-30); (-34); 178; (-16); (-32); (-31); (-20); 31; (-3)];
   [(-28); (-1); (-35); (-16); 177; (-4); (-30); (-21); 30; (-33)];
   [(-88); (-88); 95; (-32); (-4); 239; (-94); (-36); (-50); 94];
   [88; 89; (-97); (-31); (-30); (-94); 238; 2; (-33); (-94)];
   [(-28); (-29); (-1); (-20); (-21); (-36); 2; 179; 30; (-36)];
   [(-33); (-34); (-45); 31; 30; (-50); (-33); 30; 200; (-51)];
   [(-88); (-88); 96; (-3); (-33); 94; (-94); (-36); (-51); 240]].
Definition inverse_SE3_11 : list (list Z) :=
  [[398; (-382); (-395); 249; (-411); 131; 109; 292; 212; (-338); 150];
   [(-382); 787; 661; (-379); 665; (-327); (-289); (-446); (-408); 546; (-356)];
   [(-395); 661; 810; (-377); 678; (-331); (-294); (-451); (-417); 556; (-366)];
   [249; (-379); (-377); 384; (-397); 127; 106; 284; 205; (-331); 145];
   [(-411); 665; 678; (-397); 823; (-325); (-279); (-462); (-418); 562; (-360)];
   [131; (-327); (-331); 127; (-325); 326; 166; 157; 175; (-283); 204];
   [109; (-289); (-294); 106; (-279); 166; 292; 131; 148; (-248); 180];
   [292; (-446); (-451); 284; (-462); 157; 131; 467; 248; (-386); 179];
   [212; (-408); (-417); 205; (-418); 175; 148; 248; 386; (-302); 193];
   [(-338); 546; 556; (-331); 562; (-283); (-248); (-386); (-302); 614; (-311)];
   [150; (-356); (-366); 145; (-360); 204; 180; 179; 193; (-311); 359]].
Definition inverse_SE3_12 : list (list Z) :=
  [[255; 34; 87; 85; 54; (-79); 32; (-112); (-47); 6; (-129); (-148)];
   [34; 223; 40; (-39); 75; (-42); 51; (-129); 59; (-112); (-16); (-107)];
   [87; 40; 241; 97; (-6); (-75); (-1); (-66); (-72); 56; (-135); (-123)];
   [85; (-39); 97; 297; (-77); (-69); (-57); 52; (-148); 144; (-159); (-82)];
   [54; 75; (-6); (-77); 252; (-41); 61; (-158); 85; (-143); 25; (-94)];
   [(-79); (-42); (-75); (-69); (-41); 192; 9; 43; 6; (-23); 47; 69];
   [32; 51; (-1); (-57); 61; 9; 211; (-120); 41; (-102); (-17); (-81)];
   [(-112); (-129); (-66); 52; (-158); 43; (-120); 327; (-103); 138; 33; 142];
   [(-47); 59; (-72); (-148); 85; 6; 41; (-103); 262; (-163); 106; 9];
   [6; (-112); 56; 144; (-143); (-23); (-102); 138; (-163); 324; (-119); 44];
   [(-129); (-16); (-135); (-159); 25; 47; (-17); 33; 106; (-119); 291; 110];
   [(-148); (-107); (-123); (-82); (-94); 69; (-81); 142; 9; 44; 110; 302]].
Definition inverse_SE3_13 : list (list Z) :=
  [[295; 96; (-95); 69; (-75); (-66); (-96); (-63); 96; (-110); 164; (-105); (-69)];
   [96; 295; (-9); (-133); (-109); (-109); (-2); (-103); 133; (-4); 101; (-17); (-107)];
   [(-95); (-9); 268; (-113); (-95); 99; 130; 99; (-20); (-10); (-102); (-16); (-102)];
   [69; (-133); (-113); 365; 63; 67; (-126); 60; (-101); (-132); 67; (-107); 65];
   [(-75); (-109); (-95); 63; 295; (-66); (-100); (-70); (-95); 99; (-68); 99; 164];
   [(-66); (-109); 99; 67; (-66); 306; 97; 166; (-102); (-105); (-78); (-96); (-75)];
   [(-96); (-2); 130; (-126); (-100); 97; 278; 97; (-16); (-7); (-104); (-12); (-105)];
   [(-63); (-103); 99; 60; (-70); 166; 97; 296; (-93); (-108); (-73); (-91); (-75)];
   [96; 133; (-20); (-101); (-95); (-102); (-16); (-93); 262; (-13); 101; (-21); (-93)];
   [(-110); (-4); (-10); (-132); 99; (-105); (-7); (-108); (-13); 292; (-105); 134; 100];
   [164; 101; (-102); 67; (-68); (-78); (-104); (-73); 101; (-105); 302; (-99); (-66)];
   [(-105); (-17); (-16); (-107); 99; (-96); (-12); (-91); (-21); 134; (-99); 266; 100];
   [(-69); (-107); (-102); 65; 164; (-75); (-105); (-75); (-93); 100; (-66); 100; 302]].
Definition inverse_SE3_14 : list (list Z) :=
  [[263; 47; (-26); 48; 45; (-23); (-23); (-89); (-22); (-98); 81; (-109); 50; (-115)];
   [47; 276; (-23); 47; 47; (-22); (-117); (-99); (-116); 83; (-99); (-22); 46; (-21)];
   [(-26); (-23); 269; (-94); 25; 0; 67; (-100); (-81); 68; 68; (-79); (-117); 68];
   [48; 47; (-94); 212; (-38); 25; (-93); (-22); 21; (-22); (-19); 21; 46; (-96)];
   [45; 47; 25; (-38); 215; (-98); 24; (-21); (-95); (-23); (-19); (-96); 45; 23];
   [(-23); (-22); 0; 25; (-98); 270; (-82); (-101); 66; 67; 68; 65; (-112); (-83)];
   [(-23); (-117); 67; (-93); 24; (-82); 268; 65; 1; (-95); 67; (-85); (-22); 65];
   [(-89); (-99); (-100); (-22); (-21); (-101); 65; 325; 66; (-102); (-107); 65; 88; 66];
   [(-22); (-116); (-81); 21; (-95); 66; 1; 66; 266; (-94); 64; 64; (-18); (-84)];
   [(-98); 83; 68; (-22); (-23); 67; (-95); (-102); (-94); 318; (-97); 68; (-102); 69];
   [81; (-99); 68; (-19); (-19); 68; 67; (-107); 64; (-97); 325; (-103); (-96); (-100)];
   [(-109); (-22); (-79); 21; (-96); 65; (-85); 65; 64; 68; (-103); 268; (-20); 4];
   [50; 46; (-117); 46; 45; (-112); (-22); 88; (-18); (-102); (-96); (-20); 270; (-26)];
   [(-115); (-21); 68; (-96); 23; (-83); 65; 66; (-84); 69; (-100); 4; (-26); 272]].
Definition inverse_SE3_15 : list (list Z) :=
  [[218; 27; 39; (-17); 3; (-54); (-84); 39; (-32); (-53); 40; (-17); 40; (-43); (-65)];
   [27; 247; (-62); 14; (-32); (-38); 13; 32; (-119); (-44); 28; 14; (-60); 72; (-62)];
   [39; (-62); 258; (-60); 39; 41; (-61); (-75); 42; (-72); 38; 49; (-43); (-57); (-41)];
   [(-17); 14; (-60); 215; (-14); (-79); 30; (-18); 34; (-15); (-81); 30; 48; 15; (-63)];
   [3; (-32); 39; (-14); 218; 38; (-79); (-53); (-40); 38; (-51); (-16); 37; 31; (-77)];
   [(-54); (-38); 41; (-79); 38; 219; (-17); (-49); (-39); 38; 7; (-16); (-75); 28; 38];
   [(-84); 13; (-61); 30; (-79); (-17); 220; (-17); 33; (-17); (-16); 32; (-65); 17; 48];
   [39; 32; (-75); (-18); (-53); (-49); (-17); 217; (-40); 5; 38; (-79); 38; (-35); 40];
   [(-32); (-119); 42; 34; (-40); (-39); 33; (-40); 259; (-33); (-37); 33; 41; (-105); 40];
   [(-53); (-44); (-72); (-15); 38; 38; (-17); 5; (-33); 217; (-53); (-77); 42; 25; 39];
   [40; 28; 38; (-81); (-51); 7; (-16); 38; (-37); (-53); 214; (-17); (-69); (-38); 39];
   [(-17); 14; 49; 30; (-16); (-16); 32; (-79); 33; (-77); (-17); 211; (-61); 12; (-59)];
   [40; (-60); (-43); 48; 37; (-75); (-65); 38; 41; 42; (-69); (-61); 255; (-56); (-37)];
   [(-43); 72; (-57); 15; 31; 28; 17; (-35); (-105); 25; (-38); 12; (-56); 230; (-59)];
   [(-65); (-62); (-41); (-63); (-77); 38; 48; 40; 40; 39; 39; (-59); (-37); (-59); 254]].
Definition inverse_SE3_16 : list (list Z) :=
  [[228; 36; 20; (-52); 33; (-71); (-51); (-68); (-49); 35; 36; 20; (-22); (-55); (-35); 33];
   [36; 231; (-48); (-47); (-73); (-67); (-60); 33; 21; 33; (-29); 21; (-25); (-58); 36; 32];
   [20; (-48); 233; 10; 41; (-52); 27; (-37); 64; (-72); 22; 11; 11; (-91); (-52); (-50)];
   [(-52); (-47); 10; 244; (-52); 41; (-96); (-53); 13; (-78); 20; 67; 11; 28; 17; (-42)];
   [33; (-73); 41; (-52); 239; 37; 40; 0; (-44); (-52); 32; (-48); (-63); (-25); (-65); 38];
   [(-71); (-67); (-52); 41; 37; 235; (-28); 36; (-53); (-43); 33; (-39); (-63); 42; 35; (-2)];
   [(-51); (-60); 27; (-96); 40; (-28); 269; 40; 27; 33; (-61); (-94); 43; 24; (-52); (-25)];
   [(-68); 33; (-37); (-53); 0; 36; 40; 239; 43; (-50); (-65); (-54); (-67); (-31); 35; 37];
   [(-49); 21; 64; 13; (-44); (-53); 27; 43; 245; (-75); (-47); 10; 13; (-97); 17; (-55)];
   [35; 33; (-72); (-78); (-52); (-43); 33; (-50); (-75); 273; 34; (-75); 51; 34; 37; (-50)];
   [36; (-29); 22; 20; 32; 33; (-61); (-65); (-47); 34; 234; (-46); (-26); (-65); 36; (-72)];
   [20; 21; 11; 67; (-48); (-39); (-94); (-54); 10; (-75); (-46); 237; 9; 26; (-52); 41];
   [(-22); (-25); 11; 11; (-63); (-63); 43; (-67); 13; 51; (-26); 9; 214; 42; (-27); (-63)];
   [(-55); (-58); (-91); 28; (-25); 42; 24; (-31); (-97); 34; (-65); 26; 42; 269; (-47); 41];
   [(-35); 36; (-52); 17; (-65); 35; (-52); 35; 17; 37; 36; (-52); (-27); (-47); 220; (-62)];
   [33; 32; (-50); (-42); 38; (-2); (-25); 37; (-55); (-50); (-72); 41; (-63); 41; (-62); 237]].
Definition inverse_SE3_17 : list (list Z) :=
  [[238; (-67); 35; 15; 16; (-65); 48; 20; (-76); (-1); 11; (-29); 48; (-1); (-66); (-61); (-27)];
   [(-67); 240; (-51); (-42); (-24); (-74); (-38); (-44); 33; 11; 3; (-74); 44; 50; 47; 22; (-2)];
   [35; (-51); 259; (-44); (-57); (-60); (-50); 46; 34; 36; (-49); 32; (-47); 33; (-65); (-51); 33];
   [15; (-42); (-44); 242; (-72); 45; (-43); (-51); (-82); 47; 46; (-5); 17; (-62); (-19); 6; 37];
   [16; (-24); (-57); (-72); 258; 31; 44; 37; 36; (-71); (-81); (-27); 44; (-72); 27; (-23); (-31)];
   [(-65); (-74); (-60); 45; 31; 265; (-24); 38; (-26); 15; (-20); 35; (-83); (-80); 23; 46; (-34)];
   [48; (-38); (-50); (-43); 44; (-24); 249; (-50); (-3); (-59); 20; 32; 10; 14; (-80); 47; (-84)];
   [20; (-44); 46; (-51); 37; 38; (-50); 234; (-39); 19; (-46); (-41); (-53); 24; 38; (-48); (-49)];
   [(-76); 33; 34; (-82); 36; (-26); (-3); (-39); 240; (-31); (-85); 38; (-7); (-29); (-30); 33; 34];
   [(-1); 11; 36; 47; (-71); 15; (-59); 19; (-31); 245; (-62); (-75); 15; 0; (-74); 49; (-30)];
   [11; 3; (-49); 46; (-81); (-20); 20; (-46); (-85); (-62); 249; 35; (-47); 49; 46; (-36); (-2)];
   [(-29); (-74); 32; (-5); (-27); 35; 32; (-41); 38; (-75); 35; 236; (-85); (-32); (-33); (-3); 34];
   [48; 44; (-47); 17; 44; (-83); 10; (-53); (-7); 15; (-47); (-85); 253; (-56); (-17); (-41); 36];
   [(-1); 50; 33; (-62); (-72); (-80); 14; 24; (-29); 0; 49; (-32); (-56); 245; 14; 12; (-73)];
   [(-66); 47; (-65); (-19); 27; 23; (-80); 38; (-30); (-74); 46; (-33); (-17); 14; 263; (-78); 36];
   [(-61); 22; (-51); 6; (-23); 46; 47; (-48); 33; 49; (-36); (-3); (-41); 12; (-78); 245; (-83)];
   [(-27); (-2); 33; 37; (-31); (-34); (-84); (-49); 34; (-30); (-2); 34; 36; (-73); 36; (-83); 242]].
Definition inverse_SE3_18 : list (list Z) :=
  [[274; (-82); 42; (-24); (-20); (-68); (-62); (-16); (-66); (-16); 44; 43; 20; 16; 42; 48; (-63); (-81)];
   [(-82); 275; (-65); (-21); (-24); 44; 50; 17; 42; 18; (-67); 43; (-16); (-16); 42; (-64); (-67); (-79)];
   [42; (-65); 265; (-58); 44; 13; (-75); (-65); (-22); 50; (-80); 23; 42; (-69); (-17); (-21); (-16); 42];
   [(-24); (-21); (-58); 274; 21; (-62); 40; (-16); 43; (-83); 44; 49; (-17); (-82); (-65); 42; (-69); 16];
   [(-20); (-24); 44; 21; 276; 45; 42; (-82); (-64); (-18); (-68); (-62); (-81); (-13); 50; 40; (-69); 13];
   [(-68); 44; 13; (-62); 45; 272; (-18); 44; (-82); (-66); (-18); 16; (-69); 51; (-16); (-78); (-17); 43];
   [(-62); 50; (-75); 40; 42; (-18); 264; (-55); (-15); (-65); (-81); (-19); 42; 42; (-20); 22; 14; (-73)];
   [(-16); 17; (-65); (-16); (-82); 44; (-55); 269; (-70); 14; 49; 40; (-80); (-20); (-67); 43; 44; (-18)];
   [(-66); 42; (-22); 43; (-64); (-82); (-15); (-70); 266; 42; 18; (-22); 50; (-60); 20; (-72); (-17); 42];
   [(-16); 18; 50; (-83); (-18); (-66); (-65); 14; 42; 276; (-66); (-63); (-24); (-84); 41; 44; 44; (-14)];
   [44; (-67); (-80); 44; (-68); (-18); (-81); 49; 18; (-66); 275; (-18); (-66); 43; 17; (-17); (-19); 44];
   [43; 43; 23; 49; (-62); 16; (-19); 40; (-22); (-63); (-18); 263; 41; (-70); (-70); (-21); (-81); (-59)];
   [20; (-16); 42; (-17); (-81); (-69); 42; (-80); 50; (-24); (-66); 41; 274; 15; (-64); (-63); 44; (-16)];
   [16; (-16); (-69); (-82); (-13); 51; 42; (-20); (-60); (-84); 43; (-70); 15; 273; 42; (-62); 42; (-16)];
   [42; 42; (-17); (-65); 50; (-16); (-20); (-67); 20; 41; 17; (-70); (-64); 42; 262; (-18); (-83); (-61)];
   [48; (-64); (-21); 42; 40; (-78); 22; 43; (-72); 44; (-17); (-21); (-63); (-62); (-18); 264; 18; (-70)];
   [(-63); (-67); (-16); (-69); (-69); (-17); 14; 44; (-17); 44; (-19); (-81); 44; 42; (-83); 18; 276; 51];
   [(-81); (-79); 42; 16; 13; 43; (-73); (-18); 42; (-14); 44; (-59); (-16); (-16); (-61); (-70); 51; 269]].
Definition inverse_SE3_19 : list (list Z) :=
  [[258; 29; (-55); (-13); 24; 30; (-14); (-51); 28; (-46); 26; 28; (-60); (-60); (-54); (-45); 29; (-50); 22];
   [29; 228; 11; (-45); 17; (-24); (-57); (-42); (-9); 30; (-7); (-22); 8; 24; (-68); 31; 35; (-47); (-58)];
   [(-55); 11; 227; (-47); (-56); 24; 30; 30; (-11); 30; (-8); (-68); 35; (-21); (-25); (-42); 9; (-43); 19];
   [(-13); (-45); (-47); 231; 36; (-47); (-13); 29; 7; 29; 6; (-45); (-46); (-47); (-45); 29; (-48); 28; 36];
   [24; 17; (-56); 36; 263; (-60); 23; (-5); (-74); (-7); (-88); (-60); (-63); 16; 17; (-5); 18; (-6); 41];
   [30; (-24); 24; (-47); (-60); 230; (-53); 29; (-6); 30; (-8); 35; (-70); 9; 11; (-45); (-27); (-40); 17];
   [(-14); (-57); 30; (-13); 23; (-53); 258; (-47); 28; (-48); 26; (-63); 28; 30; 28; (-48); (-59); (-46); 22];
   [(-51); (-42); 30; 29; (-5); 29; (-47); 232; 25; (-24); (-68); (-43); (-41); (-45); 30; 23; 31; (-25); (-5)];
   [28; (-9); (-11); 7; (-74); (-6); 28; 25; 233; (-66); 53; (-10); (-8); (-8); (-6); 25; (-10); (-67); (-84)];
   [(-46); 30; 30; 29; (-7); 30; (-48); (-24); (-66); 231; 26; (-43); (-45); 31; (-43); (-26); (-42); 23; (-6)];
   [26; (-7); (-8); 6; (-88); (-8); 26; (-68); 53; 26; 245; (-8); (-5); (-9); (-8); (-63); (-7); 25; (-91)];
   [28; (-22); (-68); (-45); (-60); 35; (-63); (-43); (-10); (-43); (-8); 233; 25; 10; 9; 31; (-24); 31; 17];
   [(-60); 8; 35; (-46); (-63); (-70); 28; (-41); (-8); (-45); (-5); 25; 236; (-25); (-26); 31; 11; 31; 18];
   [(-60); 24; (-21); (-47); 16; 9; 30; (-45); (-8); 31; (-9); 10; (-25); 235; 35; 29; (-71); (-39); (-61)];
   [(-54); (-68); (-25); (-45); 17; 11; 28; 30; (-6); (-43); (-8); 9; (-26); 35; 228; (-45); 25; 31; (-59)];
   [(-45); 31; (-42); 29; (-5); (-45); (-48); 23; 25; (-26); (-63); 31; 31; 29; (-45); 228; (-41); (-26); (-6)];
   [29; 35; 9; (-48); 18; (-27); (-59); 31; (-10); (-42); (-7); (-24); 11; (-71); 25; (-41); 235; 29; (-61)];
   [(-50); (-47); (-43); 28; (-6); (-40); (-46); (-25); (-67); 23; 25; 31; 31; (-39); 31; (-26); 29; 229; (-4)];
   [22; (-58); 19; 36; 41; 17; 22; (-5); (-84); (-6); (-91); 17; 18; (-61); (-59); (-6); (-61); (-4); 271]].
Definition inverse_SE3_20 : list (list Z) :=
  [[238; (-37); (-39); 31; 42; (-38); 30; 43; (-39); (-35); 44; (-40); (-42); (-38); (-36); 30; (-38); (-37); (-42); 42];
   [(-37); 276; 0; 42; (-66); 6; (-41); (-62); 2; (-64); 33; 34; (-64); 33; (-60); (-38); 33; 35; (-65); 34];
   [(-39); 0; 274; 42; 36; 2; (-40); 33; 5; (-58); (-65); (-65); 34; 32; (-67); (-37); (-64); 33; 33; (-58)];
   [31; 42; 42; 239; (-39); 43; 30; (-40); 43; (-41); (-41); (-34); (-34); (-38); (-43); 30; (-38); (-41); (-36); (-38)];
   [42; (-66); 36; (-39); 279; 31; (-39); 3; (-64); 34; 4; (-69); 34; 33; (-64); (-37); 33; (-64); (-58); 1];
   [(-38); 6; 2; 43; 31; 285; (-44); 32; 2; 34; (-63); 33; (-65); (-65); 33; (-36); 32; (-71); (-60); (-63)];
   [30; (-41); (-40); 30; (-39); (-44); 235; (-34); (-42); (-38); (-36); 42; 43; (-38); (-36); 31; 43; (-37); 44; (-36)];
   [43; (-62); 33; (-40); 3; 32; (-34); 284; (-64); (-66); 2; 33; (-61); (-64); 32; (-41); (-73); 31; 33; 5];
   [(-39); 2; 5; 43; (-64); 2; (-42); (-64); 283; 33; 32; (-65); 32; (-69); 33; (-34); (-66); (-60); 32; 33];
   [(-35); (-64); (-58); (-41); 34; 34; (-38); (-66); 33; 276; 31; (-64); (-67); 0; 5; 43; 33; 3; 35; (-65)];
   [44; 33; (-65); (-41); 4; (-63); (-36); 2; 32; 31; 286; 34; (-66); 32; (-65); (-43); (-64); (-65); 34; 2];
   [(-40); 34; (-65); (-34); (-69); 33; 42; 33; (-65); (-64); 34; 280; 4; 33; 34; (-38); 0; (-66); 5; (-63)];
   [(-42); (-64); 34; (-34); 34; (-65); 43; (-61); 32; (-67); (-66); 4; 288; 33; 33; (-40); 5; (-70); (-1); 33];
   [(-38); 33; 32; (-38); 33; (-65); (-38); (-64); (-69); 0; 32; 33; 33; 289; 4; 44; (-67); 5; (-69); (-65)];
   [(-36); (-60); (-67); (-43); (-64); 33; (-36); 32; 33; 5; (-65); 34; 33; 4; 283; 43; (-65); 1; (-68); 33];
   [30; (-38); (-37); 30; (-37); (-36); 31; (-41); (-34); 43; (-43); (-38); (-40); 44; 43; 235; (-38); 43; (-38); (-41)];
   [(-38); 33; (-64); (-38); 33; 32; 43; (-73); (-66); 33; (-64); 0; 5; (-67); (-65); (-38); 290; 33; 4; 33];
   [(-37); 35; 33; (-41); (-64); (-71); (-37); 31; (-60); 3; (-65); (-66); (-70); 5; 1; 43; 33; 288; 32; 34];
   [(-42); (-65); 33; (-36); (-58); (-60); 44; 33; 32; 35; 34; 5; (-1); (-69); (-68); (-38); 4; 32; 282; (-69)];
   [42; 34; (-58); (-38); 1; (-63); (-36); 5; 33; (-65); 2; (-63); 33; (-65); 33; (-41); 33; 34; (-69); 276]].
Definition inverse_SE3_21 : list (list Z) :=
  [[255; 36; 35; 34; 34; 26; (-47); (-60); 35; 26; (-18); 33; (-19); (-47); (-45); (-22); (-48); (-58); (-45); (-49); (-19)];
   [36; 258; (-48); (-48); (-48); 25; (-55); (-52); (-48); 25; (-22); 33; (-22); 35; 35; (-16); 34; (-56); (-48); 35; (-18)];
   [35; (-48); 271; (-36); 21; 24; (-67); 22; 16; (-60); 36; (-58); 34; (-40); (-33); (-43); 20; (-62); 24; 22; (-50)];
   [34; (-48); (-36); 276; 19; (-68); (-64); 24; 21; 23; (-46); (-61); (-49); 18; 21; 35; (-40); (-61); 24; (-31); 35];
   [34; (-48); 21; 19; 275; 23; 24; (-65); (-31); (-64); (-51); (-62); (-48); (-39); (-31); 35; 19; 24; (-65); 23; 34];
   [26; 25; 24; (-68); 23; 289; 27; 26; (-64); (-54); (-51); 8; (-53); 24; 23; (-54); (-64); 28; 26; (-67); (-50)];
   [(-47); (-55); (-67); (-64); 24; 27; 286; (-56); 22; 26; (-49); 8; 25; 24; (-66); (-48); 24; 28; 26; (-69); 26];
   [(-60); (-52); 22; 24; (-65); 26; (-56); 287; (-65); 28; (-54); 11; 25; (-61); 23; (-51); (-60); 28; 27; 22; 24];
   [35; (-48); 16; 21; (-31); (-64); 22; (-65); 270; 23; 35; (-59); 35; 21; 24; (-51); (-34); 22; (-69); (-27); (-48)];
   [26; 25; (-60); 23; (-64); (-54); 26; 28; 23; 290; (-55); 11; (-51); (-64); (-67); (-54); 24; 27; 27; 23; (-57)];
   [(-18); (-22); 36; (-46); (-51); (-51); (-49); (-54); 35; (-55); 259; 33; (-21); (-43); 34; 35; 35; 24; 26; (-51); (-19)];
   [33; 33; (-58); (-61); (-62); 8; 8; 11; (-59); 11; 33; 267; 33; (-61); (-62); 33; (-62); 13; 5; (-59); 33];
   [(-19); (-22); 34; (-49); (-48); (-53); 25; 25; 35; (-51); (-21); 33; 258; 35; (-47); (-20); (-44); (-57); (-50); 35; 36];
   [(-47); 35; (-40); 18; (-39); 24; 24; (-61); 21; (-64); (-43); (-61); 35; 273; 21; 36; (-39); (-59); 24; 18; (-47)];
   [(-45); 35; (-33); 21; (-31); 23; (-66); 23; 24; (-67); 34; (-62); (-47); 21; 272; (-53); 19; 22; (-68); (-28); 34];
   [(-22); (-16); (-43); 35; 35; (-54); (-48); (-51); (-51); (-54); 35; 33; (-20); 36; (-53); 256; (-47); 24; 26; 35; (-18)];
   [(-48); 34; 20; (-40); 19; (-64); 24; (-60); (-34); 24; 35; (-62); (-44); (-39); 19; (-47); 273; (-62); 24; 21; 35];
   [(-58); (-56); (-62); (-61); 24; 28; 28; 28; 22; 27; 24; 13; (-57); (-59); 22; 24; (-62); 287; (-57); 22; (-56)];
   [(-45); (-48); 24; 24; (-65); 26; 26; 27; (-69); 27; 26; 5; (-50); 24; (-68); 26; 24; (-57); 283; (-69); (-45)];
   [(-49); 35; 22; (-31); 23; (-67); (-69); 22; (-27); 23; (-51); (-59); 35; 18; (-28); 35; 21; 22; (-69); 272; (-51)];
   [(-19); (-18); (-50); 35; 34; (-50); 26; 24; (-48); (-57); (-19); 33; 36; (-47); 34; (-18); 35; (-56); (-45); (-51); 256]].
Definition inverse_SE3_22 : list (list Z) :=
  [[235; 23; 18; (-39); (-6); (-44); (-16); (-49); (-66); 23; 23; (-55); (-17); 20; (-34); 23; 23; (-27); (-40); (-3); 22; 21];
   [23; 254; (-82); (-39); 4; 14; 24; (-45); 16; (-51); 15; (-57); (-7); (-69); 19; (-7); 27; (-29); 18; 23; 19; (-38)];
   [18; (-82); 263; 11; (-82); (-59); 20; (-19); 23; (-14); (-60); 25; 18; 23; 9; 18; (-58); (-59); (-3); 18; 11; 9];
   [(-39); (-39); 11; 246; 18; (-53); (-40); 18; (-8); (-49); 17; 19; 21; (-46); (-51); (-35); 18; (-63); 22; 20; 19; 21];
   [(-6); 4; (-82); 18; 254; 14; 24; (-47); (-69); (-51); 15; (-57); 23; 16; (-37); 23; (-28); 27; 18; (-7); (-38); 19];
   [(-44); 14; (-59); (-53); 14; 241; (-42); 14; 19; (-30); 23; 19; (-43); 19; 18; 23; (-19); (-18); (-55); 23; (-52); 18];
   [(-16); 24; 20; (-40); 24; (-42); 227; (-44); 21; (-47); (-45); 22; (-16); 21; (-36); (-15); 24; 24; 22; (-15); (-41); (-36)];
   [(-49); (-45); (-19); 18; (-47); 14; (-44); 240; 20; 21; (-28); (-34); (-49); 20; (-51); 23; 16; 16; 18; 23; 19; (-51)];
   [(-66); 16; 23; (-8); (-69); 19; 21; 20; 267; 20; 19; 14; 20; (-83); (-47); 20; (-2); (-51); 15; (-67); (-46); (-9)];
   [23; (-51); (-14); (-49); (-51); (-30); (-47); 21; 20; 244; 14; (-33); 23; 20; 19; (-50); 15; 15; 17; (-49); (-49); 19];
   [23; 15; (-60); 17; 15; 23; (-45); (-28); 19; 14; 244; 20; 23; 19; (-53); (-47); (-15); (-15); (-57); (-46); 17; (-54)];
   [(-55); (-57); 25; 19; (-57); 19; 22; (-34); 14; (-33); 20; 254; (-55); 14; 18; (-55); 15; 15; (-42); (-56); 19; 18];
   [(-17); (-7); 18; 21; 23; (-43); (-16); (-49); 20; 23; 23; (-55); 235; (-66); 21; (-3); (-28); 23; (-39); 23; (-39); (-35)];
   [20; (-69); 23; (-46); 16; 19; 21; 20; (-83); 20; 19; 14; (-66); 267; (-10); (-66); (-51); (-2); 15; 20; (-9); (-46)];
   [(-34); 19; 9; (-51); (-37); 18; (-36); (-51); (-47); 19; (-53); 18; 21; (-10); 243; (-38); (-62); 18; 22; 22; 21; 19];
   [23; (-7); 18; (-35); 23; 23; (-15); 23; 20; (-50); (-47); (-55); (-3); (-66); (-38); 237; (-26); 23; (-39); (-15); 20; 22];
   [23; 27; (-58); 18; (-28); (-19); 24; 16; (-2); 15; (-15); 15; (-28); (-51); (-62); (-26); 246; 18; (-60); 23; (-62); 18];
   [(-27); (-29); (-59); (-63); 27; (-18); 24; 16; (-51); 15; (-15); 15; 23; (-2); 18; 23; 18; 247; (-59); (-26); 18; (-63)];
   [(-40); 18; (-3); 22; 18; (-55); 22; 18; 15; 17; (-57); (-42); (-39); 15; 22; (-39); (-60); (-59); 252; (-40); 22; 22];
   [(-3); 23; 18; 20; (-7); 23; (-15); 23; (-67); (-49); (-46); (-56); 23; 20; 22; (-15); 23; (-26); (-40); 237; (-35); (-37)];
   [22; 19; 11; 19; (-38); (-52); (-41); 19; (-46); (-49); 17; 19; (-39); (-9); 21; 20; (-62); 18; 22; (-35); 245; (-51)];
   [21; (-38); 9; 21; 19; 18; (-36); (-51); (-9); 19; (-54); 18; (-35); (-46); 19; 22; 18; (-63); 22; (-37); (-51); 244]].
Definition inverse_SE3_23 : list (list Z) :=
  [[253; (-71); 5; (-8); 10; (-70); 22; 2; 17; 26; 36; (-53); (-81); 23; 2; (-84); 17; 25; (-83); (-11); 36; 30; (-11)];
   [(-71); 236; (-18); 19; 4; 3; (-68); 3; 3; (-72); (-70); (-23); 21; (-2); 15; 22; (-66); 1; 34; 24; 1; 1; 34];
   [5; (-18); 216; 29; (-30); (-18); 8; (-18); 5; (-61); (-60); (-8); 29; 8; (-18); 19; 5; (-60); 19; 20; (-59); 4; 20];
   [(-8); 19; 29; 257; 1; 19; (-76); 19; (-75); (-11); (-77); 27; 39; (-81); 18; 28; (-79); (-9); 27; 29; (-85); (-9); 31];
   [10; 4; (-30); 1; 228; 4; 34; 4; 8; 15; 12; (-26); (-1); 34; 4; (-77); 9; 12; (-74); (-78); 12; 13; (-81)];
   [(-70); 3; (-18); 19; 4; 236; (-1); 16; (-66); (-72); 1; (-22); 21; (-69); 2; 34; 3; 1; 22; 34; (-70); 2; 24];
   [22; (-68); 8; (-76); 34; (-1); 250; (-2); 20; 24; 20; 10; (-84); 37; (-68); (-80); 21; 22; (-10); (-82); 23; 22; (-12)];
   [2; 3; (-18); 19; 4; 16; (-2); 236; 3; 0; (-68); (-23); 21; (-69); 4; 34; (-68); (-70); 21; 34; 1; (-71); 23];
   [17; 3; 5; (-75); 8; (-66); 20; 3; 246; 36; 22; (-56); (-8); 22; (-67); (-10); 29; 36; (-81); (-81); 25; 17; (-11)];
   [26; (-72); (-61); (-11); 15; (-72); 24; 0; 36; 263; 21; 5; (-84); 25; 0; (-13); 36; 32; (-13); (-89); 22; 30; (-92)];
   [36; (-70); (-60); (-77); 12; 1; 20; (-68); 22; 21; 250; 6; (-10); 22; 1; (-11); 23; 20; (-81); (-84); 32; 36; (-12)];
   [(-53); (-23); (-8); 27; (-26); (-22); 10; (-23); (-56); 5; 6; 215; 27; 10; (-22); 18; (-56); 6; 18; 18; 5; (-56); 18];
   [(-81); 21; 29; 39; (-1); 21; (-84); 21; (-8); (-84); (-10); 27; 265; (-85); 21; 30; (-9); (-80); 29; 31; (-11); (-83); 31];
   [23; (-2); 8; (-81); 34; (-69); 37; (-69); 22; 25; 22; 10; (-85); 253; (-1); (-10); 20; 23; (-81); (-12); 22; 23; (-82)];
   [2; 15; (-18); 18; 4; 2; (-68); 4; (-67); 0; 1; (-22); 21; (-1); 235; 22; 3; (-71); 34; 23; (-69); (-69); 34];
   [(-84); 22; 19; 28; (-77); 34; (-80); 34; (-10); (-13); (-11); 18; 30; (-10); 22; 265; (-81); (-85); 30; 42; (-83); (-11); 32];
   [17; (-66); 5; (-79); 9; 3; 21; (-68); 29; 36; 23; (-56); (-9); 20; 3; (-81); 247; 36; (-9); (-10); 23; 18; (-79)];
   [25; 1; (-60); (-9); 12; 1; 22; (-70); 36; 32; 20; 6; (-80); 23; (-71); (-85); 36; 255; (-85); (-12); 21; 25; (-12)];
   [(-83); 34; 19; 27; (-74); 22; (-10); 21; (-81); (-13); (-81); 18; 29; (-81); 34; 30; (-9); (-85); 263; 31; (-11); (-11); 42];
   [(-11); 24; 20; 29; (-78); 34; (-82); 34; (-81); (-89); (-84); 18; 31; (-12); 23; 42; (-10); (-12); 31; 268; (-12); (-84); 32];
   [36; 1; (-59); (-85); 12; (-70); 23; 1; 25; 22; 32; 5; (-11); 22; (-69); (-83); 23; 21; (-11); (-12); 254; 36; (-83)];
   [30; 1; 4; (-9); 13; 2; 22; (-71); 17; 30; 36; (-56); (-83); 23; (-69); (-11); 18; 25; (-11); (-84); 36; 256; (-87)];
   [(-11); 34; 20; 31; (-81); 24; (-12); 23; (-11); (-92); (-12); 18; 31; (-82); 34; 32; (-79); (-12); 42; 32; (-83); (-87); 270]].
Definition inverse_SE3_24 : list (list Z) :=
  [[269; 33; (-19); (-22); (-100); 44; (-20); (-92); (-86); 33; 44; (-89); 35; (-18); 40; 35; (-18); (-89); (-19); 34; 46; 37; (-88); 39];
   [33; 258; (-17); (-19); (-20); 31; (-86); (-18); (-85); 43; 32; (-84); 32; (-86); 45; 32; (-16); (-19); (-82); 33; 34; 44; (-87); 33];
   [(-19); (-17); 259; 35; 37; (-83); 44; 44; 28; (-83); (-16); 44; (-86); 32; (-88); (-18); 31; 35; 31; (-86); (-90); (-18); 34; (-18)];
   [(-22); (-19); 35; 268; 46; (-18); 35; 37; 44; (-18); (-87); 36; (-20); 44; (-91); (-89); 34; 38; 35; (-89); (-97); (-88); 35; (-21)];
   [(-100); (-20); 37; 46; 271; (-87); 37; 36; 44; (-19); (-19); 36; (-90); 45; (-91); (-21); 36; 37; 36; (-20); (-22); (-88); 38; (-91)];
   [44; 31; (-83); (-18); (-87); 253; (-84); (-17); (-75); 31; 43; (-16); 30; (-15); 32; 31; (-83); (-18); (-86); 32; 44; 31; (-17); 31];
   [(-20); (-86); 44; 35; 37; (-84); 263; 45; 32; (-17); (-17); 44; (-18); 33; (-20); (-86); 32; 36; 33; (-18); (-91); (-91); 34; (-88)];
   [(-92); (-18); 44; 37; 36; (-17); 45; 265; 32; (-85); (-85); 44; (-19); 33; (-93); (-87); 33; 36; 34; (-18); (-21); (-20); 35; (-90)];
   [(-86); (-85); 28; 44; 44; (-75); 32; 32; 252; (-82); (-14); 31; (-16); 43; (-18); (-85); 29; 33; 28; (-84); (-18); (-17); 33; (-17)];
   [33; 43; (-83); (-18); (-19); 31; (-17); (-85); (-82); 255; 29; (-16); 32; (-86); 44; 31; (-81); (-87); (-16); 31; 33; 44; (-17); 32];
   [44; 32; (-16); (-87); (-19); 43; (-17); (-85); (-14); 29; 254; (-83); 32; (-77); 32; 30; (-83); (-18); (-87); 30; 44; 32; (-18); 33];
   [(-89); (-84); 44; 36; 36; (-16); 44; 44; 31; (-16); (-83); 259; (-87); 29; (-19); (-18); 30; 35; 31; (-87); (-19); (-87); 35; (-18)];
   [35; 32; (-86); (-20); (-90); 30; (-18); (-19); (-16); 32; 32; (-87); 259; (-82); 35; 44; (-84); (-19); (-17); 44; 35; 34; (-88); 44];
   [(-18); (-86); 32; 44; 45; (-15); 33; 33; 43; (-86); (-77); 29; (-82); 255; (-18); (-17); 28; 35; 30; (-16); (-87); (-17); 33; (-86)];
   [40; 45; (-88); (-91); (-91); 32; (-20); (-93); (-18); 44; 32; (-19); 35; (-18); 268; 36; (-18); (-21); (-87); 34; 39; 46; (-93); 37];
   [35; 32; (-18); (-89); (-21); 31; (-86); (-87); (-85); 31; 30; (-18); 44; (-17); 36; 261; (-85); (-20); (-17); 44; 38; 35; (-90); 45];
   [(-18); (-16); 31; 34; 36; (-83); 32; 33; 29; (-81); (-83); 30; (-84); 28; (-18); (-85); 255; 44; 43; (-17); (-19); (-87); 44; (-18)];
   [(-89); (-19); 35; 38; 37; (-18); 36; 36; 33; (-87); (-18); 35; (-19); 35; (-21); (-20); 44; 268; 45; (-89); (-92); (-93); 45; (-92)];
   [(-19); (-82); 31; 35; 36; (-86); 33; 34; 28; (-16); (-87); 31; (-17); 30; (-87); (-17); 43; 45; 257; (-83); (-19); (-18); 44; (-86)];
   [34; 33; (-86); (-89); (-20); 32; (-18); (-18); (-84); 31; 30; (-87); 44; (-16); 34; 44; (-17); (-89); (-83); 260; 36; 33; (-19); 44];
   [46; 34; (-90); (-97); (-22); 44; (-91); (-21); (-18); 33; 44; (-19); 35; (-87); 39; 38; (-19); (-92); (-19); 36; 271; 38; (-90); 37];
   [37; 44; (-18); (-88); (-88); 31; (-91); (-20); (-17); 44; 32; (-87); 34; (-17); 46; 35; (-87); (-93); (-18); 33; 38; 265; (-20); 36];
   [(-88); (-87); 34; 35; 38; (-17); 34; 35; 33; (-17); (-18); 35; (-88); 33; (-93); (-90); 44; 45; 44; (-19); (-90); (-20); 265; (-20)];
   [39; 33; (-18); (-21); (-91); 31; (-88); (-90); (-17); 32; 33; (-18); 44; (-86); 37; 45; (-18); (-92); (-86); 44; 37; 36; (-20); 265]].
Definition inverse_SE3 (n : nat) : list (list Z) := nth n [[]; []; inverse_SE3_2; inverse_SE3_3; inverse_SE3_4; inverse_SE3_5; inverse_SE3_6; inverse_SE3_7; inverse_SE3_8; inverse_SE3_9; inverse_SE3_10; inverse_SE3_11; inverse_SE3_12; inverse_SE3_13; inverse_SE3_14; inverse_SE3_15; inverse_SE3_16; inverse_SE3_17; inverse_SE3_18; inverse_SE3_19; inverse_SE3_20; inverse_SE3_21; inverse_SE3_22; inverse_SE3_23; inverse_SE3_24] [].
Definition inverse_E3_2 : list (list Z) :=
  [[145; (-49)];
   [(-49); 145]].
Definition inverse_E3_3 : list (list Z) :=
  [[155; (-52); (-28)];
   [(-52); 155; (-28)];
   [(-28); (-28); 143]].
Definition inverse_E3_4 : list (list Z) :=
  [[160; (-26); (-36); (-32)];
   [(-26); 158; (-34); (-30)];
   [(-36); (-34); 168; (-41)];
   [(-32); (-30); (-41); 165]].
Definition inverse_E3_5 : list (list Z) :=
  [[156; (-29); (-28); (-31); (-9)];
   [(-29); 156; (-29); (-29); (-9)];
   [(-28); (-29); 155; (-25); (-15)];
   [(-31); (-29); (-25); 156; (-12)];
   [(-9); (-9); (-15); (-12); 135]].
Definition inverse_E3_6 : list (list Z) :=
  [[128; (-5); 0; (-2); (-2); 0];
   [(-5); 128; 0; (-2); (-1); 0];
   [0; 0; 128; (-3); (-2); (-3)];
   [(-2); (-2); (-3); 128; 0; (-2)];
   [(-2); (-1); (-2); 0; 128; (-2)];
   [0; 0; (-3); (-2); (-2); 128]].
Definition inverse_E3_7 : list (list Z) :=
  [[128; 0; 0; 0; 0; 0; 0];
   [0; 128; 0; 0; 0; 0; 0];
   [0; 0; 128; 0; 0; 0; 0];
   [0; 0; 0; 128; 0; 0; 0];
   [0; 0; 0; 0; 128; 0; 0];
   [0; 0; 0; 0; 0; 128; 0];
   [0; 0; 0; 0; 0; 0; 128]].
Definition inverse_E3_8 : list (list Z) :=
  [[379; 0; 0; 0; 0; 0; 0; 0];
   [0; 379; 0; 0; 0; 0; 0; 0];
   [0; 0; 379; 0; 0; 0; 0; 0];
   [0; 0; 0; 379; 0; 0; 0; 0];
   [0; 0; 0; 0; 379; 0; 0; 0];
   [0; 0; 0; 0; 0; 379; 0; 0];
   [0; 0; 0; 0; 0; 0; 379; 0];
   [0; 0; 0; 0; 0; 0; 0; 379]].
Definition inverse_E3_9 : list (list Z) :=
  [[128; 0; 0; 0; 0; 0; 0; 0; 0];
   [0; 128; 0; 0; 0; 0; 0; 0; 0];
   [0; 0; 128; 0; 0; 0; 0; 0; 0];
   [0; 0; 0; 128; 0; 0; 0; 0; 0];
   [0; 0; 0; 0; 128; 0; 0; 0; 0];
   [0; 0; 0; 0; 0; 128; 0; 0; 0];
   [0; 0; 0; 0; 0; 0; 128; 0; 0];
   [0; 0; 0; 0; 0; 0; 0; 128; 0];
   [0; 0; 0; 0; 0; 0; 0; 0; 128]].
Definition inverse_E3_10 : list (list Z) :=
  [[128; 0; 0; 0; 0; 0; 0; 0; 0; 0];
   [0; 128; 0; 0; 0; 0; 0; 0; 0; 0];
   [0; 0; 128; 0; 0; 0; 0; 0; 0; 0];
   [0; 0; 0; 128; 0; 0; 0; 0; 0; 0];
   [0; 0; 0; 0; 128; 0; 0; 0; 0; 0];
   [0; 0; 0; 0; 0; 128; 0; 0; 0; 0];
   [0; 0; 0; 0; 0; 0; 128; 0; 0; 0];
   [0; 0; 0; 0; 0; 0; 0; 128; 0; 0];
   [0; 0; 0; 0; 0; 0; 0; 0; 128; 0];
   [0; 0; 0; 0; 0; 0; 0; 0; 0; 128]].
Definition inverse_E3_11 : list (list Z) :=
  [[379; 0; 0; 0; 0; 0; 0; 0; 0; 0; 0];
   [0; 379; 0; 0; 0; 0; 0; 0; 0; 0; 0];
   [0; 0; 379; 0; 0; 0; 0; 0; 0; 0; 0];
   [0; 0; 0; 379; 0; 0; 0; 0; 0; 0; 0];
   [0; 0; 0; 0; 379; 0; 0; 0; 0; 0; 0];
   [0; 0; 0; 0; 0; 379; 0; 0; 0; 0; 0];
   [0; 0; 0; 0; 0; 0; 379; 0; 0; 0; 0];
   [0; 0; 0; 0; 0; 0; 0; 379; 0; 0; 0];
   [0; 0; 0; 0; 0; 0; 0; 0; 379; 0; 0];
   [0; 0; 0; 0; 0; 0; 0; 0; 0; 379; 0];
   [0; 0; 0; 0; 0; 0; 0; 0; 0; 0; 379]].
Definition inverse_E3_12 : list (list Z) :=
  [[379; 0; 0; 0; 0; 0; 0; 0; 0; 0; 0; 0];
   [0; 379; 0; 0; 0; 0; 0; 0; 0; 0; 0; 0];
   [0; 0; 379; 0; 0; 0; 0; 0; 0; 0; 0; 0];
   [0; 0; 0; 379; 0; 0; 0; 0; 0; 0; 0; 0];
   [0; 0; 0; 0; 379; 0; 0; 0; 0; 0; 0; 0];
   [0; 0; 0; 0; 0; 379; 0; 0; 0; 0; 0; 0];
   [0; 0; 0; 0; 0; 0; 379; 0; 0; 0; 0; 0];
   [0; 0; 0; 0; 0; 0; 0; 379; 0; 0; 0; 0];
   [0; 0; 0; 0; 0; 0; 0; 0; 379; 0; 0; 0];
   [0; 0; 0; 0; 0; 0; 0; 0; 0; 379; 0; 0];
   [0; 0; 0; 0; 0; 0; 0; 0; 0; 0; 379; 0];
   [0; 0; 0; 0; 0; 0; 0; 0; 0; 0; 0; 379]].
Definition inverse_E3_13 : list (list Z) :=
  [[379; 0; 0; 0; 0; 0; 0; 0; 0; 0; 0; 0; 0];
   [0; 379; 0; 0; 0; 0; 0; 0; 0; 0; 0; 0; 0];
   [0; 0; 379; 0; 0; 0; 0; 0; 0; 0; 0; 0; 0];
   [0; 0; 0; 379; 0; 0; 0; 0; 0; 0; 0; 0; 0];
   [0; 0; 0; 0; 379; 0; 0; 0; 0; 0; 0; 0; 0];
   [0; 0; 0; 0; 0; 379; 0; 0; 0; 0; 0; 0; 0];
   [0; 0; 0; 0; 0; 0; 379; 0; 0; 0; 0; 0; 0];
   [0; 0; 0; 0; 0; 0; 0; 379; 0; 0; 0; 0; 0];
   [0; 0; 0; 0; 0; 0; 0; 0; 379; 0; 0; 0; 0];
   [0; 0; 0; 0; 0; 0; 0; 0; 0; 379; 0; 0; 0];
   [0; 0; 0; 0; 0; 0; 0; 0; 0; 0; 379; 0; 0];
   [0; 0; 0; 0; 0; 0; 0; 0; 0; 0; 0; 379; 0];
   [0; 0; 0; 0; 0; 0; 0; 0; 0; 0; 0; 0; 379]].
Definition inverse_E3_14 : list (list Z) :=
  [[379; 0; 0; 0; 0; 0; 0; 0; 0; 0; 0; 0; 0; 0];
   [0; 379; 0; 0; 0; 0; 0; 0; 0; 0; 0; 0; 0; 0];
   [0; 0; 379; 0; 0; 0; 0; 0; 0; 0; 0; 0; 0; 0];
   [0; 0; 0; 379; 0; 0; 0; 0; 0; 0; 0; 0; 0; 0];
   [0; 0; 0; 0; 379; 0; 0; 0; 0; 0; 0; 0; 0; 0];
   [0; 0; 0; 0; 0; 379; 0; 0; 0; 0; 0; 0; 0; 0];
   [0; 0; 0; 0; 0; 0; 379; 0; 0; 0; 0; 0; 0; 0];
   [0; 0; 0; 0; 0; 0; 0; 379; 0; 0; 0; 0; 0; 0];
   [0; 0; 0; 0; 0; 0; 0; 0; 379; 0; 0; 0; 0; 0];
   [0; 0; 0; 0; 0; 0; 0; 0; 0; 379; 0; 0; 0; 0];
   [0; 0; 0; 0; 0; 0; 0; 0; 0; 0; 379; 0; 0; 0];
   [0; 0; 0; 0; 0; 0; 0; 0; 0; 0; 0; 379; 0; 0];
   [0; 0; 0; 0; 0; 0; 0; 0; 0; 0; 0; 0; 379; 0];
   [0; 0; 0; 0; 0; 0; 0; 0; 0; 0; 0; 0; 0; 379]].
Definition inverse_E3_15 : list (list Z) :=
  [[379; 0; 0; 0; 0; 0; 0; 0; 0; 0; 0; 0; 0; 0; 0];
   [0; 379; 0; 0; 0; 0; 0; 0; 0; 0; 0; 0; 0; 0; 0];
   [0; 0; 379; 0; 0; 0; 0; 0; 0; 0; 0; 0; 0; 0; 0];
   [0; 0; 0; 379; 0; 0; 0; 0; 0; 0; 0; 0; 0; 0; 0];
   [0; 0; 0; 0; 379; 0; 0; 0; 0; 0; 0; 0; 0; 0; 0];
   [0; 0; 0; 0; 0; 379; 0; 0; 0; 0; 0; 0; 0; 0; 0];
   [0; 0; 0; 0; 0; 0; 379; 0; 0; 0; 0; 0; 0; 0; 0];
   [0; 0; 0; 0; 0; 0; 0; 379; 0; 0; 0; 0; 0; 0; 0];
   [0; 0; 0; 0; 0; 0; 0; 0; 379; 0; 0; 0; 0; 0; 0];
   [0; 0; 0; 0; 0; 0; 0; 0; 0; 379; 0; 0; 0; 0; 0];
   [0; 0; 0; 0; 0; 0; 0; 0; 0; 0; 379; 0; 0; 0; 0];
   [0; 0; 0; 0; 0; 0; 0; 0; 0; 0; 0; 379; 0; 0; 0];
   [0; 0; 0; 0; 0; 0; 0; 0; 0; 0; 0; 0; 379; 0; 0];
   [0; 0; 0; 0; 0; 0; 0; 0; 0; 0; 0; 0; 0; 379; 0];
   [0; 0; 0; 0; 0; 0; 0; 0; 0; 0; 0; 0; 0; 0; 379]].
Definition inverse_E3_16 : list (list Z) :=
  [[379; 0; 0; 0; 0; 0; 0; 0; 0; 0; 0; 0; 0; 0; 0; 0];
   [0; 379; 0; 0; 0; 0; 0; 0; 0; 0; 0; 0; 0; 0; 0; 0];
   [0; 0; 379; 0; 0; 0; 0; 0; 0; 0; 0; 0; 0; 0; 0; 0];
   [0; 0; 0; 379; 0; 0; 0; 0; 0; 0; 0; 0; 0; 0; 0; 0];
   [0; 0; 0; 0; 379; 0; 0; 0; 0; 0; 0; 0; 0; 0; 0; 0];
   [0; 0; 0; 0; 0; 379; 0; 0; 0; 0; 0; 0; 0; 0; 0; 0];
   [0; 0; 0; 0; 0; 0; 379; 0; 0; 0; 0; 0; 0; 0; 0; 0];
   [0; 0; 0; 0; 0; 0; 0; 379; 0; 0; 0; 0; 0; 0; 0; 0];
   [0; 0; 0; 0; 0; 0; 0; 0; 379; 0; 0; 0; 0; 0; 0; 0];
   [0; 0; 0; 0; 0; 0; 0; 0; 0; 379; 0; 0; 0; 0; 0; 0];
   [0; 0; 0; 0; 0; 0; 0; 0; 0; 0; 379; 0; 0; 0; 0; 0];
   [0; 0; 0; 0; 0; 0; 0; 0; 0; 0; 0; 379; 0; 0; 0; 0];
   [0; 0; 0; 0; 0; 0; 0; 0; 0; 0; 0; 0; 379; 0; 0; 0];
   [0; 0; 0; 0; 0; 0; 0; 0; 0; 0; 0; 0; 0; 379; 0; 0];
   [0; 0; 0; 0; 0; 0; 0; 0; 0; 0; 0; 0; 0; 0; 379; 0];
   [0; 0; 0; 0; 0; 0; 0; 0; 0; 0; 0; 0; 0; 0; 0; 379]].
Definition inverse_E3_17 : list (list Z) :=
  [[379; 0; 0; 0; 0; 0; 0; 0; 0; 0; 0; 0; 0; 0; 0; 0; 0];
   [0; 379; 0; 0; 0; 0; 0; 0; 0; 0; 0; 0; 0; 0; 0; 0; 0];
   [0; 0; 379; 0; 0; 0; 0; 0; 0; 0; 0; 0; 0; 0; 0; 0; 0];
   [0; 0; 0; 379; 0; 0; 0; 0; 0; 0; 0; 0; 0; 0; 0; 0; 0];
   [0; 0; 0; 0; 379; 0; 0; 0; 0; 0; 0; 0; 0; 0; 0; 0; 0];
   [0; 0; 0; 0; 0; 379; 0; 0; 0; 0; 0; 0; 0; 0; 0; 0; 0];
   [0; 0; 0; 0; 0; 0; 379; 0; 0; 0; 0; 0; 0; 0; 0; 0; 0];
   [0; 0; 0; 0; 0; 0; 0; 379; 0; 0; 0; 0; 0; 0; 0; 0; 0];
   [0; 0; 0; 0; 0; 0; 0; 0; 379; 0; 0; 0; 0; 0; 0; 0; 0];
   [0; 0; 0; 0; 0; 0; 0; 0; 0; 379; 0; 0; 0; 0; 0; 0; 0];
   [0; 0; 0; 0; 0; 0; 0; 0; 0; 0; 379; 0; 0; 0; 0; 0; 0];
   [0; 0; 0; 0; 0; 0; 0; 0; 0; 0; 0; 379; 0; 0; 0; 0; 0];
   [0; 0; 0; 0; 0; 0; 0; 0; 0; 0; 0; 0; 379; 0; 0; 0; 0];
   [0; 0; 0; 0; 0; 0; 0; 0; 0; 0; 0; 0; 0; 379; 0; 0; 0];
   [0; 0; 0; 0; 0; 0; 0; 0; 0; 0; 0; 0; 0; 0; 379; 0; 0];
   [0; 0; 0; 0; 0; 0; 0; 0; 0; 0; 0; 0; 0; 0; 0; 379; 0];
   [0; 0; 0; 0; 0; 0; 0; 0; 0; 0; 0; 0; 0; 0; 0; 0; 379]].
Definition inverse_E3_18 : list (list Z) :=
  [[379; 0; 0; 0; 0; 0; 0; 0; 0; 0; 0; 0; 0; 0; 0; 0; 0; 0];
   [0; 379; 0; 0; 0; 0; 0; 0; 0; 0; 0; 0; 0; 0; 0; 0; 0; 0];
   [0; 0; 379; 0; 0; 0; 0; 0; 0; 0; 0; 0; 0; 0; 0; 0; 0; 0];
   [0; 0; 0; 379; 0; 0; 0; 0; 0; 0; 0; 0; 0; 0; 0; 0; 0; 0];
   [0; 0; 0; 0; 379; 0; 0; 0; 0; 0; 0; 0; 0; 0; 0; 0; 0; 0];
   [0; 0; 0; 0; 0; 379; 0; 0; 0; 0; 0; 0; 0; 0; 0; 0; 0; 0];
   [0; 0; 0; 0; 0; 0; 379; 0; 0; 0; 0; 0; 0; 0; 0; 0; 0; 0];
   [0; 0; 0; 0; 0; 0; 0; 379; 0; 0; 0; 0; 0; 0; 0; 0; 0; 0];
   [0; 0; 0; 0; 0; 0; 0; 0; 379; 0; 0; 0; 0; 0; 0; 0; 0; 0];
   [0; 0; 0; 0; 0; 0; 0; 0; 0; 379; 0; 0; 0; 0; 0; 0; 0; 0];
   [0; 0; 0; 0; 0; 0; 0; 0; 0; 0; 379; 0; 0; 0; 0; 0; 0; 0];
   [0; 0; 0; 0; 0; 0; 0; 0; 0; 0; 0; 379; 0; 0; 0; 0; 0; 0];
   [0; 0; 0; 0; 0; 0; 0; 0; 0; 0; 0; 0; 379; 0; 0; 0; 0; 0];
   [0; 0; 0; 0; 0; 0; 0; 0; 0; 0; 0; 0; 0; 379; 0; 0; 0; 0];
   [0; 0; 0; 0; 0; 0; 0; 0; 0; 0; 0; 0; 0; 0; 379; 0; 0; 0];
   [0; 0; 0; 0; 0; 0; 0; 0; 0; 0; 0; 0; 0; 0; 0; 379; 0; 0];
   [0; 0; 0; 0; 0; 0; 0; 0; 0; 0; 0; 0; 0; 0; 0; 0; 379; 0];
   [0; 0; 0; 0; 0; 0; 0; 0; 0; 0; 0; 0; 0; 0; 0; 0; 0; 379]].
Definition inverse_E3_19 : list (list Z) :=
  [[379; 0; 0; 0; 0; 0; 0; 0; 0; 0; 0; 0; 0; 0; 0; 0; 0; 0; 0];
   [0; 379; 0; 0; 0; 0; 0; 0; 0; 0; 0; 0; 0; 0; 0; 0; 0; 0; 0];
   [0; 0; 379; 0; 0; 0; 0; 0; 0; 0; 0; 0; 0; 0; 0; 0; 0; 0; 0];
   [0; 0; 0; 379; 0; 0; 0; 0; 0; 0; 0; 0; 0; 0; 0; 0; 0; 0; 0];
   [0; 0; 0; 0; 379; 0; 0; 0; 0; 0; 0; 0; 0; 0; 0; 0; 0; 0; 0];
   [0; 0; 0; 0; 0; 379; 0; 0; 0; 0; 0; 0; 0; 0; 0; 0; 0; 0; 0];
   [0; 0; 0; 0; 0; 0; 379; 0; 0; 0; 0; 0; 0; 0; 0; 0; 0; 0; 0];
   [0; 0; 0; 0; 0; 0; 0; 379; 0; 0; 0; 0; 0; 0; 0; 0; 0; 0; 0];
   [0; 0; 0; 0; 0; 0; 0; 0; 379; 0; 0; 0; 0; 0; 0; 0; 0; 0; 0];
   [0; 0; 0; 0; 0; 0; 0; 0; 0; 379; 0; 0; 0; 0; 0; 0; 0; 0; 0];
   [0; 0; 0; 0; 0; 0; 0; 0; 0; 0; 379; 0; 0; 0; 0; 0; 0; 0; 0];
   [0; 0; 0; 0; 0; 0; 0; 0; 0; 0; 0; 379; 0; 0; 0; 0; 0; 0; 0];
   [0; 0; 0; 0; 0; 0; 0; 0; 0; 0; 0; 0; 379; 0; 0; 0; 0; 0; 0];
   [0; 0; 0; 0; 0; 0; 0; 0; 0; 0; 0; 0; 0; 379; 0; 0; 0; 0; 0];
   [0; 0; 0; 0; 0; 0; 0; 0; 0; 0; 0; 0; 0; 0; 379; 0; 0; 0; 0];
   [0; 0; 0; 0; 0; 0; 0; 0; 0; 0; 0; 0; 0; 0; 0; 379; 0; 0; 0];
   [0; 0; 0; 0; 0; 0; 0; 0; 0; 0; 0; 0; 0; 0; 0; 0; 379; 0; 0];
   [0; 0; 0; 0; 0; 0; 0; 0; 0; 0; 0; 0; 0; 0; 0; 0; 0; 379; 0];
   [0; 0; 0; 0; 0; 0; 0; 0; 0; 0; 0; 0; 0; 0; 0; 0; 0; 0; 379]].
Definition inverse_E3_20 : list (list Z) :=
  [[379; 0; 0; 0; 0; 0; 0; 0; 0; 0; 0; 0; 0; 0; 0; 0; 0; 0; 0; 0];
   [0; 379; 0; 0; 0; 0; 0; 0; 0; 0; 0; 0; 0; 0; 0; 0; 0; 0; 0; 0];
   [0; 0; 379; 0; 0; 0; 0; 0; 0; 0; 0; 0; 0; 0; 0; 0; 0; 0; 0; 0];
   [0; 0; 0; 379; 0; 0; 0; 0; 0; 0; 0; 0; 0; 0; 0; 0; 0; 0; 0; 0];
   [0; 0; 0; 0; 379; 0; 0; 0; 0; 0; 0; 0; 0; 0; 0; 0; 0; 0; 0; 0];
   [0; 0; 0; 0; 0; 379; 0; 0; 0; 0; 0; 0; 0; 0; 0; 0; 0; 0; 0; 0];
   [0; 0; 0; 0; 0; 0; 379; 0; 0; 0; 0; 0; 0; 0; 0; 0; 0; 0; 0; 0];
   [0; 0; 0; 0; 0; 0; 0; 379; 0; 0; 0; 0; 0; 0; 0; 0; 0; 0; 0; 0];
   [0; 0; 0; 0; 0; 0; 0; 0; 379; 0; 0; 0; 0; 0; 0; 0; 0; 0; 0; 0];
   [0; 0; 0; 0; 0; 0; 0; 0; 0; 379; 0; 0; 0; 0; 0; 0; 0; 0; 0; 0];
   [0; 0; 0; 0; 0; 0; 0; 0; 0; 0; 379; 0; 0; 0; 0; 0; 0; 0; 0; 0];
   [0; 0; 0; 0; 0; 0; 0; 0; 0; 0; 0; 379; 0; 0; 0; 0; 0; 0; 0; 0];
   [0; 0; 0; 0; 0; 0; 0; 0; 0; 0; 0; 0; 379; 0; 0; 0; 0; 0; 0; 0];
   [0; 0; 0; 0; 0; 0; 0; 0; 0; 0; 0; 0; 0; 379; 0; 0; 0; 0; 0; 0];
   [0; 0; 0; 0; 0; 0; 0; 0; 0; 0; 0; 0; 0; 0; 379; 0; 0; 0; 0; 0];
   [0; 0; 0; 0; 0; 0; 0; 0; 0; 0; 0; 0; 0; 0; 0; 379; 0; 0; 0; 0];
   [0; 0; 0; 0; 0; 0; 0; 0; 0; 0; 0; 0; 0; 0; 0; 0; 379; 0; 0; 0];
   [0; 0; 0; 0; 0; 0; 0; 0; 0; 0; 0; 0; 0; 0; 0; 0; 0; 379; 0; 0];
   [0; 0; 0; 0; 0; 0; 0; 0; 0; 0; 0; 0; 0; 0; 0; 0; 0; 0; 379; 0];
   [0; 0; 0; 0; 0; 0; 0; 0; 0; 0; 0; 0; 0; 0; 0; 0; 0; 0; 0; 379]].
Definition inverse_E3_21 : list (list Z) :=
  [[379; 0; 0; 0; 0; 0; 0; 0; 0; 0; 0; 0; 0; 0; 0; 0; 0; 0; 0; 0; 0];
   [0; 379; 0; 0; 0; 0; 0; 0; 0; 0; 0; 0; 0; 0; 0; 0; 0; 0; 0; 0; 0];
   [0; 0; 379; 0; 0; 0; 0; 0; 0; 0; 0; 0; 0; 0; 0; 0; 0; 0; 0; 0; 0];
   [0; 0; 0; 379; 0; 0; 0; 0; 0; 0; 0; 0; 0; 0; 0; 0; 0; 0; 0; 0; 0];
   [0; 0; 0; 0; 379; 0; 0; 0; 0; 0; 0; 0; 0; 0; 0; 0; 0; 0; 0; 0; 0];
   [0; 0; 0; 0; 0; 379; 0; 0; 0; 0; 0; 0; 0; 0; 0; 0; 0; 0; 0; 0; 0];
   [0; 0; 0; 0; 0; 0; 379; 0; 0; 0; 0; 0; 0; 0; 0; 0; 0; 0; 0; 0; 0];
   [0; 0; 0; 0; 0; 0; 0; 379; 0; 0; 0; 0; 0; 0; 0; 0; 0; 0; 0; 0; 0];
   [0; 0; 0; 0; 0; 0; 0; 0; 379; 0; 0; 0; 0; 0; 0; 0; 0; 0; 0; 0; 0];
   [0; 0; 0; 0; 0; 0; 0; 0; 0; 379; 0; 0; 0; 0; 0; 0; 0; 0; 0; 0; 0];
   [0; 0; 0; 0; 0; 0; 0; 0; 0; 0; 379; 0; 0; 0; 0; 0; 0; 0; 0; 0; 0];
   [0; 0; 0; 0; 0; 0; 0; 0; 0; 0; 0; 379; 0; 0; 0; 0; 0; 0; 0; 0; 0];
   [0; 0; 0; 0; 0; 0; 0; 0; 0; 0; 0; 0; 379; 0; 0; 0; 0; 0; 0; 0; 0];
   [0; 0; 0; 0; 0; 0; 0; 0; 0; 0; 0; 0; 0; 379; 0; 0; 0; 0; 0; 0; 0];
   [0; 0; 0; 0; 0; 0; 0; 0; 0; 0; 0; 0; 0; 0; 379; 0; 0; 0; 0; 0; 0];
   [0; 0; 0; 0; 0; 0; 0; 0; 0; 0; 0; 0; 0; 0; 0; 379; 0; 0; 0; 0; 0];
   [0; 0; 0; 0; 0; 0; 0; 0; 0; 0; 0; 0; 0; 0; 0; 0; 379; 0; 0; 0; 0];
   [0; 0; 0; 0; 0; 0; 0; 0; 0; 0; 0; 0; 0; 0; 0; 0; 0; 379; 0; 0; 0];
   [0; 0; 0; 0; 0; 0; 0; 0; 0; 0; 0; 0; 0; 0; 0; 0; 0; 0; 379; 0; 0];
   [0; 0; 0; 0; 0; 0; 0; 0; 0; 0; 0; 0; 0; 0; 0; 0; 0; 0; 0; 379; 0];
   [0; 0; 0; 0; 0; 0; 0; 0; 0; 0; 0; 0; 0; 0; 0; 0; 0; 0; 0; 0; 379]].
Definition inverse_E3_22 : list (list Z) :=
  [[379; 0; 0; 0; 0; 0; 0; 0; 0; 0; 0; 0; 0; 0; 0; 0; 0; 0; 0; 0; 0; 0];
   [0; 379; 0; 0; 0; 0; 0; 0; 0; 0; 0; 0; 0; 0; 0; 0; 0; 0; 0; 0; 0; 0];
   [0; 0; 379; 0; 0; 0; 0; 0; 0; 0; 0; 0; 0; 0; 0; 0; 0; 0; 0; 0; 0; 0];
   [0; 0; 0; 379; 0; 0; 0; 0; 0; 0; 0; 0; 0; 0; 0; 0; 0; 0; 0; 0; 0; 0];
   [0; 0; 0; 0; 379; 0; 0; 0; 0; 0; 0; 0; 0; 0; 0; 0; 0; 0; 0; 0; 0; 0];
   [0; 0; 0; 0; 0; 379; 0; 0; 0; 0; 0; 0; 0; 0; 0; 0; 0; 0; 0; 0; 0; 0];
   [0; 0; 0; 0; 0; 0; 379; 0; 0; 0; 0; 0; 0; 0; 0; 0; 0; 0; 0; 0; 0; 0];
   [0; 0; 0; 0; 0; 0; 0; 379; 0; 0; 0; 0; 0; 0; 0; 0; 0; 0; 0; 0; 0; 0];
   [0; 0; 0; 0; 0; 0; 0; 0; 379; 0; 0; 0; 0; 0; 0; 0; 0; 0; 0; 0; 0; 0];
   [0; 0; 0; 0; 0; 0; 0; 0; 0; 379; 0; 0; 0; 0; 0; 0; 0; 0; 0; 0; 0; 0];
   [0; 0; 0; 0; 0; 0; 0; 0; 0; 0; 379; 0; 0; 0; 0; 0; 0; 0; 0; 0; 0; 0];
   [0; 0; 0; 0; 0; 0; 0; 0; 0; 0; 0; 379; 0; 0; 0; 0; 0; 0; 0; 0; 0; 0];
   [0; 0; 0; 0; 0; 0; 0; 0; 0; 0; 0; 0; 379; 0; 0; 0; 0; 0; 0; 0; 0; 0];
   [0; 0; 0; 0; 0; 0; 0; 0; 0; 0; 0; 0; 0; 379; 0; 0; 0; 0; 0; 0; 0; 0];
   [0; 0; 0; 0; 0; 0; 0; 0; 0; 0; 0; 0; 0; 0; 379; 0; 0; 0; 0; 0; 0; 0];
   [0; 0; 0; 0; 0; 0; 0; 0; 0; 0; 0; 0; 0; 0; 0; 379; 0; 0; 0; 0; 0; 0];
   [0; 0; 0; 0; 0; 0; 0; 0; 0; 0; 0; 0; 0; 0; 0; 0; 379; 0; 0; 0; 0; 0];
   [0; 0; 0; 0; 0; 0; 0; 0; 0; 0; 0; 0; 0; 0; 0; 0; 0; 379; 0; 0; 0; 0];
   [0; 0; 0; 0; 0; 0; 0; 0; 0; 0; 0; 0; 0; 0; 0; 0; 0; 0; 379; 0; 0; 0];
   [0; 0; 0; 0; 0; 0; 0; 0; 0; 0; 0; 0; 0; 0; 0; 0; 0; 0; 0; 379; 0; 0];
   [0; 0; 0; 0; 0; 0; 0; 0; 0; 0; 0; 0; 0; 0; 0; 0; 0; 0; 0; 0; 379; 0];
   [0; 0; 0; 0; 0; 0; 0; 0; 0; 0; 0; 0; 0; 0; 0; 0; 0; 0; 0; 0; 0; 379]].
Definition inverse_E3_23 : list (list Z) :=
  [[379; 0; 0; 0; 0; 0; 0; 0; 0; 0; 0; 0; 0; 0; 0; 0; 0; 0; 0; 0; 0; 0; 0];
   [0; 379; 0; 0; 0; 0; 0; 0; 0; 0; 0; 0; 0; 0; 0; 0; 0; 0; 0; 0; 0; 0; 0];
   [0; 0; 379; 0; 0; 0; 0; 0; 0; 0; 0; 0; 0; 0; 0; 0; 0; 0; 0; 0; 0; 0; 0];
   [0; 0; 0; 379; 0; 0; 0; 0; 0; 0; 0; 0; 0; 0; 0; 0; 0; 0; 0; 0; 0; 0; 0];
   [0; 0; 0; 0; 379; 0; 0; 0; 0; 0; 0; 0; 0; 0; 0; 0; 0; 0; 0; 0; 0; 0; 0];
   [0; 0; 0; 0; 0; 379; 0; 0; 0; 0; 0; 0; 0; 0; 0; 0; 0; 0; 0; 0; 0; 0; 0];
   [0; 0; 0; 0; 0; 0; 379; 0; 0; 0; 0; 0; 0; 0; 0; 0; 0; 0; 0; 0; 0; 0; 0];
   [0; 0; 0; 0; 0; 0; 0; 379; 0; 0; 0; 0; 0; 0; 0; 0; 0; 0; 0; 0; 0; 0; 0];
   [0; 0; 0; 0; 0; 0; 0; 0; 379; 0; 0; 0; 0; 0; 0; 0; 0; 0; 0; 0; 0; 0; 0];
   [0; 0; 0; 0; 0; 0; 0; 0; 0; 379; 0; 0; 0; 0; 0; 0; 0; 0; 0; 0; 0; 0; 0];
   [0; 0; 0; 0; 0; 0; 0; 0; 0; 0; 379; 0; 0; 0; 0; 0; 0; 0; 0; 0; 0; 0; 0];
   [0; 0; 0; 0; 0; 0; 0; 0; 0; 0; 0; 379; 0; 0; 0; 0; 0; 0; 0; 0; 0; 0; 0];
   [0; 0; 0; 0; 0; 0; 0; 0; 0; 0; 0; 0; 379; 0; 0; 0; 0; 0; 0; 0; 0; 0; 0];
   [0; 0; 0; 0; 0; 0; 0; 0; 0; 0; 0; 0; 0; 379; 0; 0; 0; 0; 0; 0; 0; 0; 0];
   [0; 0; 0; 0; 0; 0; 0; 0; 0; 0; 0; 0; 0; 0; 379; 0; 0; 0; 0; 0; 0; 0; 0];
   [0; 0; 0; 0; 0; 0; 0; 0; 0; 0; 0; 0; 0; 0; 0; 379; 0; 0; 0; 0; 0; 0; 0];
   [0; 0; 0; 0; 0; 0; 0; 0; 0; 0; 0; 0; 0; 0; 0; 0; 379; 0; 0; 0; 0; 0; 0];
   [0; 0; 0; 0; 0; 0; 0; 0; 0; 0; 0; 0; 0; 0; 0; 0; 0; 379; 0; 0; 0; 0; 0];
   [0; 0; 0; 0; 0; 0; 0; 0; 0; 0; 0; 0; 0; 0; 0; 0; 0; 0; 379; 0; 0; 0; 0];
   [0; 0; 0; 0; 0; 0; 0; 0; 0; 0; 0; 0; 0; 0; 0; 0; 0; 0; 0; 379; 0; 0; 0];
   [0; 0; 0; 0; 0; 0; 0; 0; 0; 0; 0; 0; 0; 0; 0; 0; 0; 0; 0; 0; 379; 0; 0];
   [0; 0; 0; 0; 0; 0; 0; 0; 0; 0; 0; 0; 0; 0; 0; 0; 0; 0; 0; 0; 0; 379; 0];
   [0; 0; 0; 0; 0; 0; 0; 0; 0; 0; 0; 0; 0; 0; 0; 0; 0; 0; 0; 0; 0; 0; 379]].
Definition inverse_E3_24 : list (list Z) :=
  [[379; 0; 0; 0; 0; 0; 0; 0; 0; 0; 0; 0; 0; 0; 0; 0; 0; 0; 0; 0; 0; 0; 0; 0];
   [0; 379; 0; 0; 0; 0; 0; 0; 0; 0; 0; 0; 0; 0; 0; 0; 0; 0; 0; 0; 0; 0; 0; 0];
   [0; 0; 379; 0; 0; 0; 0; 0; 0; 0; 0; 0; 0; 0; 0; 0; 0; 0; 0; 0; 0; 0; 0; 0];
   [0; 0; 0; 379; 0; 0; 0; 0; 0; 0; 0; 0; 0; 0; 0; 0; 0; 0; 0; 0; 0; 0; 0; 0];
   [0; 0; 0; 0; 379; 0; 0; 0; 0; 0; 0; 0; 0; 0; 0; 0; 0; 0; 0; 0; 0; 0; 0; 0];
   [0; 0; 0; 0; 0; 379; 0; 0; 0; 0; 0; 0; 0; 0; 0; 0; 0; 0; 0; 0; 0; 0; 0; 0];
   [0; 0; 0; 0; 0; 0; 379; 0; 0; 0; 0; 0; 0; 0; 0; 0; 0; 0; 0; 0; 0; 0; 0; 0];
   [0; 0; 0; 0; 0; 0; 0; 379; 0; 0; 0; 0; 0; 0; 0; 0; 0; 0; 0; 0; 0; 0; 0; 0];
   [0; 0; 0; 0; 0; 0; 0; 0; 379; 0; 0; 0; 0; 0; 0; 0; 0; 0; 0; 0; 0; 0; 0; 0];
   [0; 0; 0; 0; 0; 0; 0; 0; 0; 379; 0; 0; 0; 0; 0; 0; 0; 0; 0; 0; 0; 0; 0; 0];
   [0; 0; 0; 0; 0; 0; 0; 0; 0; 0; 379; 0; 0; 0; 0; 0; 0; 0; 0; 0; 0; 0; 0; 0];
   [0; 0; 0; 0; 0; 0; 0; 0; 0; 0; 0; 379; 0; 0; 0; 0; 0; 0; 0; 0; 0; 0; 0; 0];
   [0; 0; 0; 0; 0; 0; 0; 0; 0; 0; 0; 0; 379; 0; 0; 0; 0; 0; 0; 0; 0; 0; 0; 0];
   [0; 0; 0; 0; 0; 0; 0; 0; 0; 0; 0; 0; 0; 379; 0; 0; 0; 0; 0; 0; 0; 0; 0; 0];
   [0; 0; 0; 0; 0; 0; 0; 0; 0; 0; 0; 0; 0; 0; 379; 0; 0; 0; 0; 0; 0; 0; 0; 0];
   [0; 0; 0; 0; 0; 0; 0; 0; 0; 0; 0; 0; 0; 0; 0; 379; 0; 0; 0; 0; 0; 0; 0; 0];
   [0; 0; 0; 0; 0; 0; 0; 0; 0; 0; 0; 0; 0; 0; 0; 0; 379; 0; 0; 0; 0; 0; 0; 0];
   [0; 0; 0; 0; 0; 0; 0; 0; 0; 0; 0; 0; 0; 0; 0; 0; 0; 379; 0; 0; 0; 0; 0; 0];
   [0; 0; 0; 0; 0; 0; 0; 0; 0; 0; 0; 0; 0; 0; 0; 0; 0; 0; 379; 0; 0; 0; 0; 0];
   [0; 0; 0; 0; 0; 0; 0; 0; 0; 0; 0; 0; 0; 0; 0; 0; 0; 0; 0; 379; 0; 0; 0; 0];
   [0; 0; 0; 0; 0; 0; 0; 0; 0; 0; 0; 0; 0; 0; 0; 0; 0; 0; 0; 0; 379; 0; 0; 0];
   [0; 0; 0; 0; 0; 0; 0; 0; 0; 0; 0; 0; 0; 0; 0; 0; 0; 0; 0; 0; 0; 379; 0; 0];
   [0; 0; 0; 0; 0; 0; 0; 0; 0; 0; 0; 0; 0; 0; 0; 0; 0; 0; 0; 0; 0; 0; 379; 0];
   [0; 0; 0; 0; 0; 0; 0; 0; 0; 0; 0; 0; 0; 0; 0; 0; 0; 0; 0; 0; 0; 0; 0; 379]].
Definition inverse_E3 (n : nat) : list (list Z) := nth n [[]; []; inverse_E3_2; inverse_E3_3; inverse_E3_4; inverse_E3_5; inverse_E3_6; inverse_E3_7; inverse_E3_8; inverse_E3_9; inverse_E3_10; inverse_E3_11; inverse_E3_12; inverse_E3_13; inverse_E3_14; inverse_E3_15; inverse_E3_16; inverse_E3_17; inverse_E3_18; inverse_E3_19; inverse_E3_20; inverse_E3_21; inverse_E3_22; inverse_E3_23; inverse_E3_24] [].
