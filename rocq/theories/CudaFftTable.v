(** * The constants of the Fourier transforms of the CUDA backend
    /repo/concrete-cuda/cuda/src/fft/twiddles.cu:3-4099: the table negtwiddles, each constant rounded to a double, as the compiler does,
    and multiplied by 2^64.  Written by tools/gen_twiddles.py. *)
From Coq Require Import ZArith List.
Import ListNotations.
Local Open Scope Z_scope.
Definition negtwiddles_scaled : list (Z * Z) :=
[(0,0);
(13043817825332781056,13043817825332783104);
(17042569291174129664,7059263338087549952);
(-7059263338087549952,17042569291174129664);
(18092295058859851776,3598781241489101824);
(-3598781241489101824,18092295058859851776);
(10248461903483781120,15337907143211554816);
(-15337907143211554816,10248461903483781120);
(18357917958986608640,1808097102496279552);
(-1808097102496279552,18357917958986608640);
(11702490555046866944,14259525999484602368);
(-14259525999484602368,11702490555046866944);
(16268575856596453376,8695734961410993152);
(-8695734961410993152,16268575856596453376);
(5354807149832442880,17652433467061751808);
(-17652433467061751808,5354807149832442880);
(18424524162600792064,905138830610008576);
(-905138830610008576,18424524162600792064);
(12388076170470817792,13668135780550014976);
(-13668135780550014976,12388076170470817792);
(16675659135621765120,7886999385919389696);
(-7886999385919389696,16675659135621765120);
(6214520906555814912,17368422404551288832);
(-17368422404551288832,6214520906555814912);
(17893918271179503616,4482193193659413504);
(-4482193193659413504,17893918271179503616);
(9483521749724131328,15822300153373650944);
(-15822300153373650944,9483521749724131328);
(14816563771299465216,10988712614858696704);
(-10988712614858696704,14816563771299465216);
(2706699510092035072,18247085923045521408);
(-18247085923045521408,2706699510092035072);
(18441188259278645248,452705761816584064);
(-452705761816584064,18441188259278645248);
(12719777957210945536,13360000585336403968);
(-13360000585336403968,12719777957210945536);
(16864193393151561728,7475382807543818240);
(-7475382807543818240,16864193393151561728);
(6638891632359274496,17210679382718406656);
(-17210679382718406656,6638891632359274496);
(17998527484994013184,4041704503406151168);
(-4041704503406151168,17998527484994013184);
(9868964174101024768,15584797497922420736);
(-15584797497922420736,9868964174101024768);
(15081777806758907904,10621786342630553600);
(-10621786342630553600,15081777806758907904);
(3153690208319278080,18175164510696720384);
(-18175164510696720384,3153690208319278080);
(18308015973136766976,2258078397289926144);
(-2258078397289926144,18308015973136766976);
(11349019697502078976,14542424791851196416);
(-14542424791851196416,11349019697502078976);
(16050272046846398464,9092366806456920064);
(-9092366806456920064,16050272046846398464);
(4919981978332814336,17778530430095136768);
(-17778530430095136768,4919981978332814336);
(17515703338174812160,5786406785734149120);
(-5786406785734149120,17515703338174812160);
(8293865130778785792,16477080084571727872);
(-16477080084571727872,8293865130778785792);
(13968037801853939712,12048912269865601024);
(-12048912269865601024,13968037801853939712);
(1357026677617194496,18396761821504720896);
(-18396761821504720896,1357026677617194496);
(18445355067807029248,226369926147403904);
(-226369926147403904,18445355067807029248);
(12882767940004474880,13202903359675529216);
(-13202903359675529216,12882767940004474880);
(16954657996727932928,7267870330084875264);
(-7267870330084875264,16954657996727932928);
(6849593246997519360,17127914037372573696);
(-17127914037372573696,6849593246997519360);
(18046770160529401856,3820530551371636736);
(-3820530551371636736,18046770160529401856);
(10059470498420115456,15462516619630643200);
(-15462516619630643200,10059470498420115456);
(15210987834393956352,10435909927881590784);
(-10435909927881590784,15210987834393956352);
(3376489968388956672,18135095324103129088);
(-18135095324103129088,3376489968388956672);
(18334347508709578752,2033240849189623040);
(-2033240849189623040,18334347508709578752);
(11526623059791749120,14402059844286703616);
(-14402059844286703616,11526623059791749120);
(16160640818253285376,8894720640039474176);
(-8894720640039474176,16160640818253285376);
(5137781429575153664,17716815992238874624);
(-17716815992238874624,5137781429575153664);
(17585392550335244288,5571026455829497856);
(-5571026455829497856,17585392550335244288);
(8495439737082749952,16374060907256141824);
(-16374060907256141824,8495439737082749952);
(14114844722517637120,11876595698269538304);
(-11876595698269538304,14114844722517637120);
(1582681063030003968,18378723774344742912);
(-18378723774344742912,1582681063030003968);
(18412029384002988032,1131167928978272256);
(-1131167928978272256,18412029384002988032);
(12219414319593205760,13819127346075764736);
(-13819127346075764736,12219414319593205760);
(16577617874234040320,8091041498893359104);
(-8091041498893359104,16577617874234040320);
(6000915704060946432,17443376325519470592);
(-17443376325519470592,6000915704060946432);
(17837567486663200768,4701441595901655040);
(-4701441595901655040,17837567486663200768);
(9288643695877666816,15937486163506794496);
(-15937486163506794496,9288643695877666816);
(14680599703733276672,11169707214590941184);
(-11169707214590941184,14680599703733276672);
(2482575887089462784,18278927317700577280);
(-18278927317700577280,2482575887089462784);
(18212496584368510976,2930415514104411136);
(-2930415514104411136,18212496584368510976);
(10806063155426316288,14950296518861299712);
(-14950296518861299712,10806063155426316288);
(15704731363036401664,9676971620078221312);
(-9676971620078221312,15704731363036401664);
(4262269789609009664,17947574297423171584);
(-17947574297423171584,4262269789609009664);
(17290852863055058944,6427190225060960256);
(-6427190225060960256,17290852863055058944);
(7681769519848563712,16771189104081559552);
(-16771189104081559552,7681769519848563712);
(13515085844051068928,12554872422644080640);
(-12554872422644080640,13515085844051068928);
(678973421663217280,18434244275630434304);
(-18434244275630434304,678973421663217280);
(18446396818965434368,113187093788755728);
(-113187093788755728,18446396818965434368);
(12963536917587591168,13123607640709244928);
(-13123607640709244928,12963536917587591168);
(16998933644072962048,7163701688746033152);
(-7163701688746033152,16998933644072962048);
(6954559210154299392,17085563295173984256);
(-17085563295173984256,6954559210154299392);
(18069872769942953984,3709725730968882176);
(-3709725730968882176,18069872769942953984);
(10154157350094487552,15400501791515123712);
(-15400501791515123712,10154157350094487552);
(15274735031373064192,10342380608074864640);
(-10342380608074864640,15274735031373064192);
(3487701259929619456,18114036183093590016);
(-18114036183093590016,3487701259929619456);
(18346478101113610240,1920705132574278400);
(-1920705132574278400,18346478101113610240);
(11614775452284848128,14331062700091006976);
(-14331062700091006976,11614775452284848128);
(16214913578590633984,8795393371519864832);
(-8795393371519864832,16214913578590633984);
(5246393051570357248,17684957643980173312);
(-17684957643980173312,5246393051570357248);
(17619244686000492544,5463019642631886848);
(-5463019642631886848,17619244686000492544);
(8595749161795674112,16321625631916308480);
(-16321625631916308480,8595749161795674112);
(14187452435783833600,11789765065653762048);
(-11789765065653762048,14187452435783833600);
(1695420998584312064,18368666651624386560);
(-18368666651624386560,1695420998584312064);
(18418623498684129280,1018172546604593536);
(-1018172546604593536,18418623498684129280);
(12303976863919355904,13743890288163524608);
(-13743890288163524608,12303976863919355904);
(16626951502591143936,7989170836289618944);
(-7989170836289618944,16626951502591143936);
(6107833283543862272,17406227032340244480);
(-17406227032340244480,6107833283543862272);
(17866079202813370368,4591903836072570880);
(-4591903836072570880,17866079202813370368);
(9386259416481845248,15880192098568718336);
(-15880192098568718336,9386259416481845248);
(14748859380626165760,11079418481646678016);
(-11079418481646678016,14748859380626165760);
(2594686542831656448,18263350422783514624);
(-18263350422783514624,2594686542831656448);
(18230134430835818496,2818610571645691904);
(-2818610571645691904,18230134430835818496);
(10897593029251608576,14883710326721130496);
(-14883710326721130496,10897593029251608576);
(15763812507520608256,9580427033732644864);
(-9580427033732644864,15763812507520608256);
(4372313799205860864,17921083643636410368);
(-17921083643636410368,4372313799205860864);
(17329963865475473408,6320974556368096256);
(-6320974556368096256,17329963865475473408);
(7784530994480030720,16723738939511050240);
(-16723738939511050240,7784530994480030720);
(13591866675349628928,12471709072956227584);
(-12471709072956227584,13591866675349628928);
(792071036650037632,18429731153596315648);
(-18429731153596315648,792071036650037632);
(18438063358786650112,565850243710828608);
(-565850243710828608,18438063358786650112);
(12637563088481263616,13437796177409239040);
(-13437796177409239040,12637563088481263616);
(16818007842861414400,7578718830936428544);
(-7578718830936428544,16818007842861414400);
(6533163913674512384,17251090869797179392);
(-17251090869797179392,6533163913674512384);
(17973389235181643776,4152065307963624448);
(-4152065307963624448,17973389235181643776);
(9773151873911746560,15645058944292724736);
(-15645058944292724736,9773151873911746560);
(15016319840787478528,10714126439430832128);
(-10714126439430832128,15016319840787478528);
(3042110128075301888,18194173047698544640);
(-18194173047698544640,3042110128075301888);
(18293816021335420928,2370371763768277504);
(-2370371763768277504,18293816021335420928);
(11259575414371717120,14611787310559049728);
(-14611787310559049728,11259575414371717120);
(15994180191098720256,9190678263088300032);
(-9190678263088300032,15994180191098720256);
(4810802349111918592,17808384196178993152);
(-17808384196178993152,4810802349111918592);
(17479868885439078400,5893772193493504000);
(-5893772193493504000,17479868885439078400);
(8192607538357741568,16527660107933679616);
(-16527660107933679616,8192607538357741568);
(13893844121654026240,12134391721224361984);
(-12134391721224361984,13893844121654026240);
(1244120723518763520,18404742066822062080);
(-18404742066822062080,1244120723518763520);
(18388088948502691840,1469881540428207360);
(-1469881540428207360,18388088948502691840);
(11962979183769952256,14041705593325381632);
(-14041705593325381632,11962979183769952256);
(16425879708457474048,8394810463865367552);
(-8394810463865367552,16425879708457474048);
(5678823523029801984,17550878334579777536);
(-17550878334579777536,5678823523029801984);
(17748007312389054464,5028976373013011456);
(-5028976373013011456,17748007312389054464);
(8993713027354303488,16105759618923161600);
(-16105759618923161600,8993713027354303488);
(14472514759069339648,11438036696455323648);
(-11438036696455323648,14472514759069339648);
(2145700015436187904,18321526638484457472);
(-18321526638484457472,2145700015436187904);
(18155471689023713280,3265151553909384192);
(-3265151553909384192,18155471689023713280);
(10529046341577930752,15146667952320167936);
(-15146667952320167936,10529046341577930752);
(15523949292734881792,9964404913367111680);
(-9964404913367111680,15523949292734881792);
(3931191530958504960,18022988100419381248);
(-18022988100419381248,3931191530958504960);
(17169619923288391680,6744369400526395392);
(-6744369400526395392,17169619923288391680);
(7371765340213607424,16909744016092137472);
(-16909744016092137472,7371765340213607424);
(13281701996792631296,12801513933489784832);
(-12801513933489784832,13281701996792631296);
(339544235806277440,18443618859455678464);
(-18443618859455678464,339544235806277440);
(18446657259819241472,56593813235639760);
(-56593813235639760,18446657259819241472);
(13003738569530116096,13083774307754369024);
(-13083774307754369024,13003738569530116096);
(17020831570898092032,7111515981565202432);
(-7111515981565202432,17020831570898092032);
(7006944250134854656,17064146600297377792);
(-17064146600297377792,7006944250134854656);
(18081169007825840128,3654270683922691072);
(-3654270683922691072,18081169007825840128);
(10201357636320753664,15369276798106628096);
(-15369276798106628096,10201357636320753664);
(15306393122093043712,10295469708220272640);
(-10295469708220272640,15306393122093043712);
(3543257925955880960,18103250818322362368);
(-18103250818322362368,3543257925955880960);
(18352284399395205120,1864409891803257856);
(-1864409891803257856,18352284399395205120);
(11658687871671074816,14295361626481797120);
(-14295361626481797120,11658687871671074816);
(16241821154696726528,8745605324949459968);
(-8745605324949459968,16241821154696726528);
(5300625046452234240,17668778708158119936);
(-17668778708158119936,5300625046452234240);
(17635922074538704896,5408938851728392192);
(-5408938851728392192,17635922074538704896);
(8645782750303319040,16295177432464367616);
(-16295177432464367616,8645782750303319040);
(14223556156397993984,11746183090124689408);
(-11746183090124689408,14223556156397993984);
(1751767294690762752,18363378726862610432);
(-18363378726862610432,1751767294690762752);
(18421660526484822016,961660214363392768);
(-961660214363392768,18421660526484822016);
(12346084620220299264,13706077537767626752);
(-13706077537767626752,12346084620220299264);
(16651383683688890368,7938122469420452864);
(-7938122469420452864,16651383683688890368);
(6161206090858942464,17387406546891952128);
(-17387406546891952128,6161206090858942464);
(17880082884071284736,4537069867180753408);
(-4537069867180753408,17880082884071284736);
(9434934985703667712,15851320725304985600);
(-15851320725304985600,9434934985703667712);
(14782781146545885184,11034117476910692352);
(-11034117476910692352,14782781146545885184);
(2650705501186691584,18255304085851791360);
(-18255304085851791360,2650705501186691584);
(18238696011717183488,2762668042510749184);
(-2762668042510749184,18238696011717183488);
(10943204322858543104,14850206936911974400);
(-14850206936911974400,10943204322858543104);
(15793130655927384064,9532019251226107904);
(-9532019251226107904,15793130655927384064);
(4427274332028702208,17907585233914099712);
(-17907585233914099712,4427274332028702208);
(17349274784004229120,6267777228815128576);
(-6267777228815128576,17349274784004229120);
(7835802066976360448,16699777629899970560);
(-16699777629899970560,7835802066976360448);
(13630065373632958464,12429951119430449152);
(-12429951119430449152,13630065373632958464);
(848608927345230592,18427214380078407680);
(-18427214380078407680,848608927345230592);
(18439712589831456768,509280399534245632);
(-509280399534245632,18439712589831456768);
(12678730191364718592,13398961439436836864);
(-13398961439436836864,12678730191364718592);
(16841179875805945856,7527086243141320704);
(-7527086243141320704,16841179875805945856);
(6586058768263600128,17230966218466002944);
(-17230966218466002944,6586058768263600128);
(17986043005831184384,4096904186496137728);
(-4096904186496137728,17986043005831184384);
(9821104243993131008,15615001708279080960);
(-15615001708279080960,9821104243993131008);
(15049119647795965952,10668006596701179904);
(-10668006596701179904,15049119647795965952);
(3097914747574008832,18184754360114462720);
(-18184754360114462720,3097914747574008832);
(18301002125237043200,2314235971764270592);
(-2314235971764270592,18301002125237043200);
(11304350756364175360,14577174654164885504);
(-14577174654164885504,11304350756364175360);
(16022301522974554112,9141565556720891904);
(-9141565556720891904,16022301522974554112);
(4865415061292136448,17793541052929574912);
(-17793541052929574912,4865415061292136448);
(17497868460107929600,5840116974316404736);
(-5840116974316404736,17497868460107929600);
(8243275128990736384,16502447759914321920);
(-16502447759914321920,8243275128990736384);
(13931006523723479040,12091708901429620736);
(-12091708901429620736,13931006523723479040);
(1300579821344279552,18400838542013528064);
(-18400838542013528064,1300579821344279552);
(18392511943667286016,1413460761038199040);
(-1413460761038199040,18392511943667286016);
(12006002229350496256,14004937607492915200);
(-14004937607492915200,12006002229350496256);
(16451557320676120576,8344377067549524992);
(-8344377067549524992,16451557320676120576);
(5732642133287486464,17533373351771060224);
(-17533373351771060224,5732642133287486464);
(17763352468961380352,4974502586629349376);
(-4974502586629349376,17763352468961380352);
(9043082475373759488,16078091499445026816);
(-16078091499445026816,9043082475373759488);
(14507538050696914944,11393581817344344064);
(-11393581817344344064,14507538050696914944);
(2201899568921722368,18314857499017588736);
(-18314857499017588736,2201899568921722368);
(18165403589708636160,3209435985331231232);
(-3209435985331231232,18165403589708636160);
(10575466112261586944,15114294010285273088);
(-15114294010285273088,10575466112261586944);
(15554446597516275712,9916731213759543296);
(-9916731213759543296,15554446597516275712);
(3986466778254104576,18010842555161454592);
(-18010842555161454592,3986466778254104576);
(17190230553501814784,6691662008678500352);
(-6691662008678500352,17190230553501814784);
(7423609010796349440,16887048178286272512);
(-16887048178286272512,7423609010796349440);
(13320913981822334976,12760705999662741504);
(-12760705999662741504,13320913981822334976);
(396126863059880320,18442490353238652928);
(-18442490353238652928,396126863059880320);
(18444573767307790336,282958412633012544);
(-282958412633012544,18444573767307790336);
(12842201374592260096,13242364999325427712);
(-13242364999325427712,12842201374592260096);
(16932280692947286016,7319852283767962624);
(-7319852283767962624,16932280692947286016);
(6797013311800915968,17148847686073241600);
(-17148847686073241600,6797013311800915968);
(18034964006449291264,3875879281791030784);
(-3875879281791030784,18034964006449291264);
(10011984824200716288,15493305870630483968);
(-15493305870630483968,10011984824200716288);
(15178899328147724288,10482527467500146688);
(-10482527467500146688,15178899328147724288);
(3320836389637586432,18145368902124785664);
(-18145368902124785664,3320836389637586432);
(18328023328764895232,2089480265804923136);
(-2089480265804923136,18328023328764895232);
(11482383916408766464,14437355246621028352);
(-14437355246621028352,11482383916408766464);
(16133276144857921536,8944258927082600448);
(-8944258927082600448,16133276144857921536);
(5083402824755776512,17732495104812617728);
(-17732495104812617728,5083402824755776512);
(17568218121837400064,5624951461522352128);
(-5624951461522352128,17568218121837400064);
(8445164845027980288,16400047489603254272);
(-16400047489603254272,8445164845027980288);
(14078341413277050880,11919843538073257984);
(-11919843538073257984,14078341413277050880);
(1526288484733356544,18383492877641854976);
(-18383492877641854976,1526288484733356544);
(18408472359188858880,1187649915555177472);
(-1187649915555177472,18408472359188858880);
(12176960327502868480,13856550945432262656);
(-13856550945432262656,12176960327502868480);
(16552716891321583616,8141862835782460416);
(-8141862835782460416,16552716891321583616);
(5947371938242087936,17461704783587110912);
(-17461704783587110912,5947371938242087936);
(17823059720134074368,4756144355827808256);
(-4756144355827808256,17823059720134074368);
(9239704463291648000,15965908315907581952);
(-15965908315907581952,9239704463291648000);
(14646262435246180352,11214694092967274496);
(-11214694092967274496,14646262435246180352);
(2426485244930493440,18286457729070249984);
(-18286457729070249984,2426485244930493440);
(18203420484796694528,2986276875077488640);
(-2986276875077488640,18203420484796694528);
(10760145436721987584,14983378694457716736);
(-14983378694457716736,10760145436721987584);
(15674968923053203456,9725107515202842624);
(-9725107515202842624,15674968923053203456);
(4207187348611128320,17960566292147499008);
(-17960566292147499008,4207187348611128320);
(17271053147291049984,6480207566458529792);
(-6480207566458529792,17271053147291049984);
(7630280084943563776,16794677512421967872);
(-16794677512421967872,7630280084943563776);
(13476504433726267392,12596277036041035776);
(-12596277036041035776,13476504433726267392);
(622414761889415040,18436240581667418112);
(-18436240581667418112,622414761889415040);
(18432074459465687040,735525690680589440);
(-735525690680589440,18432074459465687040);
(12513349638006390784,13553540045240719360);
(-13553540045240719360,12513349638006390784);
(16747542838922037248,7733186651013260288);
(-7733186651013260288,16747542838922037248);
(6374112388501211136,17310489830726737920);
(-17310489830726737920,6374112388501211136);
(17934413373294264320,4317312112500355584);
(-4317312112500355584,17934413373294264320);
(9628744641611259904,15734345984106899456);
(-15734345984106899456,9628744641611259904);
(14917073625380261888,10851879163348762624);
(-10851879163348762624,14917073625380261888);
(2874526570944472576,18221401260986288128);
(-18221401260986288128,2874526570944472576);
(18271224858105505792,2538643162298699264);
(-2538643162298699264,18271224858105505792);
(11124615202676344832,14714798792824889344);
(-14714798792824889344,11124615202676344832);
(15908914001416482816,9337495500211662848);
(-9337495500211662848,15908914001416482816);
(4646694584216668160,17851907359213748224);
(-17851907359213748224,4646694584216668160);
(17424883683750586368,6054402986975763456);
(-6054402986975763456,17424883683750586368);
(8040144006040216576,16602362822293520384);
(-16602362822293520384,8040144006040216576);
(13781573675829702656,12261753297902231552);
(-12261753297902231552,13781573675829702656);
(1074675295418016896,18415413107784378368);
(-18415413107784378368,1074675295418016896);
(18373781683499972608,1639058744529725696);
(-1639058744529725696,18373781683499972608);
(11833236071423932416,14151215177464088576);
(-14151215177464088576,11833236071423932416);
(16347920206011748352,8545634666823246848);
(-8545634666823246848,16347920206011748352);
(5517049013513927680,17602401458421049344);
(-17602401458421049344,5517049013513927680);
(17700970122245605376,5192111675639003136);
(-5192111675639003136,17700970122245605376);
(8845098632498151424,16187853381542526976);
(-16187853381542526976,8845098632498151424);
(14366628884280133632,11570753710208606208);
(-11570753710208606208,14366628884280133632);
(1976982294937095168,18340499118792914944);
(-18340499118792914944,1976982294937095168);
(18124651051657574400,3432111766330816000);
(-3432111766330816000,18124651051657574400);
(10389194161504301056,15242933169029619712);
(-15242933169029619712,10389194161504301056);
(15431581829535514624,10106861489072056320);
(-10106861489072056320,15431581829535514624);
(3765145860663653376,18058406451535689728);
(-18058406451535689728,3765145860663653376);
(17106819174221858816,6902108711213830144);
(-6902108711213830144,17106819174221858816);
(7215819968438289408,16976875716810373120);
(-16976875716810373120,7215819968438289408);
(13163317449270913024,12923213247898464256);
(-12923213247898464256,13163317449270913024);
(169779308981837920,18445962753599502336);
(-18445962753599502336,169779308981837920);
(18446722370224205824,28296939910536372);
(-28296939910536372,18446722370224205824);
(13023793520553551872,13063811436748687360);
(-13063811436748687360,13023793520553551872);
(17031720469677842432,7085397996139329536);
(-7085397996139329536,17031720469677842432);
(7033112068907237376,17053378009858627584);
(-17053378009858627584,7033112068907237376);
(18086753313281675264,3626530229493865984);
(-3626530229493865984,18086753313281675264);
(10224921800016609280,15353610034922848256);
(-15353610034922848256,10224921800016609280);
(15322168159923171328,10271977891330134016);
(-10271977891330134016,15322168159923171328);
(3571023785204448256,18097794231520110592);
(-18097794231520110592,3571023785204448256);
(18355122774879369216,1836255657593237504);
(-1836255657593237504,18355122774879369216);
(11680602956152500224,14277460611105181696);
(-14277460611105181696,11680602956152500224);
(16255217630695229440,8720680403481913344);
(-8720680403481913344,16255217630695229440);
(5327722366465021952,17660626866190417920);
(-17660626866190417920,5327722366465021952);
(17644198530051981312,5381879332821387264);
(-5381879332821387264,17644198530051981312);
(8670769057435734016,16281895800967204864);
(-16281895800967204864,8670769057435734016);
(14241557833821929472,11724350616850542592);
(-11724350616850542592,14241557833821929472);
(1779934292772184064,18360669945139585024);
(-18360669945139585024,1779934292772184064);
(18423114020226252800,933400620677612416);
(-933400620677612416,18423114020226252800);
(12367094945830068224,13687122762719813632);
(-13687122762719813632,12367094945830068224);
(16663541015116148736,7912570237190967296);
(-7912570237190967296,16663541015116148736);
(6187870779036212224,17377934921701376000);
(-17377934921701376000,6187870779036212224);
(17887021622570242048,4509636836225628160);
(-4509636836225628160,17887021622570242048);
(9459239496966029312,15836829072133609472);
(-15836829072133609472,9459239496966029312);
(14799689871472605184,11011428001361569792);
(-11011428001361569792,14799689871472605184);
(2678705657265945600,18251216477886341120);
(-18251216477886341120,2678705657265945600);
(18242912431048925184,2734686993792720384);
(-2734686993792720384,18242912431048925184);
(10965971370853572608,14833402806320545792);
(-14833402806320545792,10965971370853572608);
(15807734003213056000,9507781686839482368);
(-9507781686839482368,15807734003213056000);
(4454739004059651584,17900772813670590464);
(-17900772813670590464,4454739004059651584);
(17358869017825558528,6241156410707424256);
(-6241156410707424256,17358869017825558528);
(7861409975776402432,16687738016690630656);
(-16687738016690630656,7861409975776402432);
(13649116635936436224,12409028244771696640);
(-12409028244771696640,13649116635936436224);
(876874910663303296,18425890950290237440);
(-18425890950290237440,876874910663303296);
(18440472120661139456,480993646587671104);
(-480993646587671104,18440472120661139456);
(12699269015591178240,13379496754010755072);
(-13379496754010755072,12699269015591178240);
(16852706462501859328,7501243350917667840);
(-7501243350917667840,16852706462501859328);
(6612482980217033728,17220843061745801216);
(-17220843061745801216,6612482980217033728);
(17992306414230089728,4069309132689878528);
(-4069309132689878528,17992306414230089728);
(9845045792218949632,15599917957157672960);
(-15599917957157672960,9845045792218949632);
(15065466452526352384,10644908993915426816);
(-10644908993915426816,15065466452526352384);
(3125806155608556032,18179980825031090176);
(-18179980825031090176,3125806155608556032);
(18304530585351213056,2286159874304607744);
(-2286159874304607744,18304530585351213056);
(11326698553341032448,14559816853335779328);
(-14559816853335779328,11326698553341032448);
(16036305652398598144,9116976908152570880);
(-9116976908152570880,16036305652398598144);
(4892704276315364352,17786056667667058688);
(-17786056667667058688,4892704276315364352);
(17506806496744759296,5813268719616695296);
(-5813268719616695296,17506806496744759296);
(8268579858268320768,16489783323269529600);
(-16489783323269529600,8268579858268320768);
(13949538575094579200,12070324786967697408);
(-12070324786967697408,13949538575094579200);
(1328804812883778048,18398821828861634560);
(-18398821828861634560,1328804812883778048);
(18394658524790185984,1385245349135754752);
(-1385245349135754752,18394658524790185984);
(12027471400509054976,13986504160471093248);
(-13986504160471093248,12027471400509054976);
(16464338073712863232,8319130887023441920);
(-8319130887023441920,16464338073712863232);
(5759531235877491712,17524558963462959104);
(-17524558963462959104,5759531235877491712);
(17770962357923776512,4947248103157417984);
(-4947248103157417984,17770962357923776512);
(9067735309543885824,16064200673453674496);
(-16064200673453674496,9067735309543885824);
(14524998510636333056,11371314136323506176);
(-11371314136323506176,14524998510636333056);
(2229991606798653952,18311458280392253440);
(-18311458280392253440,2229991606798653952);
(18170305428444606464,3181566840092305920);
(-3181566840092305920,18170305428444606464);
(10598638697256390656,15098053672111441920);
(-15098053672111441920,10598638697256390656);
(15569640366153222144,9892859333357096960);
(-9892859333357096960,15569640366153222144);
(4014090363601313792,18004706203484174336);
(-18004706203484174336,4014090363601313792);
(17200475205299939328,6665284662548213760);
(-6665284662548213760,17200475205299939328);
(7449504673872129024,16875640640725192704);
(-16875640640725192704,7449504673872129024);
(13340472979290148864,12740256967964495872);
(-12740256967964495872,13340472979290148864);
(424416811785109760,18441861003998826496);
(-18441861003998826496,424416811785109760);
(18444986118974437376,254664469015255840);
(-254664469015255840,18444986118974437376);
(12862499790650603520,13222649736586522624);
(-13222649736586522624,12862499790650603520);
(16943489279671085056,7293869888516622336);
(-7293869888516622336,16943489279671085056);
(6823311307354523648,17138401025879468032);
(-17138401025879468032,6823311307354523648);
(18040888309465784320,3848209444185606144);
(-3848209444185606144,18040888309465784320);
(10035739468842608640,15477929455662123008);
(-15477929455662123008,10035739468842608640);
(15194961458876884992,10459231003481305088);
(-10459231003481305088,15194961458876884992);
(3348667118881871360,18140253455998287872);
(-18140253455998287872,3348667118881871360);
(18331206986287618048,2061362982790382080);
(-2061362982790382080,18331206986287618048);
(11504517023720181760,14419724510956197888);
(-14419724510956197888,11504517023720181760);
(16146977479254476800,8919500277783909376);
(-8919500277783909376,16146977479254476800);
(5110598140031008768,17724676402463602688);
(-17724676402463602688,5110598140031008768);
(17576826016071057408,5597995544988056576);
(-5597995544988056576,17576826016071057408);
(8470312256786835456,16387073478613110784);
(-16387073478613110784,8470312256786835456);
(14096609653239439360,11898233617017909248);
(-11898233617017909248,14096609653239439360);
(1554486602810247168,18381129952280461312);
(-18381129952280461312,1554486602810247168);
(18410272532170739712,1159410286368923904);
(-1159410286368923904,18410272532170739712);
(12198201675321458688,13837855426659264512);
(-13837855426659264512,12198201675321458688);
(16565186872520235008,8116461716747129856);
(-8116461716747129856,16565186872520235008);
(5974150850028531712,17452561088334338048);
(-17452561088334338048,5974150850028531712);
(17830334581648445440,4728798539524604928);
(-4728798539524604928,17830334581648445440);
(9264184979345727488,15951716007671508992);
(-15951716007671508992,9264184979345727488);
(14663448321744896000,11192213821959231488);
(-11192213821959231488,14663448321744896000);
(2454533453887135744,18282714033881495552);
(-18282714033881495552,2454533453887135744);
(18207979957150431232,2958349675232225280);
(-2958349675232225280,18207979957150431232);
(10783116982932086784,14966855215887540224);
(-14966855215887540224,10783116982932086784);
(15689868602933004288,9701050981395552256);
(-9701050981395552256,15689868602933004288);
(4234733551478621696,17954091418641037312);
(-17954091418641037312,4234733551478621696);
(17280973337072822272,6453706488857131008);
(-6453706488857131008,17280973337072822272);
(7656033810089613312,16782953054206615552);
(-16782953054206615552,7656033810089613312);
(13495811017362151424,12575589525131012096);
(-12575589525131012096,13495811017362151424);
(650694857350243072,18435264118627549184);
(-18435264118627549184,650694857350243072);
(18433181055075858432,707250388286144000);
(-707250388286144000,18433181055075858432);
(12534125777329588224,13534328868437489664);
(-13534328868437489664,12534125777329588224);
(16759385689728507904,7707487153661805568);
(-7707487153661805568,16759385689728507904);
(6400658837465348096,17300691701990277120);
(-17300691701990277120,6400658837465348096);
(17941014943829315584,4289795998206863872);
(-4289795998206863872,17941014943829315584);
(9652869487911907328,15719557168389883904);
(-15719557168389883904,9652869487911907328);
(14933702642343208960,10828983900210116608);
(-10828983900210116608,14933702642343208960);
(2902474457425824768,18216970355822866432);
(-18216970355822866432,2902474457425824768);
(18275097589438007296,2510612478550919680);
(-2510612478550919680,18275097589438007296);
(11147174323822622720,14697716540852465664);
(-14697716540852465664,11147174323822622720);
(15923218816897638400,9313080555333740544);
(-9313080555333740544,15923218816897638400);
(4674073589332488192,17844758418158620672);
(-17844758418158620672,4674073589332488192);
(17434150516755148800,6027666437359043584);
(-6027666437359043584,17434150516755148800);
(8065602242037379072,16590009867211655168);
(-16590009867211655168,8065602242037379072);
(13800366747750744064,12240598210402709504);
(-12240598210402709504,13800366747750744064);
(1102922909840217088,18413742910551566336);
(-18413742910551566336,1102922909840217088);
(18376274349496670208,1610871799048338432);
(-1610871799048338432,18376274349496670208);
(11854929832744253440,14133046578202761216);
(-14133046578202761216,11854929832744253440);
(16361009806152187904,8520547226788336640);
(-8520547226788336640,16361009806152187904);
(5544044257507548160,17593917704472078336);
(-17593917704472078336,5544044257507548160);
(17708913892634742784,5164952629423303680);
(-5164952629423303680,17708913892634742784);
(8869920072158178304,16174266129703192576);
(-16174266129703192576,8869920072158178304);
(14384361288179212288,11548701972605829120);
(-11548701972605829120,14384361288179212288);
(2005113931176742400,18337444888640821248);
(-18337444888640821248,2005113931176742400);
(18129894518576891904,3404304872688990720);
(-3404304872688990720,18129894518576891904);
(10412564295577747456,15226978416987330560);
(-15226978416987330560,10412564295577747456);
(15447067398803937280,10083177857091831808);
(-10083177857091831808,15447067398803937280);
(3792842668480231424,18052609545799583744);
(-18052609545799583744,3792842668480231424);
(17117386745229459456,6875859068885959680);
(-6875859068885959680,17117386745229459456);
(7241853669652192256,16965786817836759040);
(-16965786817836759040,7241853669652192256);
(13183125915057580032,12903005774960953344);
(-12903005774960953344,13183125915057580032);
(198074850609249280,18445680612937398272);
(-18445680612937398272,198074850609249280);
(18446201489129437184,141483367847312464);
(-141483367847312464,18446201489129437184);
(12943390311266871296,13143478008926760960);
(-13143478008926760960,12943390311266871296);
(16987924667555522560,7189769287702980608);
(-7189769287702980608,16987924667555522560);
(6928342112213185536,17096211349216288768);
(-17096211349216288768,6928342112213185536);
(18064160864097042432,3737440193095166464);
(-3737440193095166464,18064160864097042432);
(10130521338630912000,15416059948264415232);
(-15416059948264415232,10130521338630912000);
(15258852052977756160,10365799580653436928);
(-10365799580653436928,15258852052977756160);
(3459910583882126848,18119364935683559424);
(-18119364935683559424,3459910583882126848);
(18343510191978960896,1948846006667139328);
(-1948846006667139328,18343510191978960896);
(11592778220710213632,14348862674315528192);
(-14348862674315528192,11592778220710213632);
(16201402541799165952,8820256379466640384);
(-8820256379466640384,16201402541799165952);
(5219258504314390528,17692984699763924992);
(-17692984699763924992,5219258504314390528);
(17610843792219062272,5490040787371052032);
(-5490040787371052032,17610843792219062272);
(8570701998154309632,16334792137635917824);
(-16334792137635917824,8570701998154309632);
(14169350477549150208,11811514465356089344);
(-11811514465356089344,14169350477549150208);
(1667241833147560192,18371245782220138496);
(-18371245782220138496,1667241833147560192);
(18417039971771287552,1046425152181037056);
(-1046425152181037056,18417039971771287552);
(12282879532311803904,13762748174534555648);
(-13762748174534555648,12282879532311803904);
(16614676710411937792,8014666850807561216);
(-8014666850807561216,16614676710411937792);
(6081125289997423616,17415575848311539712);
(-17415575848311539712,6081125289997423616);
(17859014293006432256,4619304644979638272);
(-4619304644979638272,17859014293006432256);
(9361888473060704256,15894571750723942400);
(-15894571750723942400,9361888473060704256);
(14731846419454359552,11102029904235900928);
(-11102029904235900928,14731846419454359552);
(2566667872373894656,18267309132815980544);
(-18267309132815980544,2566667872373894656);
(18225789289432422400,2846571920424430592);
(-2846571920424430592,18225789289432422400);
(10874748890967486464,14900409507102142464);
(-14900409507102142464,10874748890967486464);
(15749097775387938816,9604597137944369152);
(-9604597137944369152,15749097775387938816);
(4344818067741411328,17927769601352151040);
(-17927769601352151040,4344818067741411328);
(17320247226208501760,6347550940634909696);
(-6347550940634909696,17320247226208501760);
(7758867951429528576,16735660579529515008);
(-16735660579529515008,7758867951429528576);
(13572719329255000064,12492544053562755072);
(-12492544053562755072,13572719329255000064);
(763799262312035712,18430924491403843584);
(-18430924491403843584,763799262312035712);
(18437173662452328448,594133201826529280);
(-594133201826529280,18437173662452328448);
(12616934906694440960,13457166138573670400);
(-13457166138573670400,12616934906694440960);
(16806362451138830336,7604508405011418112);
(-7604508405011418112,16806362451138830336);
(6506693395505562624,17261092317052903424);
(-17261092317052903424,6506693395505562624);
(17966998902706550784,4179631245825405440);
(-4179631245825405440,17966998902706550784);
(9749141164892739584,15660032358457382912);
(-15660032358457382912,9749141164892739584);
(14999866915690487808,10737148570850287616);
(-10737148570850287616,14999866915690487808);
(3014197047924802048,18198818178036172800);
(-18198818178036172800,3014197047924802048);
(18290158394457565184,2398431326219680256);
(-2398431326219680256,18290158394457565184);
(11237147974716821504,14629042084677181440);
(-14629042084677181440,11237147974716821504);
(15980063054819141632,9215202205320444928);
(-9215202205320444928,15980063054819141632);
(4783478980463917056,17815742919238545408);
(-17815742919238545408,4783478980463917056);
(17470807389761796096,5920579031714978816);
(-5920579031714978816,17470807389761796096);
(8167244796228066304,16540207959981156352);
(-16540207959981156352,8167244796228066304);
(13875213858402394112,12155690326120380416);
(-12155690326120380416,13875213858402394112);
(1215886750086457088,18406628869293330432);
(-18406628869293330432,1215886750086457088);
(18385812544868732928,1498086775152227584);
(-1498086775152227584,18385812544868732928);
(11941425410585348096,14060040045617401856);
(-14060040045617401856,11941425410585348096);
(16412982909697472512,8419997560980473856);
(-8419997560980473856,16412982909697472512);
(5651894142002510848,17559568887889479680);
(-17559568887889479680,5651894142002510848);
(17740272080887760896,5056195547742660608);
(-5056195547742660608,17740272080887760896);
(8968996529676054528,16119536847304185856);
(-16119536847304185856,8968996529676054528);
(14454952009794369536,11460223789938841600);
(-11460223789938841600,14454952009794369536);
(2117592632070562816,18324796543632863232);
(-18324796543632863232,2117592632070562816);
(18150441650445484032,3292997846144496640);
(-3292997846144496640,18150441650445484032);
(10505799265119283200,15162801480002222080);
(-15162801480002222080,10505799265119283200);
(15508645828353538048,9988206620391413760);
(-9988206620391413760,15508645828353538048);
(3903539999078110208,18028997265420384256);
(-18028997265420384256,3903539999078110208);
(17159253993371899904,6770699322218420224);
(-6770699322218420224,17159253993371899904);
(7345817454699809792,16921032262931421184);
(-16921032262931421184,7345817454699809792);
(13262049101500327936,12821872739593572352);
(-12821872739593572352,13262049101500327936);
(311251690422291648,18444118013777393664);
(-18444118013777393664,311251690422291648);
(18443076305517205504,367835982209877696);
(-367835982209877696,18443076305517205504);
(12781125004187136000,13301323638957172736);
(-13301323638957172736,12781125004187136000);
(16898415978991765504,7397695879251474432);
(-7397695879251474432,16898415978991765504);
(6718023608681691136,17179945451430684672);
(-17179945451430684672,6718023608681691136);
(18016936525586423808,3958833812365489152);
(-3958833812365489152,18016936525586423808);
(9940579759135524864,15539216227763984384);
(-15539216227763984384,9940579759135524864);
(15130498783065313280,10552268642173470720);
(-10552268642173470720,15130498783065313280);
(3237297578457264128,18160459006023311360);
(-18160459006023311360,3237297578457264128);
(18318213621014083584,2173802349762410240);
(-2173802349762410240,18318213621014083584);
(11415822688166588416,14490043453119090688);
(-14490043453119090688,11415822688166588416);
(16091944492134000640,9018408361957041152);
(-9018408361957041152,16091944492134000640);
(5001745364616176640,17755700781114753024);
(-17755700781114753024,5001745364616176640);
(17542146482358007808,5705739541236791296);
(-5705739541236791296,17542146482358007808);
(8369603612950332416,16438737855535843328);
(-16438737855535843328,8369603612950332416);
(14023338099543721984,11984504806908958720);
(-11984504806908958720,14023338099543721984);
(1441672846930937600,18390322083187138560);
(-18390322083187138560,1441672846930937600);
(18402811956214882304,1272351769414830592);
(-1272351769414830592,18402811956214882304);
(12113064562932488192,13912441691348346880);
(-13912441691348346880,12113064562932488192);
(16515073364705460224,8217951002490505216);
(-8217951002490505216,16515073364705460224);
(5866951486656740352,17488889249296386048);
(-17488889249296386048,5866951486656740352);
(17800983568271204352,4838114397477287936);
(-4838114397477287936,17800983568271204352);
(9166132694302416896,16008259691527331840);
(-16008259691527331840,9166132694302416896);
(14594498153493932032,11281976359158030336);
(-11281976359158030336,14594498153493932032);
(2342306623603145728,18297430601097064448);
(-18297430601097064448,2342306623603145728);
(18189485104714246144,3070016049846813696);
(-3070016049846813696,18189485104714246144);
(10691079096636921856,15032737431033362432);
(-15032737431033362432,10691079096636921856);
(15630048715793117184,9797139585760344064);
(-9797139585760344064,15630048715793117184);
(4124489599891100160,17979737274535704576);
(-17979737274535704576,4124489599891100160);
(17241048829058248704,6559619058677696512);
(-6559619058677696512,17241048829058248704);
(7552911423403955200,16829613660186988544);
(-16829613660186988544,7552911423403955200);
(13418394595812362240,12658161532861399040);
(-12658161532861399040,13418394595812362240);
(537565954094845504,18438909668576841728);
(-18438909668576841728,537565954094845504);
(18428494448851142656,820340947168379392);
(-820340947168379392,18428494448851142656);
(12450844745213534208,13610982038469046272);
(-13610982038469046272,12450844745213534208);
(16711777946919411712,7810175719777146880);
(-7810175719777146880,16711777946919411712);
(6294383298237569024,17339639725663459328);
(-17339639725663459328,6294383298237569024);
(17914355515879747584,4399799242193591808);
(-4399799242193591808,17914355515879747584);
(9556234385850679296,15778490145879724032);
(-15778490145879724032,9556234385850679296);
(14866976123532009472,10920411524446670848);
(-10920411524446670848,14866976123532009472);
(2790642590404011008,18234436674971936768);
(-18234436674971936768,2790642590404011008);
(18259348737323333632,2622699107741345792);
(-2622699107741345792,18259348737323333632);
(11056780988115539968,14765837636307167232);
(-14765837636307167232,11056780988115539968);
(15865775078787518464,9410608273127905280);
(-9410608273127905280,15865775078787518464);
(4564492221972217856,17873102072010151936);
(-17873102072010151936,4564492221972217856);
(17396837257835366400,6134526904768591872);
(-6134526904768591872,17396837257835366400);
(7963656022480975872,16639187169947363328);
(-16639187169947363328,7963656022480975872);
(13725000061091039232,12325045243080830976);
(-12325045243080830976,13725000061091039232);
(989917545169796224,18420163684796708864);
(-18420163684796708864,989917545169796224);
(18366044297781659648,1723596174531683072);
(-1723596174531683072,18366044297781659648);
(11767987923495389184,14205521009572481024);
(-14205521009572481024,11767987923495389184);
(16308420719834980352,8620776098808943616);
(-8620776098808943616,16308420719834980352);
(5435985642879796224,17627604119997227008);
(-17627604119997227008,5435985642879796224);
(17676888973782784000,5273515253556691968);
(-5273515253556691968,17676888973782784000);
(8770509667162884096,16228386460124149760);
(-16228386460124149760,8770509667162884096);
(14313229003491624960,11636745353170903040);
(-11636745353170903040,14313229003491624960);
(1892559738876707840,18349402839213088768);
(-18349402839213088768,1892559738876707840);
(18108664806426734592,3515483729079148544);
(-3515483729079148544,18108664806426734592);
(10318937298875684864,15290582066841360384);
(-15290582066841360384,10318937298875684864);
(15384907395897489408,10177769467844966400);
(-10177769467844966400,15384907395897489408);
(3682002539499608064,18075542155632756736);
(-18075542155632756736,3682002539499608064);
(17074875037150844928,6980759943345807360);
(-6980759943345807360,17074875037150844928);
(7137617232907025408,17009902620457504768);
(-17009902620457504768,7137617232907025408);
(13103706391375259648,12983653019453716480);
(-12983653019453716480,13103706391375259648);
(84890553390033856,18446548742647867392);
(-18446548742647867392,84890553390033856);
(18446738647837417472,14148474116859584);
(-14148474116859584,18446738647837417472);
(13033809506670327808,13053818470653276160);
(-13053818470653276160,13033809506670327808);
(17037149891684151296,7072332747349010432);
(-7072332747349010432,17037149891684151296);
(7046189776043344896,17047978664959686656);
(-17047978664959686656,7046189776043344896);
(18089529506872834048,3612656798107942400);
(-3612656798107942400,18089529506872834048);
(10236694862742118400,15345763102825730048);
(-15345763102825730048,10236694862742118400);
(15330042160701779968,10260222915319353344);
(-10260222915319353344,15330042160701779968);
(3584903567799977984,18095049967615823872);
(-18095049967615823872,3584903567799977984);
(18356525766268569600,1822176916014624512);
(-1822176916014624512,18356525766268569600);
(11691550194518560768,14268497502189621248);
(-14268497502189621248,11691550194518560768);
(16261901526874685440,8708210243854315520);
(-8708210243854315520,16261901526874685440);
(5341266329213416448,17656535360068505600);
(-17656535360068505600,5341266329213416448);
(17648321189583194112,5368344820356387840);
(-5368344820356387840,17648321189583194112);
(8683254563490833408,16275240615934195712);
(-16275240615934195712,8683254563490833408);
(14250546108267825152,11713424031301488640);
(-11713424031301488640,14250546108267825152);
(1794016225320993536,18359299352214493184);
(-18359299352214493184,1794016225320993536);
(18423824510544162816,919269996035237504);
(-919269996035237504,18423824510544162816);
(12377589198858854400,13677633294734548992);
(-13677633294734548992,12377589198858854400);
(16669604978518519808,7899787135175797760);
(-7899787135175797760,16669604978518519808);
(6201197666798422016,17373183773224534016);
(-17373183773224534016,6201197666798422016);
(17890475209127686144,4495916337358394368);
(-4495916337358394368,17890475209127686144);
(9471383409230497792,15829569268817510400);
(-15829569268817510400,9471383409230497792);
(14808131177007058944,11000073543640059904);
(-11000073543640059904,14808131177007058944);
(2692703375703000064,18249156568220246016);
(-18249156568220246016,2692703375703000064);
(18245004543580272640,2720694052199484416);
(-2720694052199484416,18245004543580272640);
(10977345221700818944,14824987649389144064);
(-14824987649389144064,10977345221700818944);
(15815021730078261248,9495654511306254336);
(-9495654511306254336,15815021730078261248);
(4468467413201658368,17897350806700228608);
(-17897350806700228608,4468467413201658368);
(17363650818482628608,6227840490470671360);
(-6227840490470671360,17363650818482628608);
(7874206996944447488,16681703482864379904);
(-16681703482864379904,7874206996944447488);
(13658630225753352192,12398555854496739328);
(-12398555854496739328,13658630225753352192);
(891007132714925824,18425212975984553984);
(-18425212975984553984,891007132714925824);
(18440835614104129536,466849841519994432);
(-466849841519994432,18440835614104129536);
(12709527224744767488,13369752602214074368);
(-13369752602214074368,12709527224744767488);
(16858454886524041216,7488315281822217216);
(-7488315281822217216,16858454886524041216);
(6625689255149295616,17215766286027980800);
(-17215766286027980800,6625689255149295616);
(17995422242733682688,4055508010923452416);
(-4055508010923452416,17995422242733682688);
(9857007882471876608,15592362313832556544);
(-15592362313832556544,9857007882471876608);
(15073626563355701248,10633350795936145408);
(-10633350795936145408,15073626563355701248);
(3139749105480669696,18177578014564311040);
(-18177578014564311040,3139749105480669696);
(18306278663800033280,2272119804112037376);
(-2272119804112037376,18306278663800033280);
(11337862460307742720,14551125102619486208);
(-14551125102619486208,11337862460307742720);
(16043293568550627328,9104674535327471616);
(-9104674535327471616,16043293568550627328);
(4906344570462140416,17782298779315208192);
(-17782298779315208192,4906344570462140416);
(17511260068171352064,5799839458623483904);
(-5799839458623483904,17511260068171352064);
(8281224930339186688,16483436552311148544);
(-16483436552311148544,8281224930339186688);
(13958792294273191936,12059622075599128576);
(-12059622075599128576,13958792294273191936);
(1342916140251969280,18397797236658231296);
(-18397797236658231296,1342916140251969280);
(18395715584010215424,1371136416678588160);
(-1371136416678588160,18395715584010215424);
(12038195376067420160,13977275092397926400);
(-13977275092397926400,12038195376067420160);
(16470713923790616576,8306500452151216128);
(-8306500452151216128,16470713923790616576);
(5772970708850785280,17520136304141281280);
(-17520136304141281280,5772970708850785280);
(17774751622223669248,4933616491904851968);
(-4933616491904851968,17774751622223669248);
(9080053728781236224,16057241083180648448);
(-16057241083180648448,9080053728781236224);
(14533715926149076992,11360170258360528896);
(-11360170258360528896,14533715926149076992);
(2244035662098471936,18309742512339400704);
(-18309742512339400704,2244035662098471936);
(18172740314848122880,3167629455923190272);
(-3167629455923190272,18172740314848122880);
(10610215640801720320,15089920177940803584);
(-15089920177940803584,10610215640801720320);
(15577223513877448704,9880914660072820736);
(-9880914660072820736,15577223513877448704);
(4027898618258222592,18001622139184345088);
(-18001622139184345088,4027898618258222592);
(17205582354809577472,6652090104080354304);
(-6652090104080354304,17205582354809577472);
(7462445935690312704,16869921979008604160);
(-16869921979008604160,7462445935690312704);
(13350240709114599424,12730021206959468544);
(-12730021206959468544,13350240709114599424);
(438561415798037696,18441530055977234432);
(-18441530055977234432,438561415798037696);
(18445176018801643520,240517268326385952);
(-240517268326385952,18445176018801643520);
(12872637651648075776,13212780434500179968);
(-13212780434500179968,12872637651648075776);
(16949078623552643072,7280872250875528192);
(-7280872250875528192,16949078623552643072);
(6836454288030981120,17133162571125078016);
(-17133162571125078016,6836454288030981120);
(18043834542359078912,3834371125609492992);
(-3834371125609492992,18043834542359078912);
(10047607939005800448,15470227588014536704);
(-15470227588014536704,10047607939005800448);
(15202979118395879424,10447573538700615680);
(-10447573538700615680,15202979118395879424);
(3362579532694865920,18137679725015545856);
(-18137679725015545856,3362579532694865920);
(18332782639850444800,2047302518177664512);
(-2047302518177664512,18332782639850444800);
(11515573428913545216,14410896416400988160);
(-14410896416400988160,11515573428913545216);
(16153813900190142464,8907113078824260608);
(-8907113078824260608,16153813900190142464);
(5124191292017938432,17720751409681983488);
(-17720751409681983488,5124191292017938432);
(17581114454461483008,5584512643021230080);
(-5584512643021230080,17581114454461483008);
(8482878492064223232,16380572011068864512);
(-16380572011068864512,8482878492064223232);
(14105731336897697792,11887418154174638080);
(-11887418154174638080,14105731336897697792);
(1568584294298988800,18379932269532905472);
(-18379932269532905472,1568584294298988800);
(18411156373491335168,1145289444545734400);
(-1145289444545734400,18411156373491335168);
(12208811588521984000,13828495453841309696);
(-13828495453841309696,12208811588521984000);
(16571407247643103232,8103753991435086848);
(-8103753991435086848,16571407247643103232);
(5987535038201037824,17447973839023640576);
(-17447973839023640576,5987535038201037824);
(17833956279784321024,4715121454605365248);
(-4715121454605365248,17833956279784321024);
(9276417066150275072,15944605775489538048);
(-15944605775489538048,9276417066150275072);
(14672028328327211008,11180963807011555328);
(-11180963807011555328,14672028328327211008);
(2468555396582068736,18280826052860522496);
(-18280826052860522496,2468555396582068736);
(18210243627068045312,2944383460720782848);
(-2944383460720782848,18210243627068045312);
(10794593244269746176,14958580267248107520);
(-14958580267248107520,10794593244269746176);
(15697304600144633856,9689014150635583488);
(-9689014150635583488,15697304600144633856);
(4248502920186219520,17950838138039896064);
(-17950838138039896064,4248502920186219520);
(17285918184494094336,6440450251334519808);
(-6440450251334519808,17285918184494094336);
(7668903920678384640,16777076013904871424);
(-16777076013904871424,7668903920678384640);
(13505452403161454592,12565234669789456384);
(-12565234669789456384,13505452403161454592);
(664834335059185280,18434759619476054016);
(-18434759619476054016,664834335059185280);
(18433718087393855488,693112108844678656);
(-693112108844678656,18433718087393855488);
(12544502789790728192,13524711334363889664);
(-13524711334363889664,12544502789790728192);
(16765292328199798784,7694630600031651840);
(-7694630600031651840,16765292328199798784);
(6413926417836984320,17295777369852772352);
(-17295777369852772352,6413926417836984320);
(17944299898710896640,4276034151648297472);
(-4276034151648297472,17944299898710896640);
(9664923396807776256,15712148887239329792);
(-15712148887239329792,9664923396807776256);
(14942003975600238592,10817526709654343680);
(-10817526709654343680,14942003975600238592);
(2916445843600092672,18214738827726469120);
(-18214738827726469120,2916445843600092672);
(18277017829518639104,2496594917161424384);
(-2496594917161424384,18277017829518639104);
(11158444051319353344,14689162442920773632);
(-14689162442920773632,11158444051319353344);
(15930357175911561216,9300864861335287808);
(-9300864861335287808,15930357175911561216);
(4687758971460983808,17841168200160704512);
(-17841168200160704512,4687758971460983808);
(17438768550526429184,6014292839736756224);
(-6014292839736756224,17438768550526429184);
(8078324246600379392,16583818748639496192);
(-16583818748639496192,8078324246600379392);
(13809751108873641984,12230009862297808896);
(-12230009862297808896,13809751108873641984);
(1117045747973861376,18412891563192131584);
(-18412891563192131584,1117045747973861376);
(18377504467426902016,1596776900710526464);
(-1596776900710526464,18377504467426902016);
(11865766255669182464,14123949804738086912);
(-14123949804738086912,11865766255669182464);
(16367540171005255680,8507995984452960256);
(-8507995984452960256,16367540171005255680);
(5557536991346435072,17589660301175644160);
(-17589660301175644160,5557536991346435072);
(17712870152449382400,5151368544707924992);
(-5151368544707924992,17712870152449382400);
(8882322968719704064,16167458229427804160);
(-16167458229427804160,8882322968719704064);
(14393214799811674112,11537665909854586880);
(-11537665909854586880,14393214799811674112);
(2019177984098375168,18335901591944445952);
(-18335901591944445952,2019177984098375168);
(18132500254781374464,3390398417780992512);
(-3390398417780992512,18132500254781374464);
(10424240177885628416,15218987602159792128);
(-15218987602159792128,10424240177885628416);
(15454796555046604800,10071327140107110400);
(-10071327140107110400,15454796555046604800);
(3806687729614091264,18049695162249803776);
(-18049695162249803776,3806687729614091264);
(17122655427709532160,6862728176524825600);
(-6862728176524825600,17122655427709532160);
(7254864133793359872,16960227395914747904);
(-16960227395914747904,7254864133793359872);
(13193018517922994176,12892890649760409600);
(-12892890649760409600,13193018517922994176);
(212222450800826592,18445523265885263872);
(-18445523265885263872,212222450800826592);
(18446304579790299136,127335268272062896);
(-127335268272062896,18446304579790299136);
(12953467424522805248,13133546687881572352);
(-13133546687881572352,12953467424522805248);
(16993434154213986304,7176737599169419264);
(-7176737599169419264,16993434154213986304);
(6941452702922633216,17090892349260951552);
(-17090892349260951552,6941452702922633216);
(18067022131201814528,3723584057276306432);
(-3723584057276306432,18067022131201814528);
(10142342327602038784,15408285402038427648);
(-15408285402038427648,10142342327602038784);
(15266798032707381248,10354093139887263744);
(-10354093139887263744,15266798032707381248);
(3473806943681435136,18116705888184229888);
(-18116705888184229888,3473806943681435136);
(18344999542491576320,1934776138710185728);
(-1934776138710185728,18344999542491576320);
(11603780249600010240,14339966905119803392);
(-14339966905119803392,11603780249600010240);
(16208162827617198080,8807827466202236928);
(-8807827466202236928,16208162827617198080);
(5232827317111118848,17688976374856577024);
(-17688976374856577024,5232827317111118848);
(17615049420349644800,5476531825852755968);
(-5476531825852755968,17615049420349644800);
(8583228104620967936,16328213687509825536);
(-16328213687509825536,8583228104620967936);
(14178405627061856256,11800643236512114688);
(-11800643236512114688,14178405627061856256);
(1681331910408058368,18369961620209827840);
(-18369961620209827840,1681331910408058368);
(18417837152597243904,1032299153030312832);
(-1032299153030312832,18417837152597243904);
(12293431814070181888,13753323276711909376);
(-13753323276711909376,12293431814070181888);
(16620818995301335040,8001921197210628096);
(-8001921197210628096,16620818995301335040);
(6094481079383742464,17410906561519765504);
(-17410906561519765504,6094481079383742464);
(17862552001949462528,4605605595205659648);
(-4605605595205659648,17862552001949462528);
(9374076702035177472,15887386597716432896);
(-15887386597716432896,9374076702035177472);
(14740357235726454784,11090727455135897600);
(-11090727455135897600,14740357235726454784);
(2580677966675954688,18265335150312783872);
(-18265335150312783872,2580677966675954688);
(18227967221655863296,2832592079205531136);
(-2832592079205531136,18227967221655863296);
(10886174162137440256,14892064297220505600);
(-14892064297220505600,10886174162137440256);
(15756459776013938688,9592514907353194496);
(-9592514907353194496,15756459776013938688);
(4358567215490034688,17924431894735015936);
(-17924431894735015936,4358567215490034688);
(17325110641800097792,6334264611643839488);
(-6334264611643839488,17325110641800097792);
(7771701758900734976,16729704680347400192);
(-16729704680347400192,7771701758900734976);
(13582296997360007168,12482130234717302784);
(-12482130234717302784,13582296997360007168);
(777935378300706688,18430333243545180160);
(-18430333243545180160,777935378300706688);
(18437623933809051648,579991893365822720);
(-579991893365822720,18437623933809051648);
(12627252711731570688,13447485113395968000);
(-13447485113395968000,12627252711731570688);
(16812190092089260032,7591615850949928960);
(-7591615850949928960,16812190092089260032);
(6519930572343624704,17256096669083580416);
(-17256096669083580416,6519930572343624704);
(17970199354646740992,4165849502225480704);
(-4165849502225480704,17970199354646740992);
(9761149390518589440,15652550255371071488);
(-15652550255371071488,9761149390518589440);
(15008097792677611520,10725640659949590528);
(-10725640659949590528,15008097792677611520);
(3028154478692682752,18196500965133707264);
(-18196500965133707264,3028154478692682752);
(18291992588250472448,2384402246335183360);
(-2384402246335183360,18291992588250472448);
(11248365003105931264,14620418998026020864);
(-14620418998026020864,11248365003105931264);
(15987126325366190080,9202942941131484160);
(-9202942941131484160,15987126325366190080);
(4797142075805461504,17812068796899346432);
(-17812068796899346432,4797142075805461504);
(17475343277747542016,5907177350124361728);
(-5907177350124361728,17475343277747542016);
(8179928573313518592,16533938897202550784);
(-16533938897202550784,8179928573313518592);
(13884533073984749568,12145044595980783616);
(-12145044595980783616,13884533073984749568);
(1230004098592470784,18405690881854562304);
(-18405690881854562304,1230004098592470784);
(18386956154972000256,1483984594285168896);
(-1483984594285168896,18386956154972000256);
(11952205812765020160,14050876952355840000);
(-14050876952355840000,11952205812765020160);
(16419436138643095552,8407406485353232384);
(-8407406485353232384,16419436138643095552);
(5665360498908964864,17555228774879023104);
(-17555228774879023104,5665360498908964864);
(17744144915850051584,5042587443589972992);
(-5042587443589972992,17744144915850051584);
(8981357420265764864,16112652972442978304);
(-16112652972442978304,8981357420265764864);
(14463737638753955840,11449133610812243968);
(-11449133610812243968,14463737638753955840);
(2131646950749865472,18323166980582184960);
(-18323166980582184960,2131646950749865472);
(18152962009194522624,3279075664524805632);
(-3279075664524805632,18152962009194522624);
(10517425896913946624,15154739173732497408);
(-15154739173732497408,10517425896913946624);
(15516302124464594944,9976308701281951744);
(-9976308701281951744,15516302124464594944);
(3917366917261322240,18025997985034975232);
(-18025997985034975232,3917366917261322240);
(17164442007029645312,6757536349014672384);
(-6757536349014672384,17164442007029645312);
(7358793561951036416,16915393114956756992);
(-16915393114956756992,7358793561951036416);
(13271879452898850816,12811697104937338880);
(-12811697104937338880,13271879452898850816);
(325398058825931712,18443873861644433408);
(-18443873861644433408,325398058825931712);
(18443353007361138688,353690213041497408);
(-353690213041497408,18443353007361138688);
(12791323231241408512,13291516727403323392);
(-13291516727403323392,12791323231241408512);
(16904084969660782592,7384732781856557056);
(-7384732781856557056,16904084969660782592);
(6731198484499364864,17174787739102103552);
(-17174787739102103552,6731198484499364864);
(18019967613344237568,3945013832036995584);
(-3945013832036995584,18019967613344237568);
(9952495263649589248,15531587328665763840);
(-15531587328665763840,9952495263649589248);
(15138587820513329152,10540660592275226624);
(-10540660592275226624,15138587820513329152);
(3251225522489428480,18157970688456675328);
(-18157970688456675328,3251225522489428480);
(18319875518304653312,2159751817862473728);
(-2159751817862473728,18319875518304653312);
(11426933053396109312,14481283365577166848);
(-14481283365577166848,11426933053396109312);
(16098856790799917056,9006063343673187328);
(-9006063343673187328,16098856790799917056);
(5015362344018819072,17751859268232624128);
(-17751859268232624128,5015362344018819072);
(17546517569550997504,5692283206445072384);
(-5692283206445072384,17546517569550997504);
(8382209503926794240,16432313615350024192);
(-16432313615350024192,8382209503926794240);
(14032525973921296384,11973745517262450688);
(-11973745517262450688,14032525973921296384);
(1455777621877806336,18389210924794415104);
(-18389210924794415104,1455777621877806336);
(18403782424753989632,1258236616560888832);
(-1258236616560888832,18403782424753989632);
(12123731708117925888,13903146995932772352);
(-13903146995932772352,12123731708117925888);
(16521371595868194816,8205281683902028800);
(-8205281683902028800,16521371595868194816);
(5880363569708313600,17484384210174109696);
(-17484384210174109696,5880363569708313600);
(17804689119245039616,4824459792347300864);
(-4824459792347300864,17804689119245039616);
(9178408178405885952,16001224647867125760);
(-16001224647867125760,9178408178405885952);
(14603147027354066944,11270779201919383552);
(-11270779201919383552,14603147027354066944);
(2356339886772734464,18295628692639733760);
(-18295628692639733760,2356339886772734464);
(18191834427100141568,3056063987862910976);
(-3056063987862910976,18191834427100141568);
(10702605916067534848,15024533055183267840);
(-15024533055183267840,10702605916067534848);
(15637558429629286400,9785148608011452416);
(-9785148608011452416,15637558429629286400);
(4138278671148723200,17976568542434732032);
(-17976568542434732032,4138278671148723200);
(17246074922138484736,6546393411713394688);
(-6546393411713394688,17246074922138484736);
(7565817352557901824,16823815700032862208);
(-16823815700032862208,7565817352557901824);
(13428099336313237504,12647866030878191616);
(-12647866030878191616,13428099336313237504);
(551708261180714880,18438491937126621184);
(-18438491937126621184,551708261180714880);
(18429118221911445504,806206229044385024);
(-806206229044385024,18429118221911445504);
(12461280574410033152,13601428357594273792);
(-13601428357594273792,12461280574410033152);
(16717763360529963008,7797355650620306432);
(-7797355650620306432,16717763360529963008);
(6307680782625878016,17334806894379603968);
(-17334806894379603968,6307680782625878016);
(17917724850026022912,4386057810802129408);
(-4386057810802129408,17917724850026022912);
(9568333524193708032,15771155965582526464);
(-15771155965582526464,9568333524193708032);
(14875347600518438912,10909005485592571904);
(-10909005485592571904,14875347600518438912);
(2804627405969872896,18232290915697379328);
(-18232290915697379328,2804627405969872896);
(18261354951395735552,2608693592600115200);
(-2608693592600115200,18261354951395735552);
(11068102990421022720,14757352849151899648);
(-14757352849151899648,11068102990421022720);
(15872988257513134080,9398436609233930240);
(-9398436609233930240,15872988257513134080);
(4578199375640763392,17869595893523193856);
(-17869595893523193856,4578199375640763392);
(17401537263525820416,6121181894623027200);
(-6121181894623027200,17401537263525820416);
(7976415775545243648,16633074228673767424);
(-16633074228673767424,7976415775545243648);
(13734449214438588416,12314514675655948288);
(-12314514675655948288,13734449214438588416);
(1004045341214197632,18419399009569355776);
(-18419399009569355776,1004045341214197632);
(18367360877225613312,1709509089388073984);
(-1709509089388073984,18367360877225613312);
(11778879959180378112,14196490898393071616);
(-14196490898393071616,11778879959180378112);
(16315027974730950656,8608265162312612864);
(-8608265162312612864,16315027974730950656);
(5449504245657314304,17623429586703644672);
(-17623429586703644672,5449504245657314304);
(17680928509498828800,5259955699711733760);
(-5259955699711733760,17680928509498828800);
(8782954102734180352,16221654790748178432);
(-16221654790748178432,8782954102734180352);
(14322150064467257344,11625763822296539136);
(-11625763822296539136,14322150064467257344);
(1906632996537027584,18347945866975264768);
(-18347945866975264768,1906632996537027584);
(18111355821982162944,3501593524453010944);
(-3501593524453010944,18111355821982162944);
(10330661992106418176,15282663044305672192);
(-15282663044305672192,10330661992106418176);
(15392709121273403392,10165966399157782528);
(-10165966399157782528,15392709121273403392);
(3695865222325389312,18072712778643503104);
(-18072712778643503104,3695865222325389312);
(17080224190090328064,6967661626197961728);
(-6967661626197961728,17080224190090328064);
(7150661564101512192,17004423133897244672);
(-17004423133897244672,7150661564101512192);
(13113660873256665088,12973598784537608192);
(-12973598784537608192,13113660873256665088);
(99038852720397472,18446478206600583168);
(-18446478206600583168,99038852720397472);
(18446608427065790464,70742204120744832);
(-70742204120744832,18446608427065790464);
(12993699616421271552,13093744200920995840);
(-13093744200920995840,12993699616421271552);
(17015372100530305024,7124568702836217856);
(-7124568702836217856,17015372100530305024);
(6993854153892433920,17069515839502303232);
(-17069515839502303232,6993854153892433920);
(18078360899246268416,3668137690646597632);
(-3668137690646597632,18078360899246268416);
(10189566549212596224,15377096619976939520);
(-15377096619976939520,10189566549212596224);
(15298492094321573888,10307206535280001024);
(-10307206535280001024,15298492094321573888);
(3529371865636782592,18105963138010361856);
(-18105963138010361856,3529371865636782592);
(18350849016969986048,1878485367872254720);
(-1878485367872254720,18350849016969986048);
(11647720038447788032,14304299522412144640);
(-14304299522412144640,11647720038447788032);
(16235108582758483968,8758060072126718976);
(-8758060072126718976,16235108582758483968);
(5287071705128496128,17672839039208390656);
(-17672839039208390656,5287071705128496128);
(17631768283425470464,5422463842251979776);
(-5422463842251979776,17631768283425470464);
(8633281963924805632,16301803871115280384);
(-16301803871115280384,8633281963924805632);
(14214542764009875456,11757088965006301184);
(-11757088965006301184,14214542764009875456);
(1737682245728070400,18364716914067036160);
(-18364716914067036160,1737682245728070400);
(18420917523916351488,975789166782407552);
(-975789166782407552,18420917523916351488);
(12335568559999148032,13715542833679570944);
(-13715542833679570944,12335568559999148032);
(16645290322815846400,7950891584603048960);
(-7950891584603048960,16645290322815846400);
(6147868306130031616,17392127018033772544);
(-17392127018033772544,6147868306130031616);
(17876597736211652608,4550782383130499584);
(-4550782383130499584,17876597736211652608);
(9422774401003489280,15858552566635196416);
(-15858552566635196416,9422774401003489280);
(14774313737100584960,11045452481390673920);
(-11045452481390673920,14774313737100584960);
(2636703080016263168,18257331781746509824);
(-18257331781746509824,2636703080016263168);
(18236571707397199872,2776656133175011840);
(-2776656133175011840,18236571707397199872);
(10931811139104026624,14858595900686565376);
(-14858595900686565376,10931811139104026624);
(15785815044097693696,9544129625821173760);
(-9544129625821173760,15785815044097693696);
(4413538085296518656,17910975643179675648);
(-17910975643179675648,4413538085296518656);
(17344462356484012032,6281082111025737728);
(-6281082111025737728,17344462356484012032);
(7822991194408836096,16705782702200465408);
(-16705782702200465408,7822991194408836096);
(13620527712353767424,12440401591505860608);
(-12440401591505860608,13620527712353767424);
(834475182706930048,18427859834782353408);
(-18427859834782353408,834475182706930048);
(18439316552891574272,523423330772775488);
(-523423330772775488,18439316552891574272);
(12668449588374306816,13408681961615665152);
(-13408681961615665152,12668449588374306816);
(16835401719913005056,7540001051066815488);
(-7540001051066815488,16835401719913005056);
(6572840846787109888,17236012593513191424);
(-17236012593513191424,6572840846787109888);
(17982895429620475904,4110698102302510592);
(-4110698102302510592,17982895429620475904);
(9809124800104433664,15622529807201988608);
(-15622529807201988608,9809124800104433664);
(15040932963511334912,10679545987919927296);
(-10679545987919927296,15040932963511334912);
(3083966305819372032,18187125081922906112);
(-18187125081922906112,3083966305819372032);
(18299221745647394816,2328271982514918400);
(-2328271982514918400,18299221745647394816);
(11293166879500658688,14585840694066550784);
(-14585840694066550784,11293166879500658688);
(16015285317940807680,9153851817999244288);
(-9153851817999244288,16015285317940807680);
(4851766156469225472,17797267545437370368);
(-17797267545437370368,4851766156469225472);
(17493384000155707392,5853535952228766720);
(-5853535952228766720,17493384000155707392);
(8230615486670138368,16508765418150569984);
(-16508765418150569984,8230615486670138368);
(13921728202432921600,12102390291943254016);
(-12102390291943254016,13921728202432921600);
(1286466173777007616,18401830661775638528);
(-18401830661775638528,1286466173777007616);
(18391422423027195904,1427567223885076992);
(-1427567223885076992,18391422423027195904);
(11995257046380062720,14014141975597647872);
(-14014141975597647872,11995257046380062720);
(16445152425235718144,8356992798351703040);
(-8356992798351703040,16445152425235718144);
(5719192519488942080,17537765075572205568);
(-17537765075572205568,5719192519488942080);
(17759531848775577600,4988125442815603712);
(-4988125442815603712,17759531848775577600);
(9030748074943610880,16085022726991738880);
(-16085022726991738880,9030748074943610880);
(14498795016541779968,11404705607302701056);
(-11404705607302701056,14498795016541779968);
(2187851602870430976,18316540947590397952);
(-18316540947590397952,2187851602870430976);
(18162936640259807232,3223367730006341120);
(-3223367730006341120,18162936640259807232);
(10563870484443947008,15122400844734691328);
(-15122400844734691328,10563870484443947008);
(15546835985541658624,9928658406834501632);
(-9928658406834501632,15546835985541658624);
(3972651463814048768,18013894838929047552);
(-18013894838929047552,3972651463814048768);
(17185093057239990272,6704844780823814144);
(-6704844780823814144,17185093057239990272);
(7410654624772504576,16892737047420004352);
(-16892737047420004352,7410654624772504576);
(13311122725685026816,12770919258326321152);
(-12770919258326321152,13311122725685026816);
(381981534989826752,18442788754086658048);
(-18442788754086658048,381981534989826752);
(18444351315710926848,297105138917301312);
(-297105138917301312,18444351315710926848);
(12832040831472420864,13252210948380010496);
(-13252210948380010496,12832040831472420864);
(16926661456698767360,7332837026093433856);
(-7332837026093433856,16926661456698767360);
(6783858312394199040,17154055885367128064);
(-17154055885367128064,6783858312394199040);
(18031985939811211264,3889710784542889984);
(-3889710784542889984,18031985939811211264);
(10000098663696263168,15500980408905711616);
(-15500980408905711616,10000098663696263168);
(15170854866386497536,10494166453033588736);
(-10494166453033588736,15170854866386497536);
(3306918090578397696,18147910614259257344);
(-18147910614259257344,3306918090578397696);
(18326415326677862400,2103537067666073088);
(-2103537067666073088,18326415326677862400);
(11471307227311048704,14446157877358940160);
(-14446157877358940160,11471307227311048704);
(16126411239457175552,8956630362856767488);
(-8956630362856767488,16126411239457175552);
(5069800677465777152,17736388809780473856);
(-17736388809780473856,5069800677465777152);
(17563898671057971200,5638424460232351744);
(-5638424460232351744,17563898671057971200);
(8432583683340087296,16406520025416876032);
(-16406520025416876032,8432583683340087296);
(14069194867719653376,11930637983572772864);
(-11930637983572772864,14069194867719653376);
(1512188074733433856,18384658118865643520);
(-18384658118865643520,1512188074733433856);
(18407556028586569728,1201768686305594880);
(-1201768686305594880,18407556028586569728);
(12166328905380542464,13865886480389212160);
(-13865886480389212160,12166328905380542464);
(16546467292581568512,8154556214562925568);
(-8154556214562925568,16546467292581568512);
(5933977230381493248,17466261224150188032);
(-17466261224150188032,5933977230381493248);
(17819406561035196416,4769813071124931584);
(-4769813071124931584,17819406561035196416);
(9227456048443371520,15972990383612715008);
(-15972990383612715008,9227456048443371520);
(14637656565439795200,11225924335803076608);
(-11225924335803076608,14637656565439795200);
(2412458995168822272,18288313441035712512);
(-18288313441035712512,2412458995168822272);
(18201124685042788352,3000237843982457344);
(-3000237843982457344,18201124685042788352);
(10748650165363118080,14991627214668122112);
(-14991627214668122112,10748650165363118080);
(15667505249150130176,9737127204098322432);
(-9737127204098322432,15667505249150130176);
(4193410530655953920,17963787881243815936);
(-17963787881243815936,4193410530655953920);
(17266077810766340096,6493452390947417088);
(-6493452390947417088,17266077810766340096);
(7617396485536537600,16800524923438376960);
(-16800524923438376960,7617396485536537600);
(13466839247247249408,12606609679439575040);
(-12606609679439575040,13466839247247249408);
(608274160773980544,18436712544981362688);
(-18436712544981362688,608274160773980544);
(18431504896824492032,749662696999937536);
(-749662696999937536,18431504896824492032);
(12502950523366404096,13563133676668907520);
(-13563133676668907520,12502950523366404096);
(16741606633553698816,7746029579616208896);
(-7746029579616208896,16741606633553698816);
(6360833535525303296,17315373621561710592);
(-17315373621561710592,6360833535525303296);
(17931096761524328448,4331066364048261120);
(-4331066364048261120,17931096761524328448);
(9616673718398504960,15741726509973483520);
(-15741726509973483520,9616673718398504960);
(14908745951456765952,10863317222462941184);
(-10863317222462941184,14908745951456765952);
(2860550087078409216,18223600635446722560);
(-18223600635446722560,2860550087078409216);
(18269272369131862016,2552656268167254528);
(-2552656268167254528,18269272369131862016);
(11113325822297749504,14723326936816574464);
(-14723326936816574464,11113325822297749504);
(15901747553364406272,9349694736728444928);
(-9349694736728444928,15901747553364406272);
(4633000977335706624,17855466078065418240);
(-17855466078065418240,4633000977335706624);
(17420234889968744448,6067765923241774080);
(-6067765923241774080,17420234889968744448);
(8027407789582479360,16608524651536300032);
(-16608524651536300032,8027407789582479360);
(13772164976087042048,12272320024851857408);
(-12272320024851857408,13772164976087042048);
(1060550535746804736,18416231956675221504);
(-18416231956675221504,1060550535746804736);
(18372519136899880960,1653150775091646976);
(-1653150775091646976,18372519136899880960);
(11822378745790420992,14160286992572622848);
(-14160286992572622848,11822378745790420992);
(16341360978424651776,8558170849764485120);
(-8558170849764485120,16341360978424651776);
(5503546519239800832,17606627804082812928);
(-17606627804082812928,5503546519239800832);
(17696982616344225792,5205686621162355712);
(-5205686621162355712,17696982616344225792);
(8832680104001464320,16194632725113440256);
(-16194632725113440256,8832680104001464320);
(14357750002445035520,11581769372087672832);
(-11581769372087672832,14357750002445035520);
(1962914728168197888,18342010050451908608);
(-18342010050451908608,1962914728168197888);
(18122013324027334656,3446012188706564608);
(-3446012188706564608,18122013324027334656);
(10377499923486787584,15250897096858603520);
(-15250897096858603520,10377499923486787584);
(15423825425619519488,10118694390135087104);
(-10118694390135087104,15423825425619519488);
(3751294130274253312,18061288970311847936);
(-18061288970311847936,3751294130274253312);
(17101520291910961152,6915227445738577920);
(-6915227445738577920,17101520291910961152);
(7202796746680509440,16982405187338663936);
(-16982405187338663936,7202796746680509440);
(13153401598002470912,12933305583747895296);
(-12933305583747895296,13153401598002470912);
(155631384191541984,18446087547043493888);
(-18446087547043493888,155631384191541984);
(18445827108870871040,183927133895340640);
(-183927133895340640,18445827108870871040);
(12913113309655640064,13173225556898842624);
(-13173225556898842624,12913113309655640064);
(16971336259223498752,7228838945315093504);
(-7228838945315093504,16971336259223498752);
(6888985916356357120,17112107993031782400);
(-17112107993031782400,6888985916356357120);
(18055513309464281088,3778995376114750464);
(-3778995376114750464,18055513309464281088);
(10095022642402807808,15439329155449503744);
(-15439329155449503744,10095022642402807808);
(15234960274175778816,10400882287826563072);
(-10400882287826563072,15234960274175778816);
(3418209324932142080,18127278117022572544);
(-18127278117022572544,3418209324932142080);
(18338977397890824192,1991048698698244352);
(-1991048698698244352,18338977397890824192);
(11559731241553248256,14375499314597607424);
(-14375499314597607424,11559731241553248256);
(16181064515074539520,8857511957651203072);
(-8857511957651203072,16181064515074539520);
(5178533675730122752,17704947215122317312);
(-17704947215122317312,5178533675730122752);
(17598164757720023040,5530548262250263552);
(-5530548262250263552,17598164757720023040);
(8533093456705306624,16354469816538583040);
(-16354469816538583040,8533093456705306624);
(14142135037560264704,11844086435869540352);
(-11844086435869540352,14142135037560264704);
(1624965749751773952,18375033421277689856);
(-18375033421277689856,1624965749751773952);
(18414583425580466176,1088799422885441024);
(-1088799422885441024,18414583425580466176);
(12251179357679056896,13790974268227645440);
(-13790974268227645440,12251179357679056896);
(16596191226308440064,8052875492688385024);
(-8052875492688385024,16596191226308440064);
(6041036489060464640,17429522226922299392);
(-17429522226922299392,6041036489060464640);
(17848338138544920576,4660385457566923776);
(-4660385457566923776,17848338138544920576);
(9325290770686851072,15916071090664337408);
(-15916071090664337408,9325290770686851072);
(14706261992496191488,11135898038730436608);
(-11135898038730436608,14706261992496191488);
(2524628563011778560,18273166598588311552);
(-18273166598588311552,2524628563011778560);
(18219191167344955392,2888501363800614400);
(-2888501363800614400,18219191167344955392);
(10840434720353662976,14925392523973675008);
(-14925392523973675008,10840434720353662976);
(15726956202129960960,9640809900481619968);
(-9640809900481619968,15726956202129960960);
(4303555321188967936,17937719434710884352);
(-17937719434710884352,4303555321188967936);
(17305595856576593920,6387387491751026688);
(-6387387491751026688,17305595856576593920);
(7720339173175844864,16753469192142413824);
(-16753469192142413824,7720339173175844864);
(13543938440614121472,12523741391365185536);
(-12523741391365185536,13543938440614121472);
(721388251670427904,18432633178992369664);
(-18432633178992369664,721388251670427904);
(18435757772788140032,636554996854281088);
(-636554996854281088,18435757772788140032);
(12585936982577252352,13486161692324939776);
(-13486161692324939776,12585936982577252352);
(16788820221529483264,7643159195653404672);
(-7643159195653404672,16788820221529483264);
(6466958929830491136,17276018323700172800);
(-17276018323700172800,6466958929830491136);
(17957334137312774144,4220961691586381312);
(-4220961691586381312,17957334137312774144);
(9713082105277171712,15682423375775913984);
(-15682423375775913984,9713082105277171712);
(14975121359911663616,10771634378164527104);
(-10771634378164527104,14975121359911663616);
(2972314149422774272,18205705575947327488);
(-18205705575947327488,2972314149422774272);
(18284591259652845568,2440510067253411328);
(-2440510067253411328,18284591259652845568);
(11203457252815878144,14654859689033728000);
(-14654859689033728000,11203457252815878144);
(15958816855869937664,9251947442659842048);
(-9251947442659842048,15958816855869937664);
(4742472842613499904,17826702394386122752);
(-17826702394386122752,4742472842613499904);
(17457138070753001472,5960763147417001984);
(-5960763147417001984,17457138070753001472);
(8129164667353860096,16558956752524722176);
(-16558956752524722176,8129164667353860096);
(13847207259023394816,12187584586233165824);
(-12187584586233165824,13847207259023394816);
(1173530446140913664,18409377860561143808);
(-18409377860561143808,1173530446140913664);
(18382316821882847232,1540387996857087488);
(-1540387996857087488,18382316821882847232);
(11909042080436897792,14087479676908914688);
(-14087479676908914688,11909042080436897792);
(16393565306064230400,8457741038642979840);
(-8457741038642979840,16393565306064230400);
(5611475153798332416,17572527237686743040);
(-17572527237686743040,5611475153798332416);
(17728590968274759680,5097001981610864640);
(-5097001981610864640,17728590968274759680);
(8931882229631349760,16140131559467976704);
(-16140131559467976704,8931882229631349760);
(14428544122758995968,11493453850715863040);
(-11493453850715863040,14428544122758995968);
(2075422234756366848,18329620548948015104);
(-18329620548948015104,2075422234756366848);
(18142816515537295360,3334752735134286848);
(-3334752735134286848,18142816515537295360);
(10470882315365869568,15186934860553551872);
(-15186934860553551872,10470882315365869568);
(15485622218042589184,10023865094912450560);
(-10023865094912450560,15485622218042589184);
(3862045498959250432,18037931463582709760);
(-18037931463582709760,3862045498959250432);
(17143629398554093568,6810164312699822080);
(-6810164312699822080,17143629398554093568);
(7306863235361984512,16937889968371320832);
(-16937889968371320832,7306863235361984512);
(13232511260128698368,12852354362975901696);
(-12852354362975901696,13232511260128698368);
(268811519891579872,18444785368437118976);
(-18444785368437118976,268811519891579872);
(18442181103148736512,410271958098706304);
(-410271958098706304,18442181103148736512);
(12750485234204596224,13330697401609152512);
(-13330697401609152512,12750485234204596224);
(16881349374937182208,7436559029702279168);
(-7436559029702279168,16881349374937182208);
(6678475300000832512,17195357937193900032);
(-17195357937193900032,6678475300000832512);
(18007779676079226880,4000279747558464512);
(-4000279747558464512,18007779676079226880);
(9904798186927110144,15562048059210713088);
(-15562048059210713088,9904798186927110144);
(15106178284486098944,10587055518804985856);
(-10587055518804985856,15106178284486098944);
(3195502352627620352,18167859852918554624);
(-18167859852918554624,3195502352627620352);
(18313163276285984768,2215946239652228352);
(-2215946239652228352,18313163276285984768);
(11382451324835350528,14516272550441193472);
(-14516272550441193472,11382451324835350528);
(16071150813571332096,9055411555991478272);
(-9055411555991478272,16071150813571332096);
(4960876804071388160,17767162639424587776);
(-17767162639424587776,4960876804071388160);
(17528971313538109440,5746088374720362496);
(-5746088374720362496,17528971313538109440);
(8331756427965304832,16457952538089216000);
(-16457952538089216000,8331756427965304832);
(13995725000644216832,12016740349499148288);
(-12016740349499148288,13995725000644216832);
(1399353466688772352,18393590644466472960);
(-18393590644466472960,1399353466688772352);
(18399835597512192000,1314692703813951488);
(-1314692703813951488,18399835597512192000);
(12081020397675177984,13940276649761822720);
(-13940276649761822720,12081020397675177984);
(16496120393713231872,8255929922004961280);
(-8255929922004961280,16496120393713231872);
(5826694560813694976,17502342626514960384);
(-17502342626514960384,5826694560813694976);
(17789804092940017664,4879061103916721152);
(-4879061103916721152,17789804092940017664);
(9129273917695048704,16029308302501120000);
(-16029308302501120000,9129273917695048704);
(14568500038886944768,11315527983169390592);
(-11315527983169390592,14568500038886944768);
(2300198599608225536,18302771738818654208);
(-18302771738818654208,2300198599608225536);
(18182372940683546624,3111861366905216000);
(-3111861366905216000,18182372940683546624);
(10656460929769007104,15057297479071240192);
(-15057297479071240192,10656460929769007104);
(15607464423452977152,9833077910379235328);
(-9833077910379235328,15607464423452977152);
(4083107860586586112,17989180001316194304);
(-17989180001316194304,4083107860586586112);
(17225909706885335040,6599272815331402752);
(-6599272815331402752,17225909706885335040);
(7514167007224920064,16846948124466667520);
(-16846948124466667520,7514167007224920064);
(13389233034994208768,12689003335784816640);
(-12689003335784816640,13389233034994208768);
(495137168699178112,18440097779163510784);
(-18440097779163510784,495137168699178112);
(18426558085119008768,862742172768763008);
(-862742172768763008,18426558085119008768);
(12419493335135045632,13639595016695863296);
(-13639595016695863296,12419493335135045632);
(16693762733550555136,7848608329943414784);
(-7848608329943414784,16693762733550555136);
(6254468659432660992,17354077005393086464);
(-17354077005393086464,6254468659432660992);
(17904184290077507584,4441007974309462528);
(-4441007974309462528,17904184290077507584);
(9519903269189703680,15800436977065211904);
(-15800436977065211904,9519903269189703680);
(14841809237143252992,10954591069007900672);
(-10954591069007900672,14841809237143252992);
(2748678326640055808,18240809586682212352);
(-18240809586682212352,2748678326640055808);
(18253265650832013312,2664706363015368192);
(-2664706363015368192,18253265650832013312);
(11022775981343688704,14791239859661905920);
(-14791239859661905920,11022775981343688704);
(15844079559051194368,9447090020074678272);
(-9447090020074678272,15844079559051194368);
(4523354682189700096,17883557513538826240);
(-17883557513538826240,4523354682189700096);
(17382675847186837504,6174540251109050368);
(-6174540251109050368,17382675847186837504);
(7925348684444930048,16657467248981925888);
(-16657467248981925888,7925348684444930048);
(13696604178923397120,12356593417557956608);
(-12356593417557956608,13696604178923397120);
(947530696224450560,18422392692065026048);
(-18422392692065026048,947530696224450560);
(18362029736955600896,1765851313133889024);
(-1765851313133889024,18362029736955600896);
(11735270305266200576,14232561181434484736);
(-14232561181434484736,11735270305266200576);
(16288541407780409344,8658278450590595072);
(-8658278450590595072,16288541407780409344);
(5395410679265436672,17640065490893363200);
(-17640065490893363200,5395410679265436672);
(17664707983020562432,5314175269554825216);
(-5314175269554825216,17664707983020562432);
(8733145432957913088,16248524171990046720);
(-16248524171990046720,8733145432957913088);
(14286415320958515200,11669648846388664320);
(-11669648846388664320,14286415320958515200);
(1850333318949957120,18353708985644349440);
(-18353708985644349440,1850333318949957120);
(18100527848958328832,3557141901867631104);
(-3557141901867631104,18100527848958328832);
(10283726824600971264,15314285145507801088);
(-15314285145507801088,10283726824600971264);
(15361447934886758400,10213142722233044992);
(-10213142722233044992,15361447934886758400);
(3640401527485491200,18083966479719534592);
(-18083966479719534592,3640401527485491200);
(17058767322694656000,7020030224372502528);
(-7020030224372502528,17058767322694656000);
(7098459076772559872,17026281028349194240);
(-17026281028349194240,7098459076772559872);
(13073796717740412928,13013769872874596352);
(-13013769872874596352,13073796717740412928);
(42445389057852464,18446695240879495168);
(-18446695240879495168,42445389057852464);
(18446742717241468928,7074237578628774);
(-7074237578628774,18446742717241468928);
(13038814624801429504,13048819107528574976);
(-13048819107528574976,13038814624801429504);
(17039860844443074560,7065798562296705024);
(-7065798562296705024,17039860844443074560);
(7052727075682670592,17045275231478986752);
(-17045275231478986752,7052727075682670592);
(18090913613168689152,3605719284942501376);
(-3605719284942501376,18090913613168689152);
(10242579136293654528,15341836251169558528);
(-15341836251169558528,10242579136293654528);
(15333975779529568256,10254343163447330816);
(-10254343163447330816,15333975779529568256);
(3591842668768112640,18093673843743156224);
(-18093673843743156224,3591842668768112640);
(18357223212512819200,1815137142730258944);
(-1815137142730258944,18357223212512819200);
(11697021234914772992,14264012799731054592);
(-14264012799731054592,11697021234914772992);
(16265239887788308480,8701973242526010368);
(-8701973242526010368,16265239887788308480);
(5348037132787001344,17654485711775064064);
(-17654485711775064064,5348037132787001344);
(17650378626230394880,5361576379354086400);
(-5361576379354086400,17650378626230394880);
(8689495401426719744,16271909432808503296);
(-16271909432808503296,8689495401426719744);
(14255037102110134272,11707958154110476288);
(-11707958154110476288,14255037102110134272);
(1801056796348055040,18358610005587759104);
(-18358610005587759104,1801056796348055040);
(18424175691381010432,912204480400924672);
(-912204480400924672,18424175691381010432);
(12382833595227615232,13672885543068104704);
(-13672885543068104704,12382833595227615232);
(16672633283080261632,7893393840982643712);
(-7893393840982643712,16672633283080261632);
(6207859743167628288,17370804366237540352);
(-17370804366237540352,6207859743167628288);
(17892198055843534848,4489055095608348160);
(-4489055095608348160,17892198055843534848);
(9477453276395036672,15825935874844413952);
(-15825935874844413952,9477453276395036672);
(14812348563368681472,10994393887714240512);
(-10994393887714240512,14812348563368681472);
(2699701641418139648,18248122587495477248);
(-18248122587495477248,2699701641418139648);
(18246046575022833664,2713696980695519232);
(-2713696980695519232,18246046575022833664);
(10983029725908965376,14820776800179486720);
(-14820776800179486720,10983029725908965376);
(15818662104939919360,9489588828325296128);
(-9489588828325296128,15818662104939919360);
(4475330632520761344,17895635854882603008);
(-17895635854882603008,4475330632520761344);
(17366037888516087808,6221181155983333376);
(-6221181155983333376,17366037888516087808);
(7880603770926459904,16678682535698020352);
(-16678682535698020352,7880603770926459904);
(13663384007878819840,12393316923817441280);
(-12393316923817441280,13663384007878819840);
(898073047701624064,18424869924152256512);
(-18424869924152256512,898073047701624064);
(18441013292738062336,459777835477722304);
(-459777835477722304,18441013292738062336);
(12714653525940776960,13364877576551917568);
(-13364877576551917568,12714653525940776960);
(16861325379723259904,7481849594855456768);
(-7481849594855456768,16861325379723259904);
(6632290931455037440,17213224100135272448);
(-17213224100135272448,6632290931455037440);
(17996976187258572800,4048606554876178432);
(-4048606554876178432,17996976187258572800);
(9862986753554102272,15588581052172605440);
(-15588581052172605440,9862986753554102272);
(15077703293785393152,10627569350774032384);
(-10627569350774032384,15077703293785393152);
(3146719888291762176,18176372599217027072);
(-18176372599217027072,3146719888291762176);
(18307148664671436800,2265099267263430400);
(-2265099267263430400,18307148664671436800);
(11343441913036769280,14546776016922073088);
(-14546776016922073088,11343441913036769280);
(16046783987687254016,9098521339945431040);
(-9098521339945431040,16046783987687254016);
(4913163635683438592,17780415912175292416);
(-17780415912175292416,4913163635683438592);
(17513482991014481920,5793123548171998208);
(-5793123548171998208,17513482991014481920);
(8287545639977705472,16480259530305492992);
(-16480259530305492992,8287545639977705472);
(13963416074853343232,12054268059134312448);
(-12054268059134312448,13963416074853343232);
(1349971508203767552,18397280881912317952);
(-18397280881912317952,1349971508203767552);
(18396240055511775232,1364081647454656000);
(-1364081647454656000,18396240055511775232);
(12043554708580661248,13972657474595270656);
(-13972657474595270656,12043554708580661248);
(16473898215577452544,8300183401813028864);
(-8300183401813028864,16473898215577452544);
(5779689172297761792,17517921109325799424);
(-17517921109325799424,5779689172297761792);
(17776642333352036352,4926799597407504384);
(-4926799597407504384,17776642333352036352);
(9086210935767076864,16053757745515075584);
(-16053757745515075584,9086210935767076864);
(14538071428046782464,11354595812883357696);
(-11354595812883357696,14538071428046782464);
(2251057195224073984,18308880589068474368);
(-18308880589068474368,2251057195224073984);
(18173953749181063168,3160660064538103296);
(-3160660064538103296,18173953749181063168);
(10616001772356206592,15085850101677012992);
(-15085850101677012992,10616001772356206592);
(15581011651638441984,9874940143233558528);
(-9874940143233558528,15581011651638441984);
(4034801857528444928,18000076135711856640);
(-18000076135711856640,4034801857528444928);
(17208132134151634944,6645491356891251712);
(-6645491356891251712,17208132134151634944);
(7468914920838363136,16867058926387152896);
(-16867058926387152896,7468914920838363136);
(13355121629284782080,12724900517801631744);
(-12724900517801631744,13355121629284782080);
(445633621576659328,18441360513700147200);
(-18441360513700147200,445633621576659328);
(18445266899663798272,233443614403003552);
(-233443614403003552,18445266899663798272);
(12877703742778976256,13207842868317097984);
(-13207842868317097984,12877703742778976256);
(16951869556683847680,7274371825395911680);
(-7274371825395911680,16951869556683847680);
(6843024270711128064,17130539563930755072);
(-17130539563930755072,6843024270711128064);
(18045303678392692736,3827451119939435520);
(-3827451119939435520,18045303678392692736);
(10053539957992802304,15466373241131243520);
(-15466373241131243520,10053539957992802304);
(15206984594629613568,10441742501117143040);
(-10441742501117143040,15206984594629613568);
(3369534998318248448,18136388858205673472);
(-18136388858205673472,3369534998318248448);
(18333566422425657344,2040271833713568512);
(-2040271833713568512,18333566422425657344);
(11521099091548397568,14406479189713950720);
(-14406479189713950720,11521099091548397568);
(16157228547331917824,8900917513954447360);
(-8900917513954447360,16157228547331917824);
(5130986738099972096,17718785003898564608);
(-17718785003898564608,5130986738099972096);
(17583254795370383360,5577769959582673920);
(-5577769959582673920,17583254795370383360);
(8489159738817754112,16377317663456800768);
(-16377317663456800768,8489159738817754112);
(14110289067297644544,11882007799957002240);
(-11882007799957002240,14110289067297644544);
(1575632794527522816,18379329373449615360);
(-18379329373449615360,1575632794527522816);
(18411594232630525952,1138228770460838784);
(-1138228770460838784,18411594232630525952);
(12214113852213688320,13823812416482660352);
(-13823812416482660352,12214113852213688320);
(16574513779733544960,8097398340600597504);
(-8097398340600597504,16574513779733544960);
(5994225811912084480,17445676365126844416);
(-17445676365126844416,5994225811912084480);
(17835763194763804672,4708281871473637376);
(-4708281871473637376,17835763194763804672);
(9282531063598229504,15941047141711626240);
(-15941047141711626240,9282531063598229504);
(14676315095242539008,11175336332571582464);
(-11175336332571582464,14676315095242539008);
(2475565823874721280,18279878029478258688);
(-18279878029478258688,2475565823874721280);
(18211371444878403584,2937399703412175360);
(-2937399703412175360,18211371444878403584);
(10800328994042470400,14954439492718675968);
(-14954439492718675968,10800328994042470400);
(15701019136153688064,9682993597388883968);
(-9682993597388883968,15701019136153688064);
(4255386667814418432,17949207537613625344);
(-17949207537613625344,4255386667814418432);
(17288386795063689216,6433820711304127488);
(-6433820711304127488,17288386795063689216);
(7675337284663891968,16774133792467101696);
(-16774133792467101696,7675337284663891968);
(13510270117074276352,12560054469811357696);
(-12560054469811357696,13510270117074276352);
(671903927769174272,18434503303121211392);
(-18434503303121211392,671903927769174272);
(18433982537041817600,686042815701613952);
(-686042815701613952,18433982537041817600);
(12549688529049741312,13519899583383590912);
(-13519899583383590912,12549688529049741312);
(16768241949181313024,7688200625286421504);
(-7688200625286421504,16768241949181313024);
(6420558793580153856,17293316388105521152);
(-17293316388105521152,6420558793580153856);
(17945938417708732416,4269152284557702144);
(-4269152284557702144,17945938417708732416);
(9670948219589232640,15708441280246818816);
(-15708441280246818816,9670948219589232640);
(14946151346285279232,10811795727577968640);
(-10811795727577968640,14946151346285279232);
(2923430893824644096,18213619045372891136);
(-18213619045372891136,2923430893824644096);
(18277973917667299328,2489585585195332096);
(-2489585585195332096,18277973917667299328);
(11164076453897494528,14684882153169293312);
(-14684882153169293312,11164076453897494528);
(15933922841398757376,9294754962089611264);
(-9294754962089611264,15933922841398757376);
(4694600628895407104,17839369155217158144);
(-17839369155217158144,4694600628895407104);
(17441073720539785216,6007604713663751168);
(-6007604713663751168,17441073720539785216);
(8084683467248265216,16580719530688075776);
(-16580719530688075776,8084683467248265216);
(13814440243309649920,12224712989881001984);
(-12224712989881001984,13814440243309649920);
(1124106921136462336,18412461827544723456);
(-18412461827544723456,1124106921136462336);
(18378115472307351552,1589729098769853184);
(-1589729098769853184,18378115472307351552);
(11871181849908195328,14119398301887680512);
(-14119398301887680512,11871181849908195328);
(16370801742945853440,8501718485935621120);
(-8501718485935621120,16370801742945853440);
(5564282132753458176,17587527719041669120);
(-17587527719041669120,5564282132753458176);
(17714844374992492544,5144575365444195328);
(-5144575365444195328,17714844374992492544);
(8888522457990707200,16164050712452411392);
(-16164050712452411392,8888522457990707200);
(14397638380769191936,11532145332831197184);
(-11532145332831197184,14397638380769191936);
(2026209565639864832,18335125898587332608);
(-18335125898587332608,2026209565639864832);
(18133799122898153472,3383444441884132864);
(-3383444441884132864,18133799122898153472);
(10430075819851747328,15214988837100156928);
(-15214988837100156928,10430075819851747328);
(15458657724079923200,10065399559415543808);
(-10065399559415543808,15458657724079923200);
(3813609420923895296,18048233988553533440);
(-18048233988553533440,3813609420923895296);
(17125285991836665856,6856161215924065280);
(-6856161215924065280,17125285991836665856);
(7261367765898584064,16957443943274807296);
(-16957443943274807296,7261367765898584064);
(13197961909301915648,12887830242579787776);
(-12887830242579787776,13197961909301915648);
(219296204599904224,18445440523218374656);
(-18445440523218374656,219296204599904224);
(18446352055817123840,120261189873729584);
(-120261189873729584,18446352055817123840);
(12958503123949422592,13128578129695977472);
(-13128578129695977472,12958503123949422592);
(16996185148945750016,7170220171214718976);
(-7170220171214718976,16996185148945750016);
(6948006467455134720,17088229078788126720);
(-17088229078788126720,6948006467455134720);
(18068448779222796288,3716655167424164352);
(-3716655167424164352,18068448779222796288);
(10148250585092585472,15404394729527883776);
(-15404394729527883776,10148250585092585472);
(15270767654965159936,10348237634931290112);
(-10348237634931290112,15270767654965159936);
(3480754357760300032,18115372367739811840);
(-18115372367739811840,3480754357760300032);
(18345740170843428864,1927740777397266432);
(-1927740777397266432,18345740170843428864);
(11609278704622405632,14335515856757272576);
(-14335515856757272576,11609278704622405632);
(16211539395207827456,8801611066081202176);
(-8801611066081202176,16211539395207827456);
(5239610569631739904,17686968310016892928);
(-17686968310016892928,5239610569631739904);
(17617148348639426560,5469776136458383360);
(-5469776136458383360,17617148348639426560);
(8589489264830247936,16324920860154402816);
(-16324920860154402816,8589489264830247936);
(14182930074354425856,11795205018434873344);
(-11795205018434873344,14182930074354425856);
(1688376578649744896,18369315486691534848);
(-18369315486691534848,1688376578649744896);
(18418231680012132352,1025235925207440896);
(-1025235925207440896,18418231680012132352);
(12298705243371231232,13748607793431721984);
(-13748607793431721984,12298705243371231232);
(16623886471371798528,7995546604696903680);
(-7995546604696903680,16623886471371798528);
(6101157630108049408,17408568077056561152);
(-17408568077056561152,6101157630108049408);
(17864316916021137408,4598755053805266944);
(-4598755053805266944,17864316916021137408);
(9380168749022486528,15883790516145709056);
(-15883790516145709056,9380168749022486528);
(14744609392410578944,11085073783524231168);
(-11085073783524231168,14744609392410578944);
(2587682445037176320,18264344129603584000);
(-18264344129603584000,2587682445037176320);
(18229052166706106368,2825601533204191744);
(-2825601533204191744,18229052166706106368);
(10891884396621424640,14887888406741004288);
(-14887888406741004288,10891884396621424640);
(15760137300677656576,9586471675477233664);
(-9586471675477233664,15760137300677656576);
(4365440828357505536,17922759087122935808);
(-17922759087122935808,4365440828357505536);
(17327538527805892608,6327620049302966272);
(-6327620049302966272,17327538527805892608);
(7778116948648629248,16726723039916795904);
(-16726723039916795904,7778116948648629248);
(13587082835471200256,12476920571318163456);
(-12476920571318163456,13587082835471200256);
(785003265200023808,18430033553810034688);
(-18430033553810034688,785003265200023808);
(18437845002111547392,572921110667668288);
(-572921110667668288,18437845002111547392);
(12632408829021532160,13442641633897607168);
(-13442641633897607168,12632408829021532160);
(16815100203961659392,7585167898713055232);
(-7585167898713055232,16815100203961659392);
(6526547722934070272,17253595038171105280);
(-17253595038171105280,6526547722934070272);
(17971795616457281536,4158957710920522240);
(-4158957710920522240,17971795616457281536);
(9767151350435631104,15648805750555596800);
(-15648805750555596800,9767151350435631104);
(15012209920644624384,10719884337969211392);
(-10719884337969211392,15012209920644624384);
(3035132526570283520,18195338344397268992);
(-18195338344397268992,3035132526570283520);
(18292905649948631040,2377387179871190016);
(-2377387179871190016,18292905649948631040);
(11253971036291504128,14616104229077266432);
(-14616104229077266432,11253971036291504128);
(15990654434093750272,9196811278390807552);
(-9196811278390807552,15990654434093750272);
(4803972565715363840,17810227806201485312);
(-17810227806201485312,4803972565715363840);
(17477607366796621824,5900475205696141312);
(-5900475205696141312,17477607366796621824);
(8186268657807019008,16530800718148679680);
(-16530800718148679680,8186268657807019008);
(13889189619150974976,12139719051288098816);
(-12139719051288098816,13889189619150974976);
(1237062502022120192,18405217827752792064);
(-18405217827752792064,1237062502022120192);
(18387523903850717184,1476933175961908992);
(-1476933175961908992,18387523903850717184);
(11957593377560530944,14046292305724631040);
(-14046292305724631040,11957593377560530944);
(16422659131178735616,8401109092378825728);
(-8401109092378825728,16422659131178735616);
(5672092428062628864,17553054845480687616);
(-17553054845480687616,5672092428062628864);
(17746077419064616960,5035782278604127232);
(-5035782278604127232,17746077419064616960);
(8987535884702033920,16109207480262078464);
(-16109207480262078464,8987535884702033920);
(14468127262815000576,11443585995129665536);
(-11443585995129665536,14468127262815000576);
(2138673640358857472,18322348156854040576);
(-18322348156854040576,2138673640358857472);
(18154218184066521088,3272113849829638144);
(-3272113849829638144,18154218184066521088);
(10523236893064609792,15150704677122525184);
(-15150704677122525184,10523236893064609792);
(15520126849861124096,9970357540487616512);
(-9970357540487616512,15520126849861124096);
(3924279512678990336,18024494368145432576);
(-18024494368145432576,3924279512678990336);
(17167032227524411392,6750953371197043712);
(-6750953371197043712,17167032227524411392);
(7365279992682899456,16912569809178126336);
(-16912569809178126336,7365279992682899456);
(13276791701145088000,12806606460938174464);
(-12806606460938174464,13276791701145088000);
(332471171764133504,18443747716797804544);
(-18443747716797804544,332471171764133504);
(18443487289637007360,346617249912138112);
(-346617249912138112,18443487289637007360);
(12796419523341119488,13286610339119329280);
(-13286610339119329280,12796419523341119488);
(16906915736114372608,7378249603589369856);
(-7378249603589369856,16906915736114372608);
(6737784437971021824,17172205093941022720);
(-17172205093941022720,6737784437971021824);
(18021479182078345216,3938102971083325440);
(-3938102971083325440,18021479182078345216);
(9958450820795883520,15527769452523702272);
(-15527769452523702272,9958450820795883520);
(15142628999919101952,10534854241599522816);
(-10534854241599522816,15142628999919101952);
(3258188777787979264,18156722523881752576);
(-18156722523881752576,3258188777787979264);
(18320702425594257408,2152726074948497408);
(-2152726074948497408,18320702425594257408);
(11432485715605346304,14476900126871711744);
(-14476900126871711744,11432485715605346304);
(16102309388933302272,8999888847314111488);
(-8999888847314111488,16102309388933302272);
(5022169727817561088,17749934595539537920);
(-17749934595539537920,5022169727817561088);
(17548699242496389120,5685553782820553728);
(-5685553782820553728,17548699242496389120);
(8388510600739185664,16429097870005667840);
(-16429097870005667840,8388510600739185664);
(14037116815832647680,11968363230601199616);
(-11968363230601199616,14037116815832647680);
(1462829688721137920,18388651288844826624);
(-18388651288844826624,1462829688721137920);
(18404263599132338176,1251178762044358400);
(-1251178762044358400,18404263599132338176);
(12129062606573056000,13898496580809367552);
(-13898496580809367552,12129062606573056000);
(16524517067019438080,8198945214033435648);
(-8198945214033435648,16524517067019438080);
(5887068314502251520,17482127833342316544);
(-17482127833342316544,5887068314502251520);
(17806537967103002624,4817631424990678016);
(-4817631424990678016,17806537967103002624);
(9184543896125934592,15997703595862573056);
(-15997703595862573056,9184543896125934592);
(14607468243106248704,11265178136522338304);
(-11265178136522338304,14607468243106248704);
(2363355999058192896,18294723702276952064);
(-18294723702276952064,2363355999058192896);
(18193005075208910848,3049087282181551104);
(-3049087282181551104,18193005075208910848);
(10708366965181261824,15020427552501731328);
(-15020427552501731328,10708366965181261824);
(15641309837133496320,9779150960064444416);
(-9779150960064444416,15641309837133496320);
(4145172294368442880,17974980210585454592);
(-17974980210585454592,4145172294368442880);
(17248584164330086400,6539779143591918592);
(-6539779143591918592,17248584164330086400);
(7572268648568504320,16820913008360900608);
(-16820913008360900608,7572268648568504320);
(13432948744643481600,12642715489352736768);
(-12642715489352736768,13432948744643481600);
(558779293535205952,18438279003802247168);
(-18438279003802247168,558779293535205952);
(18429426042948495360,799138691611301376);
(-799138691611301376,18429426042948495360);
(12466495740397946880,13596648516291737600);
(-13596648516291737600,12466495740397946880);
(16720752379569029120,7790943895451634688);
(-7790943895451634688,16720752379569029120);
(6314328133816573952,17332386654452148224);
(-17332386654452148224,6314328133816573952);
(17919405564521842688,4379186127024303104);
(-4379186127024303104,17919405564521842688);
(9574380983008409600,15767485396002287616);
(-15767485396002287616,9574380983008409600);
(14879530057775345664,10903300059188432896);
(-10903300059188432896,14879530057775345664);
(2811619195558181376,18231214013885833216);
(-18231214013885833216,2811619195558181376);
(18262354029998718976,2601690259029311488);
(-2601690259029311488,18262354029998718976);
(11073761550334957568,14753107199748179968);
(-14753107199748179968,11073761550334957568);
(15876591345514674176,9392348703517507584);
(-9392348703517507584,15876591345514674176);
(4585051943015170560,17867838862066987008);
(-17867838862066987008,4585051943015170560);
(17403883427715106816,6114508038709404672);
(-6114508038709404672,17403883427715106816);
(7982793892926449664,16630014088508604416);
(-16630014088508604416,7982793892926449664);
(13739170761601116160,12309246674939271168);
(-12309246674939271168,13739170761601116160);
(1011109018260571392,18419012608555612160);
(-18419012608555612160,1011109018260571392);
(18368015115103805440,1702465169175747072);
(-1702465169175747072,18368015115103805440);
(11784323378968829952,14191972710684977152);
(-14191972710684977152,11784323378968829952);
(16318328003280164864,8602007794596612096);
(-8602007794596612096,16318328003280164864);
(5456262345366935552,17621338432124540928);
(-17621338432124540928,5456262345366935552);
(17682944377042122752,5253174761929481216);
(-5253174761929481216,17682944377042122752);
(8789174383432650752,16218285377269379072);
(-16218285377269379072,8789174383432650752);
(14326607435775926272,11620270491778942976);
(-11620270491778942976,14326607435775926272);
(1913669205275944192,18347213333193598976);
(-18347213333193598976,1913669205275944192);
(18112697334442074112,3494647649167721472);
(-3494647649167721472,18112697334442074112);
(10336522060179369984,15278700161347616768);
(-15278700161347616768,10336522060179369984);
(15396606588572676096,10160062621739046912);
(-10160062621739046912,15396606588572676096);
(3702795748929563136,18071294103152867328);
(-18071294103152867328,3702795748929563136);
(17082894998810576896,6961110930056425472);
(-6961110930056425472,17082894998810576896);
(7157182152722024448,17001679639191410688);
(-17001679639191410688,7157182152722024448);
(13118635221652379648,12968568804696997888);
(-12968568804696997888,13118635221652379648);
(106112981057518496,18446438869228650496);
(-18446438869228650496,106112981057518496);
(18446634199902519296,63668013359973952);
(-63668013359973952,18446634199902519296);
(12998720048827242496,13088760216810268672);
(-13088760216810268672,12998720048827242496);
(17018103087128193024,7118042865620882432);
(-7118042865620882432,17018103087128193024);
(7000399716783011840,17066832474897115136);
(-17066832474897115136,7000399716783011840);
(18079766283018688512,3661204456508685824);
(-3661204456508685824,18079766283018688512);
(10195462842482714624,15373187839498115072);
(-15373187839498115072,10195462842482714624);
(15302443733461524480,10301338879251697664);
(-10301338879251697664,15302443733461524480);
(3536315155836728320,18104608309475737600);
(-18104608309475737600,3536315155836728320);
(18351568057651978240,1871447767453324544);
(-1871447767453324544,18351568057651978240);
(11653204811969482752,14299831625974822912);
(-14299831625974822912,11653204811969482752);
(16238466062811549696,8751833342097871872);
(-8751833342097871872,16238466062811549696);
(5293848765069733888,17670810173093595136);
(-17670810173093595136,5293848765069733888);
(17633846475674329088,5415701745229926400);
(-5415701745229926400,17633846475674329088);
(8639532992415919104,16298491850287722496);
(-16298491850287722496,8639532992415919104);
(14219050505791606784,11751636891713679360);
(-11751636891713679360,14219050505791606784);
(1744724898506509568,18364049170851997696);
(-18364049170851997696,1744724898506509568);
(18421290379796951040,968724761807380096);
(-968724761807380096,18421290379796951040);
(12340827497583613952,13710811193938257920);
(-13710811193938257920,12340827497583613952);
(16648338227475970048,7944507611205414912);
(-7944507611205414912,16648338227475970048);
(6154537651063995392,17389768061206974464);
(-17389768061206974464,6154537651063995392);
(17878341624812484608,4543926459289996800);
(-4543926459289996800,17878341624812484608);
(9428855386697691136,15854937811851563008);
(-15854937811851563008,9428855386697691136);
(14778548528553193472,11039785790953406464);
(-11039785790953406464,14778548528553193472);
(2643704485004388864,18256319276264482816);
(-18256319276264482816,2643704485004388864);
(18237635200648603648,2769662291508008960);
(-2769662291508008960,18237635200648603648);
(10937508535263123456,14854402511107094528);
(-14854402511107094528,10937508535263123456);
(15789474011080175616,9538075139899150336);
(-9538075139899150336,15789474011080175616);
(4420406533714031616,17909281755493064704);
(-17909281755493064704,4420406533714031616);
(17346869845833742336,6274430131306148864);
(-6274430131306148864,17346869845833742336);
(7829397206421701632,16702781394277257216);
(-16702781394277257216,7829397206421701632);
(13625297544919836672,12435177269879988224);
(-12435177269879988224,13625297544919836672);
(841542116908275712,18427538462486192128);
(-18427538462486192128,841542116908275712);
(18439515927298082816,516351903123077120);
(-516351903123077120,18439515927298082816);
(12673590821812916224,13403822686166730752);
(-13403822686166730752,12673590821812916224);
(16838292036051191808,7533544201077832704);
(-7533544201077832704,16838292036051191808);
(6579450291340509184,17233490673241964544);
(-17233490673241964544,6579450291340509184);
(17984470540200962048,4103801446169417728);
(-4103801446169417728,17984470540200962048);
(9815115243796236288,15618766906255347712);
(-15618766906255347712,9815115243796236288);
(15045027411978940416,10673777077199087616);
(-10673777077199087616,15045027411978940416);
(3090940753986799616,18185941058308804608);
(-18185941058308804608,3090940753986799616);
(18300113281127911424,2321254147831351808);
(-2321254147831351808,18300113281127911424);
(11298759648778596352,14581508746356496384);
(-14581508746356496384,11298759648778596352);
(16018794598388242432,9147709360030309376);
(-9147709360030309376,16018794598388242432);
(4858590966153679872,17795405607755849728);
(-17795405607755849728,4858590966153679872);
(17495627516660230144,5846826893214803968);
(-5846826893214803968,17495627516660230144);
(8236945913528342528,16505607802760466432);
(-16505607802760466432,8236945913528342528);
(13926368387143702528,12097050486234361856);
(-12097050486234361856,13926368387143702528);
(1293523092678935552,18401335955023613952);
(-18401335955023613952,1293523092678935552);
(18391968535787444224,1420514096918122496);
(-1420514096918122496,18391968535787444224);
(12000630520323031040,14009540821726808064);
(-14009540821726808064,12000630520323031040);
(16448356082473975808,8350685547012281344);
(-8350685547012281344,16448356082473975808);
(5725917747439465472,17535570503137222656);
(-17535570503137222656,5725917747439465472);
(17761443464943474688,4981314381019853824);
(-4981314381019853824,17761443464943474688);
(9036915939681811456,16081558295764228096);
(-16081558295764228096,9036915939681811456);
(14503167600099366912,11399144550551435264);
(-11399144550551435264,14503167600099366912);
(2194875747294689280,18315700570135885824);
(-18315700570135885824,2194875747294689280);
(18164171450673530880,3216402094184605184);
(-3216402094184605184,18164171450673530880);
(10569669075585794048,15118348539226888192);
(-15118348539226888192,10569669075585794048);
(15550642435034294272,9922695539955314688);
(-9922695539955314688,15550642435034294272);
(3979559413668121600,18012370021571950592);
(-18012370021571950592,3979559413668121600);
(17187663069253367808,6698253887302448128);
(-6698253887302448128,17187663069253367808);
(7417132363197930496,16889893854839359488);
(-16889893854839359488,7417132363197930496);
(13316019332937603072,12765813567719469056);
(-12765813567719469056,13316019332937603072);
(389054227633676864,18442640909829015552);
(-18442640909829015552,389054227633676864);
(18444463897809770496,290031797102436928);
(-290031797102436928,18444463897809770496);
(12837122047000895488,13247288947982602240);
(-13247288947982602240,12837122047000895488);
(16929472319719620608,7326345193668233216);
(-7326345193668233216,16929472319719620608);
(6790436311427417088,17151453046939973632);
(-17151453046939973632,6790436311427417088);
(18033476299208986624,3882795318685527040);
(-3882795318685527040,18033476299208986624);
(10006042479735642112,15497144279339476992);
(-15497144279339476992,10006042479735642112);
(15174878213140887552,10488347731519987712);
(-10488347731519987712,15174878213140887552);
(3313877483791593984,18146641092592246784);
(-18146641092592246784,3313877483791593984);
(18327220675400394752,2096508820900769280);
(-2096508820900769280,18327220675400394752);
(11476846415801569280,14441757623954264064);
(-14441757623954264064,11476846415801569280);
(16129844878254112768,8950445303134254080);
(-8950445303134254080,16129844878254112768);
(5076602124415070208,17734443261386100736);
(-17734443261386100736,5076602124415070208);
(17566059688155275264,5631688374999514112);
(-5631688374999514112,17566059688155275264);
(8438874884730640384,16403284963713849344);
(-16403284963713849344,8438874884730640384);
(14073769175402866688,11925241637737099264);
(-11925241637737099264,14073769175402866688);
(1519238391449499648,18384076850113644544);
(-18384076850113644544,1519238391449499648);
(18408015547507922944,1194709388782483456);
(-1194709388782483456,18408015547507922944);
(12171645511474921472,13861219732185579520);
(-13861219732185579520,12171645511474921472);
(16549593308914040832,8148210124345475072);
(-8148210124345475072,16549593308914040832);
(5940675021155063808,17463984288070197248);
(-17463984288070197248,5940675021155063808);
(17821234451056318464,4762979063718616064);
(-4762979063718616064,17821234451056318464);
(9233580934852255744,15969450524062230528);
(-15969450524062230528,9233580934852255744);
(14641960577029048320,11220310039462619136);
(-11220310039462619136,14641960577029048320);
(2419472297963816448,18287386929802850304);
(-18287386929802850304,2419472297963816448);
(18202273923410886656,2993257579637020672);
(-2993257579637020672,18202273923410886656);
(10754398591859531776,14987504056658272256);
(-14987504056658272256,10754398591859531776);
(15671238238474919936,9731118075221364736);
(-9731118075221364736,15671238238474919936);
(4200299248499531264,17962178407531552768);
(-17962178407531552768,4200299248499531264);
(17268566748860354560,6486830455707395072);
(-6486830455707395072,17268566748860354560);
(7623838845853566976,16797602453129809920);
(-16797602453129809920,7623838845853566976);
(13471672831116550144,12601444284378464256);
(-12601444284378464256,13471672831116550144);
(615344506580614400,18436477919037560832);
(-18436477919037560832,615344506580614400);
(18431791033513611264,742594248446398464);
(-742594248446398464,18431791033513611264);
(12508151000464302080,13558337857957455872);
(-13558337857957455872,12508151000464302080);
(16744575967538241536,7739608684441303040);
(-7739608684441303040,16744575967538241536);
(6367473430240845824,17312932999238324224);
(-17312932999238324224,6367473430240845824);
(17932756386081665024,4324189556250483200);
(-4324189556250483200,17932756386081665024);
(9622709887603945472,15738037404325474304);
(-15738037404325474304,9622709887603945472);
(14912910885028710400,10857598991311599616);
(-10857598991311599616,14912910885028710400);
(2867538539873828864,18222502288195129344);
(-18222502288195129344,2867538539873828864);
(18270249957108398080,2545649902425515008);
(-2545649902425515008,18270249957108398080);
(11118971330112622592,14719063947176531968);
(-14719063947176531968,11118971330112622592);
(15905331946977611776,9343595805544663040);
(-9343595805544663040,15905331946977611776);
(4639848121964088320,17853688031497715712);
(-17853688031497715712,4639848121964088320);
(17422560568015151104,6061084900806295552);
(-6061084900806295552,17422560568015151104);
(8033776488569334784,16605444957984385024);
(-16605444957984385024,8033776488569334784);
(13776870339030642688,12267037563424845824);
(-12267037563424845824,13776870339030642688);
(1067612994088566016,18415823886424188928);
(-18415823886424188928,1067612994088566016);
(18373151761256452096,1646104880855827200);
(-1646104880855827200,18373151761256452096);
(11827808278356568064,14155752125951426560);
(-14155752125951426560,11827808278356568064);
(16344641794109702144,8551903387151942656);
(-8551903387151942656,16344641794109702144);
(5510298171572684800,17604515925787371520);
(-17604515925787371520,5510298171572684800);
(17698977670776532992,5198899530698023936);
(-5198899530698023936,17698977670776532992);
(8838890018211239936,16191244243939506176);
(-16191244243939506176,8838890018211239936);
(14362190499475953664,11576262392400283648);
(-11576262392400283648,14362190499475953664);
(1969948656411406848,18341255933333501952);
(-18341255933333501952,1969948656411406848);
(18123333520528775168,3439062230407662592);
(-3439062230407662592,18123333520528775168);
(10383347806027571200,15246916254115153920);
(-15246916254115153920,10383347806027571200);
(15427704762042712064,10112778683239491584);
(-10112778683239491584,15427704762042712064);
(3758220271826982912,18059849038941802496);
(-18059849038941802496,3758220271826982912);
(17104170990809346048,6908668586500189184);
(-6908668586500189184,17104170990809346048);
(7209308887690754048,16979641700660281344);
(-16979641700660281344,7209308887690754048);
(13158360491227285504,12928260366493526016);
(-12928260366493526016,13158360491227285504);
(162705358551111680,18446026506736816128);
(-18446026506736816128,162705358551111680);
(18445896287640928256,176853234443364928);
(-176853234443364928,18445896287640928256);
(12918164228704985088,13168272471404341248);
(-13168272471404341248,12918164228704985088);
(16974107236195725312,7222329987965542400);
(-7222329987965542400,16974107236195725312);
(6895547820844252160,17109464841759035392);
(-17109464841759035392,6895547820844252160);
(18056961208305666048,3772070895765727744);
(-3772070895765727744,18056961208305666048);
(10100942808503009280,15435456627527731200);
(-15435456627527731200,10100942808503009280);
(15238947842187790336,10395038989057161216);
(-10395038989057161216,15238947842187790336);
(3425160797498219520,18125965917219964928);
(-18125965917219964928,3425160797498219520);
(18339739606941456384,1984015642710835968);
(-1984015642710835968,18339739606941456384);
(11565243326322792448,14371065156204830720);
(-14371065156204830720,11565243326322792448);
(16184460138421190656,8851305945949106176);
(-8851305945949106176,16184460138421190656);
(5185323056983571456,17702959970458415104);
(-17702959970458415104,5185323056983571456);
(17600284402294814720,5523799044070692864);
(-5523799044070692864,17600284402294814720);
(8539364689700329472,16351196213648642048);
(-16351196213648642048,8539364689700329472);
(14146676147777851392,11838662124194256896);
(-11838662124194256896,14146676147777851392);
(1632012367149607680,18374408903537801216);
(-18374408903537801216,1632012367149607680);
(18414999620816199680,1081737438696514944);
(-1081737438696514944,18414999620816199680);
(12256467229061163008,13786274985792509952);
(-13786274985792509952,12256467229061163008);
(16599278244916989952,8046510341058662400);
(-8046510341058662400,16599278244916989952);
(6047720182732876800,17427204236833396736);
(-17427204236833396736,6047720182732876800);
(17850124061475393536,4653540363086545920);
(-4653540363086545920,17850124061475393536);
(9331393821626603520,15912493716154212352);
(-15912493716154212352,9331393821626603520);
(14710531474388912128,11130257439158882304);
(-11130257439158882304,14710531474388912128);
(2531636048817278464,18272197071979802624);
(-18272197071979802624,2531636048817278464);
(18220297553982121984,2881514179262620160);
(-2881514179262620160,18220297553982121984);
(10846157739415635968,14921234171899211776);
(-14921234171899211776,10846157739415635968);
(15730652249860651008,9634777979532922880);
(-9634777979532922880,15730652249860651008);
(4310434033809334272,17936067722918438912);
(-17936067722918438912,4310434033809334272);
(17308044116386267136,6380750409330020352);
(-6380750409330020352,17308044116386267136);
(7726763480276558848,16750507247268751360);
(-16750507247268751360,7726763480276558848);
(13548740239224307712,12518546435228114944);
(-12518546435228114944,13548740239224307712);
(728457024742073088,18432355174639034368);
(-18432355174639034368,728457024742073088);
(18436000532905844736,629484925660570240);
(-629484925660570240,18436000532905844736);
(12591107935187226624,13481334054365825024);
(-13481334054365825024,12591107935187226624);
(16791750101745014784,7636720201859222528);
(-7636720201859222528,16791750101745014784);
(6473583724174842880,17273537005692755968);
(-17273537005692755968,6473583724174842880);
(17958951535328745472,4214074829977722368);
(-4214074829977722368,17958951535328745472);
(9719095524926720000,15678697302336309248);
(-15678697302336309248,9719095524926720000);
(14979251128673169408,10765890699105300480);
(-10765890699105300480,14979251128673169408);
(2979295731330504192,18204564369031583744);
(-18204564369031583744,2979295731330504192);
(18285525838974564352,2433497835037468672);
(-2433497835037468672,18285525838974564352);
(11209076497142970368,14650562139458525184);
(-14650562139458525184,11209076497142970368);
(15962363759669721088,9245826632860968960);
(-9245826632860968960,15962363759669721088);
(4749308948457678848,17824882368000028672);
(-17824882368000028672,4749308948457678848);
(17459422711036172288,5954067980657659904);
(-5954067980657659904,17459422711036172288);
(8135514349807368192,16555838039344818176);
(-16555838039344818176,8135514349807368192);
(13851880120815890432,12182273352682743808);
(-12182273352682743808,13851880120815890432);
(1180590267661903360,18408926463562192896);
(-18408926463562192896,1180590267661903360);
(18382906201536161792,1533338353548157184);
(-1533338353548157184,18382906201536161792);
(11914443685375139840,14082911580669775872);
(-14082911580669775872,11914443685375139840);
(16396807603561220096,8451453563307051008);
(-8451453563307051008,16396807603561220096);
(5618213720791655424,17570373971786907648);
(-17570373971786907648,5618213720791655424);
(17730544340346537984,5090202777487727616);
(-5090202777487727616,17730544340346537984);
(8938071235611627520,16136705038763970560);
(-16136705038763970560,8938071235611627520);
(14432950746006683648,11487919728318244864);
(-11487919728318244864,14432950746006683648);
(2082451403412214016,18328823286653319168);
(-18328823286653319168,2082451403412214016);
(18144094043043971072,3327794807092938752);
(-3327794807092938752,18144094043043971072);
(10476705661830037504,15182918210815629312);
(-15182918210815629312,10476705661830037504);
(15489465183343239168,10017925696217556992);
(-10017925696217556992,15489465183343239168);
(3868962674876533760,18036449061313335296);
(-18036449061313335296,3868962674876533760);
(17146239803150104576,6803589312547425280);
(-6803589312547425280,17146239803150104576);
(7313358297347526656,16935086575968737280);
(-16935086575968737280,7313358297347526656);
(13237439103132645376,12847278813499504640);
(-12847278813499504640,13237439103132645376);
(275884986549300640,18444680924188825600);
(-18444680924188825600,275884986549300640);
(18442337084337713152,403199440228274688);
(-403199440228274688,18442337084337713152);
(12755596554907305984,13325806671619371008);
(-13325806671619371008,12755596554907305984);
(16884200018179254272,7430084566615248896);
(-7430084566615248896,16884200018179254272);
(6685069145921427456,17192795509607733248);
(-17192795509607733248,6685069145921427456);
(18009312439922202624,3993373556556142592);
(-3993373556556142592,18009312439922202624);
(9910765429124347904,15558248472428126208);
(-15558248472428126208,9910765429124347904);
(15110237258506135552,10581261593618761728);
(-10581261593618761728,15110237258506135552);
(3202469404470714368,18166633057183916032);
(-18166633057183916032,3202469404470714368);
(18314011734359492608,2208923066718547456);
(-2208923066718547456,18314011734359492608);
(11388017408499531776,14511906367691671552);
(-14511906367691671552,11388017408499531776);
(16074622338543994880,9049247681112550400);
(-9049247681112550400,16074622338543994880);
(4967690060645892096,17765258860548542464);
(-17765258860548542464,4967690060645892096);
(17531173621796853760,5739365676044059648);
(-5739365676044059648,17531173621796853760);
(8338067360891212800,16454756139371350016);
(-16454756139371350016,8338067360891212800);
(14000332333572954112,12011372172672452608);
(-12011372172672452608,14000332333572954112);
(1406407217282630656,18393052646586802176);
(-18393052646586802176,1406407217282630656);
(18400338422818537472,1307636358735216640);
(-1307636358735216640,18400338422818537472);
(12086365538314614784,13935642611490127872);
(-13935642611490127872,12086365538314614784);
(16499285290076876800,8249603132126493696);
(-8249603132126493696,16499285290076876800);
(5833406196520386560,17500106830169237504);
(-17500106830169237504,5833406196520386560);
(17791673881232762880,4872238440880985088);
(-4872238440880985088,17791673881232762880);
(9135420408974552064,16025806091183984640);
(-16025806091183984640,9135420408974552064);
(14572838418129127424,11309940201435117568);
(-11309940201435117568,14572838418129127424);
(2307217455345827328,18301888277844064256);
(-18301888277844064256,2307217455345827328);
(18183564987514402816,3104888285555343360);
(-3104888285555343360,18183564987514402816);
(10662234547274856448,15053209670360569856);
(-15053209670360569856,10662234547274856448);
(15611234213826930688,9827091799814324224);
(-9827091799814324224,15611234213826930688);
(4090006324297040896,17987612826279886848);
(-17987612826279886848,4090006324297040896);
(17228439229556580352,6592666276584482816);
(-6592666276584482816,17228439229556580352);
(7520627178207041536,16844065238752552960);
(-16844065238752552960,7520627178207041536);
(13394098222140919808,12683867696273872896);
(-12683867696273872896,13394098222140919808);
(502208821046276992,18439906540462774272);
(-18439906540462774272,502208821046276992);
(18426887587606659072,855675612978488704);
(-855675612978488704,18426887587606659072);
(12424723140925845504,13634831197791936512);
(-13634831197791936512,12424723140925845504);
(16696771409510363136,7842205775130859520);
(-7842205775130859520,16696771409510363136);
(6261123404531109888,17351677170641782784);
(-17351677170641782784,6261123404531109888);
(17905886078692282368,4434141479230493184);
(-4434141479230493184,17905886078692282368);
(9525961960692680704,15796784978101540864);
(-15796784978101540864,9525961960692680704);
(14846009178718240768,10948898501052614656);
(-10948898501052614656,14846009178718240768);
(2755673387211866624,18239754140446924800);
(-18239754140446924800,2755673387211866624);
(18254286210657734656,2657706127533541888);
(-2657706127533541888,18254286210657734656);
(11028447540096163840,14787011590456178688);
(-14787011590456178688,11028447540096163840);
(15847701307527430144,9441013197127301120);
(-9441013197127301120,15847701307527430144);
(4530212607811159040,17881821513731962880);
(-17881821513731962880,4530212607811159040);
(17385042475436013568,6167873624534156288);
(-6167873624534156288,17385042475436013568);
(7931736160187215872,16654426691006720000);
(-16654426691006720000,7931736160187215872);
(13701341865863849984,12351339927136043008);
(-12351339927136043008,13701341865863849984);
(954595525489418368,18422027963925526528);
(-18422027963925526528,954595525489418368);
(18362705582197479424,1758809433245115136);
(-1758809433245115136,18362705582197479424);
(11740727561041418240,14228059715166396416);
(-14228059715166396416,11740727561041418240);
(16291860618132664320,8652031236667863040);
(-8652031236667863040,16291860618132664320);
(5402175162741987328,17637995079713341440);
(-17637995079713341440,5402175162741987328);
(17666744644700725248,5307400548279418880);
(-5307400548279418880,17666744644700725248);
(8739376021597428736,16245173857920583680);
(-16245173857920583680,8739376021597428736);
(14290889524590458880,11664169216746178560);
(-11664169216746178560,14290889524590458880);
(1857371741957105152,18352998042094313472);
(-18352998042094313472,1857371741957105152);
(18101890664749881344,3550200174973177344);
(-3550200174973177344,18101890664749881344);
(10289599023048900608,15310340259635302400);
(-15310340259635302400,10289599023048900608);
(15365363496377667584,10207250929859768320);
(-10207250929859768320,15365363496377667584);
(3647336373908353024,18082569073461424128);
(-18082569073461424128,3647336373908353024);
(17061458216098099200,7013487752985465856);
(-7013487752985465856,17061458216098099200);
(7104988051629077504,17023557551438727168);
(-17023557551438727168,7104988051629077504);
(13078786474486566912,13008755177791830016);
(-13008755177791830016,13078786474486566912);
(49519604788134704,18446677606812563456);
(-18446677606812563456,49519604788134704);
(18446710162017439744,35371167085187800);
(-35371167085187800,18446710162017439744);
(13018782654040909824,13068805038249746432);
(-13068805038249746432,13018782654040909824);
(17029002001228955648,7091929057955857408);
(-7091929057955857408,17029002001228955648);
(7026571663333773312,17056073920482793472);
(-17056073920482793472,7026571663333773312);
(18085361226394660864,3633466145674003456);
(-3633466145674003456,18085361226394660864);
(10219033012574083072,15357530114209755136);
(-15357530114209755136,10219033012574083072);
(15318227779130370048,10277853113740103680);
(-10277853113740103680,15318227779130370048);
(3564083105618332672,18099162371148130304);
(-18099162371148130304,3564083105618332672);
(18354417229940754432,1843294623816944128);
(-1843294623816944128,18354417229940754432);
(11675126759792646144,14281939016243982336);
(-14281939016243982336,11675126759792646144);
(16251872096412385280,8726913559947237376);
(-8726913559947237376,16251872096412385280);
(5320949209282104320,17662668723417155584);
(-17662668723417155584,5320949209282104320);
(17642133307774281728,5388645402293582848);
(-5388645402293582848,17642133307774281728);
(8664524391152745472,16285219801895753728);
(-16285219801895753728,8664524391152745472);
(14237060554540234752,11729811323601627136);
(-11729811323601627136,14237060554540234752);
(1772892933321445632,18361351191236372480);
(-18361351191236372480,1772892933321445632);
(18422754710849681408,940465727607503616);
(-940465727607503616,18422754710849681408);
(12361845090713417728,13691864477643030528);
(-13691864477643030528,12361845090713417728);
(16660505357167339520,7918960043132990464);
(-7918960043132990464,16660505357167339520);
(6181205969603175424,17380306662492481536);
(-17380306662492481536,6181205969603175424);
(17885290883236560896,4516496091324961792);
(-4516496091324961792,17885290883236560896);
(9453165453652090880,15840455480408924160);
(-15840455480408924160,9453165453652090880);
(14795465953541224448,11017102801487374336);
(-11017102801487374336,14795465953541224448);
(2671706206602654720,18252242406524721152);
(-18252242406524721152,2671706206602654720);
(18241862350267822080,2741682861824069120);
(-2741682861824069120,18241862350267822080);
(10960282025887207424,14837607112804687872);
(-14837607112804687872,10960282025887207424);
(15804086652281300992,9513843177608220672);
(-9513843177608220672,15804086652281300992);
(4447873816255765504,17902479868320055296);
(-17902479868320055296,4447873816255765504);
(17356474287905200128,6247812994498486272);
(-6247812994498486272,17356474287905200128);
(7855009730472410112,16690751602463029248);
(-16690751602463029248,7855009730472410112);
(13644356829644134400,12414261702827194368);
(-12414261702827194368,13644356829644134400);
(869808605676784640,18426225872663914496);
(-18426225872663914496,869808605676784640);
(18440286305905541120,488065443532966656);
(-488065443532966656,18440286305905541120);
(12694137109142257664,13384365878712219648);
(-13384365878712219648,12694137109142257664);
(16849828532524308480,7507705731145044992);
(-7507705731145044992,16849828532524308480);
(6605878383532742656,17223377650824280064);
(-17223377650824280064,6605878383532742656);
(17990744530709626880,4076208796379319808);
(-4076208796379319808,17990744530709626880);
(9839062574807496704,15603692337711640576);
(-15603692337711640576,9839062574807496704);
(15061383073326788608,10650685745032747008);
(-10650685745032747008,15061383073326788608);
(3118833990598104576,18181178219797207040);
(-18181178219797207040,3118833990598104576);
(18303652508030881792,2293179405583717888);
(-2293179405583717888,18303652508030881792);
(11321114100745209856,14564159517076377600);
(-14564159517076377600,11321114100745209856);
(16032808156410898432,9123126083786337280);
(-9123126083786337280,16032808156410898432);
(4885883049395945472,17787931688326326272);
(-17787931688326326272,4885883049395945472);
(17504575848816279552,5819982068183398400);
(-5819982068183398400,17504575848816279552);
(8262255497695668224,16492953071288846336);
(-16492953071288846336,8262255497695668224);
(13944908637857046528,12075673480297418752);
(-12075673480297418752,13944908637857046528);
(1321748855542718208,18399330066168440832);
(-18399330066168440832,1321748855542718208);
(18394125937227175936,1392299510294008576);
(-1392299510294008576,18394125937227175936);
(12022106759041091584,13991115609384298496);
(-13991115609384298496,12022106759041091584);
(16461146516359632896,8325444269699941376);
(-8325444269699941376,16461146516359632896);
(5752810228327697408,17526766427318722560);
(-17526766427318722560,5752810228327697408);
(17769063805309534208,4954062817907856384);
(-4954062817907856384,17769063805309534208);
(9061574099104028672,16067676925037592576);
(-16067676925037592576,9061574099104028672);
(14520636598303350784,11376883567170394112);
(-11376883567170394112,14520636598303350784);
(2222969086689877248,18312312124921845760);
(-18312312124921845760,2222969086689877248);
(18169083976732127232,3188534830826583040);
(-3188534830826583040,18169083976732127232);
(10592847886968154112,15102117088822110208);
(-15102117088822110208,10592847886968154112);
(15565845357305231360,9898829488045424640);
(-9898829488045424640,15565845357305231360);
(4007185350245387264,18006244263857946624);
(-18006244263857946624,4007185350245387264);
(17197917835883462656,6671880471886464000);
(-6671880471886464000,17197917835883462656);
(7443032399105248256,16878496248979292160);
(-16878496248979292160,7443032399105248256);
(13335586171072407552,12745372038306330624);
(-12745372038306330624,13335586171072407552);
(417344415631030016,18442022409694660608);
(-18442022409694660608,417344415631030016);
(18444887100037310464,261738013700134816);
(-261738013700134816,18444887100037310464);
(12857428022274992128,13227581471038318592);
(-13227581471038318592,12857428022274992128);
(16940690869742745600,7300367098766558208);
(-7300367098766558208,16940690869742745600);
(6816738311291130880,17141016472669122560);
(-17141016472669122560,6816738311291130880);
(18039411213039400960,3855127755056480256);
(-3855127755056480256,18039411213039400960);
(10029803019411894272,15481776975293712384);
(-15481776975293712384,10029803019411894272);
(15190949276770768896,10465057428964073472);
(-10465057428964073472,15190949276770768896);
(3341710172738337792,18141536319792642048);
(-18141536319792642048,3341710172738337792);
(18330415115531735040,2068392760871151360);
(-2068392760871151360,18330415115531735040);
(11498986282787725312,14424135377526036480);
(-14424135377526036480,11498986282787725312);
(16143555706466007040,8925691910051976192);
(-8925691910051976192,16143555706466007040);
(5103800436125238272,17726634988884559872);
(-17726634988884559872,5103800436125238272);
(17574677919220224000,5604735761533415424);
(-5604735761533415424,17574677919220224000);
(8464027270111076352,16390320597589129216);
(-16390320597589129216,8464027270111076352);
(14092045701322641408,11903638724052932608);
(-11903638724052932608,14092045701322641408);
(1547437413623366656,18381724738768586752);
(-18381724738768586752,1547437413623366656);
(18409826550119321600,1166470452030486272);
(-1166470452030486272,18409826550119321600);
(12192894027373021184,13842532360742010880);
(-13842532360742010880,12192894027373021184);
(16562073030402629632,8122813789355776000);
(-8122813789355776000,16562073030402629632);
(5967457437535465472,17454850863073597440);
(-17454850863073597440,5967457437535465472);
(17828519799024689152,4735636039300648960);
(-4735636039300648960,17828519799024689152);
(9258066891788087296,15955267605029873664);
(-15955267605029873664,9258066891788087296);
(14659155083339757568,11197836360812412928);
(-11197836360812412928,14659155083339757568);
(2447521940547042816,18283653991242541056);
(-18283653991242541056,2447521940547042816);
(18206844105376092160,2965332130381069312);
(-2965332130381069312,18206844105376092160);
(10777376473054949376,14970989388780560384);
(-14970989388780560384,10777376473054949376);
(15686147142824030208,9707067257138585600);
(-9707067257138585600,15686147142824030208);
(4227847932424264192,17955714098337452032);
(-17955714098337452032,4227847932424264192);
(17278497100948379648,6460333184399773696);
(-6460333184399773696,17278497100948379648);
(7649597065379137536,16785887872206264320);
(-16785887872206264320,7649597065379137536);
(13490987346893615104,12580764178971594752);
(-12580764178971594752,13490987346893615104);
(643624974430762624,18435512301350008832);
(-18435512301350008832,643624974430762624);
(18432908472484806656,714319372505248256);
(-714319372505248256,18432908472484806656);
(12528934505653592064,13539134650116354048);
(-13539134650116354048,12528934505653592064);
(16756428673107415040,7713913730655934464);
(-7713913730655934464,16756428673107415040);
(6394023634788124672,17303145051657785344);
(-17303145051657785344,6394023634788124672);
(17939368508428685312,4296675975650899456);
(-4296675975650899456,17939368508428685312);
(9646840403570247680,15723257841458401280);
(-15723257841458401280,9646840403570247680);
(14929548680992086016,10834710107004520448);
(-10834710107004520448,14929548680992086016);
(2895488123530860544,18218082101237501952);
(-18218082101237501952,2895488123530860544);
(18274133437788444672,2517620705912780288);
(-2517620705912780288,18274133437788444672);
(11141537000561455104,14701990347774633984);
(-14701990347774633984,11141537000561455104);
(15919646124420739072,9319186348289974272);
(-9319186348289974272,15919646124420739072);
(4667229866651104256,17846549590684983296);
(-17846549590684983296,4667229866651104256);
(17431837653676392448,6034351906941490176);
(-6034351906941490176,17431837653676392448);
(8059239459993270272,16593101766921875456);
(-16593101766921875456,8059239459993270272);
(13795671522443997184,12245889684533590016);
(-12245889684533590016,13795671522443997184);
(1095861246946199168,18414164522138384384);
(-18414164522138384384,1095861246946199168);
(18375655236627795968,1617918893372560640);
(-1617918893372560640,18375655236627795968);
(11849509005652035584,14137591847479179264);
(-14137591847479179264,11849509005652035584);
(16357741014200127488,8526820968760480768);
(-8526820968760480768,16357741014200127488);
(5537296667060041728,17596042525008406528);
(-17596042525008406528,5537296667060041728);
(17706931855945052160,5171743532877161472);
(-5171743532877161472,17706931855945052160);
(8863716666691732480,16177666512001959936);
(-16177666512001959936,8863716666691732480);
(14379931358806339584,11554217456710625280);
(-11554217456710625280,14379931358806339584);
(1998081461864979200,18338212491753113600);
(-18338212491753113600,1998081461864979200);
(18128587650872412160,3411257349654926848);
(-3411257349654926848,18128587650872412160);
(10406724056953137152,15230970465580034048);
(-15230970465580034048,10406724056953137152);
(15443199412731303936,10089100991642118144);
(-10089100991642118144,15443199412731303936);
(3785919300692348928,18054062755224475648);
(-18054062755224475648,3785919300692348928);
(17114748627651375104,6882422998715193344);
(-6882422998715193344,17114748627651375104);
(7235346839529678848,16968562786301212672);
(-16968562786301212672,7235346839529678848);
(13178176705025976320,12908060491493259264);
(-12908060491493259264,13178176705025976320);
(191001006297416864,18445755217299503104);
(-18445755217299503104,191001006297416864);
(18446145874510561280,148557386943488032);
(-148557386943488032,18446145874510561280);
(12938348898919581696,13148440770325770240);
(-13148440770325770240,12938348898919581696);
(16985166176439095296,7196283546365289472);
(-7196283546365289472,16985166176439095296);
(6921785287964393472,17098867077916540928);
(-17098867077916540928,6921785287964393472);
(18062726245434052608,3744367437024081408);
(-3744367437024081408,18062726245434052608);
(10124608608888825856,15419943820836466688);
(-15419943820836466688,10124608608888825856);
(15254875696674512896,10371650514741987328);
(-10371650514741987328,15254875696674512896);
(3452961640205401088,18120690462347413504);
(-18120690462347413504,3452961640205401088);
(18342761470037231616,1955880511241937920);
(-1955880511241937920,18342761470037231616);
(11587274648460865536,14353307393840437248);
(-14353307393840437248,11587274648460865536);
(16198018824565989376,8826468890782105600);
(-8826468890782105600,16198018824565989376);
(5212472946033829888,17694984959242092544);
(-17694984959242092544,5212472946033829888);
(17608737092996780032,5496794057508231168);
(-5496794057508231168,17608737092996780032);
(8564437053739127808,16338077759439104000);
(-16338077759439104000,8564437053739127808);
(14164819776660740096,11816947474524004352);
(-11816947474524004352,14164819776660740096);
(1660196426200956160,18371883810523297792);
(-18371883810523297792,1660196426200956160);
(18416637318477459456,1053487921431398912);
(-1053487921431398912,18416637318477459456);
(12277600681406384128,13767457587690909696);
(-13767457587690909696,12277600681406384128);
(16611601902496342016,8021037910016284672);
(-8021037910016284672,16611601902496342016);
(6074446053299629056,17417906649953404928);
(-17417906649953404928,6074446053299629056);
(17857241498655358976,4626153151338523648);
(-4626153151338523648,17857241498655358976);
(9355792292866043904,15898160821104017408);
(-15898160821104017408,9355792292866043904);
(14727587761118060544,11107678680062003200);
(-11107678680062003200,14727587761118060544);
(2559662258493501440,18268292094319665152);
(-18268292094319665152,2559662258493501440);
(18224696302579531776,2853561213585995264);
(-2853561213585995264,18224696302579531776);
(10869033855961815040,14904578825276958720);
(-14904578825276958720,10869033855961815040);
(15745413300508375040,9610636134882666496);
(-9610636134882666496,15745413300508375040);
(4337942534882326528,17929434499866335232);
(-17929434499866335232,4337942534882326528);
(17317811697337958400,6354192705331105792);
(-6354192705331105792,17317811697337958400);
(7752449335593665536,16738634837405104128);
(-16738634837405104128,7752449335593665536);
(13567927500669763584,12497748207477522432);
(-12497748207477522432,13567927500669763584);
(756731035301660032,18431216049440409600);
(-18431216049440409600,756731035301660032);
(18436944459464321024,601203725509339264);
(-601203725509339264,18436944459464321024);
(12611773220464699392,13462003682829238272);
(-13462003682829238272,12611773220464699392);
(16803444922917863424,7610953004939943936);
(-7610953004939943936,16803444922917863424);
(6500073371204718592,17263586333375049728);
(-17263586333375049728,6500073371204718592);
(17965394713047588864,4186521196093510656);
(-4186521196093510656,17965394713047588864);
(9743134900949960704,15663769955627835392);
(-15663769955627835392,9743134900949960704);
(14995748167880882176,10742900158078152704);
(-10742900158078152704,14995748167880882176);
(3007217667087222272,18199972769861414912);
(-18199972769861414912,3007217667087222272);
(18289237262632572928,2405445337576947712);
(-2405445337576947712,18289237262632572928);
(11231536981162958848,14633350401111404544);
(-14633350401111404544,11231536981162958848);
(15976527894038437888,9221329804965776384);
(-9221329804965776384,15976527894038437888);
(4776646377041686528,17817576050339534848);
(-17817576050339534848,4776646377041686528);
(17468535591492216832,5927278566906411008);
(-5927278566906411008,17468535591492216832);
(8160901105501500416,16543338842783909888);
(-16543338842783909888,8160901105501500416);
(13870551189356828672,12161010510001639424);
(-12161010510001639424,13870551189356828672);
(1208827807086310912,18407093802492379136);
(-18407093802492379136,1208827807086310912);
(18385236683812370432,1505137535622039040);
(-1505137535622039040,18385236683812370432);
(11936032574786648064,14064618490900152320);
(-14064618490900152320,11936032574786648064);
(16409752674236557312,8426291241781558272);
(-8426291241781558272,16409752674236557312);
(5645159716230198272,17561735070863306752);
(-17561735070863306752,5645159716230198272);
(17738331749709608960,5062998484908178432);
(-5062998484908178432,17738331749709608960);
(8962814105340512256,16122975228972089344);
(-16122975228972089344,8962814105340512256);
(14450556006187917312,11465766351751841792);
(-11465766351751841792,14450556006187917312);
(2110565005067200512,18325607282715740160);
(-18325607282715740160,2110565005067200512);
(18149177466939107328,3299958211021505536);
(-3299958211021505536,18149177466939107328);
(10499983631185195008,15166829288476264448);
(-15166829288476264448,10499983631185195008);
(15504814258765010944,9994153376956733440);
(-9994153376956733440,15504814258765010944);
(3896625678346072064,18030492928475152384);
(-18030492928475152384,3896625678346072064);
(17156656200971911168,6777279315668679680);
(-6777279315668679680,17156656200971911168);
(7339327780088821760,16923848104298117120);
(-16923848104298117120,7339327780088821760);
(13257130999793780736,12826957728754124800);
(-12826957728754124800,13257130999793780736);
(304178437037339520,18444236021027815424);
(-18444236021027815424,304178437037339520);
(18442933885989834752,374908786168500672);
(-374908786168500672,18442933885989834752);
(12776023070732412928,13306224160784740352);
(-13306224160784740352,12776023070732412928);
(16895577755610066944,7404175796472741888);
(-7404175796472741888,16895577755610066944);
(6711434688273285120,17182520517839648768);
(-17182520517839648768,6711434688273285120);
(18015417007008493568,3965742929707828224);
(-3965742929707828224,18015417007008493568);
(9934619813520148480,15543027249598173184);
(-15543027249598173184,9934619813520148480);
(15126450926212712448,10558070339688830976);
(-10558070339688830976,15126450926212712448);
(3230332891772013056,18161699158649069568);
(-18161699158649069568,3230332891772013056);
(18317378631257528320,2180827136681978624);
(-2180827136681978624,18317378631257528320);
(11410264986780291072,14494420300667228160);
(-14494420300667228160,11410264986780291072);
(16088484792618049536,9024578882066255872);
(-9024578882066255872,16088484792618049536);
(4994935771014906880,17757617620738830336);
(-17757617620738830336,4994935771014906880);
(17539957068753258496,5712466450424986624);
(-5712466450424986624,17539957068753258496);
(8363298820640193536,16441946349432502272);
(-16441946349432502272,8363298820640193536);
(14018741068428746752,11989881808311863296);
(-11989881808311863296,14018741068428746752);
(1434620140901769472,18390873605466855424);
(-18390873605466855424,1434620140901769472);
(18402322662196846592,1279409065676346112);
(-1279409065676346112,18402322662196846592);
(12107728317770981376,13917085970273560576);
(-13917085970273560576,12107728317770981376);
(16511920605620244480,8224283849347130368);
(-8224283849347130368,16511920605620244480);
(5860244150371600384,17491137910924316672);
(-17491137910924316672,5860244150371600384);
(17799126865700304896,4844940633242487808);
(-4844940633242487808,17799126865700304896);
(9159992929724335104,16011773682148354048);
(-16011773682148354048,9159992929724335104);
(14590170496657954816,11287572449352882176);
(-11287572449352882176,14590170496657954816);
(2335289474782867456,18298327518926608384);
(-18298327518926608384,2335289474782867456);
(18188306430782633984,3076991404097446912);
(-3076991404097446912,18188306430782633984);
(10685313328015269888,15036836302995312640);
(-15036836302995312640,10685313328015269888);
(15626290410565601280,9803132913798729728);
(-9803132913798729728,15626290410565601280);
(4117594153881135616,17981317674321377280);
(-17981317674321377280,4117594153881135616);
(17238531978908794880,6566230435575444480);
(-6566230435575444480,17238531978908794880);
(7546456792158668800,16832508927816458240);
(-16832508927816458240,7546456792158668800);
(13413539265068994560,12663306491805005824);
(-12663306491805005824,13413539265068994560);
(530494681443356096,18439114466641254400);
(-18439114466641254400,530494681443356096);
(18428178496919623680,827408125780517248);
(-827408125780517248,18428178496919623680);
(12445624083539730432,13615755876636239872);
(-13615755876636239872,12445624083539730432);
(16708781553228195840,7816584031879886848);
(-7816584031879886848,16708781553228195840);
(6287733166995598336,17342052316309104640);
(-17342052316309104640,6287733166995598336);
(17912666896724813824,4406668987786296320);
(-4406668987786296320,17912666896724813824);
(9550182708101756928,15782153755518056448);
(-15782153755518056448,9550182708101756928);
(14862787105033666560,10926112135219161088);
(-10926112135219161088,14862787105033666560);
(2783649566483184128,18235505532119377920);
(-18235505532119377920,2783649566483184128);
(18258341602148964352,2629701287252000768);
(-2629701287252000768,18258341602148964352);
(11051117547389102080,14770076772810868736);
(-14770076772810868736,11051117547389102080);
(15862164989124274176,9416692029515384832);
(-9416692029515384832,15862164989124274176);
(4557637637693970432,17874851218525255680);
(-17874851218525255680,4557637637693970432);
(17394483417025421312,6141198057037902848);
(-6141198057037902848,17394483417025421312);
(7957274388674472960,16642239970156775424);
(-16642239970156775424,7957274388674472960);
(13720272456295690240,12330307808240322560);
(-12330307808240322560,13720272456295690240);
(982853428249523200,18420541958897860608);
(-18420541958897860608,982853428249523200);
(18365381956409526272,1730639337391198208);
(-1730639337391198208,18365381956409526272);
(11762539309200730112,14210032931715747840);
(-14210032931715747840,11762539309200730112);
(16305113494459947008,8627029665749308416);
(-8627029665749308416,16305113494459947008);
(5429225141800061952,17629687498097762304);
(-17629687498097762304,5429225141800061952);
(17674865306204119040,5280293867625213952);
(-5280293867625213952,17674865306204119040);
(8764285514120245248,16231748715031306240);
(-16231748715031306240,8764285514120245248);
(14308765315136671744,11642233551912632320);
(-11642233551912632320,14308765315136671744);
(1885522692025039104,18350127277454974976);
(-18350127277454974976,1885522692025039104);
(18107315303726981120,3522428056377184256);
(-3522428056377184256,18107315303726981120);
(10313072675442239488,15294538205254354944);
(-15294538205254354944,10313072675442239488);
(15381003138968238080,10183668757377552384);
(-10183668757377552384,15381003138968238080);
(3675070385316765184,18076952856715264000);
(-18076952856715264000,3675070385316765184);
(17072196693718302720,6987307562425766912);
(-6987307562425766912,17072196693718302720);
(7131093492251462656,17012638611506073600);
(-17012638611506073600,7131093492251462656);
(13098726259353561088,12988677273050554368);
(-12988677273050554368,13098726259353561088);
(77816384477561312,18446579941312841728);
(-18446579941312841728,77816384477561312);
(18446514831075450880,91964709817774592);
(-91964709817774592,18446514831075450880);
(12978626856369672192,13108684596253673472);
(-13108684596253673472,12978626856369672192);
(17007164127786981376,7144139923843469312);
(-7144139923843469312,17007164127786981376);
(6974211297615506432,17077550869406031872);
(-17077550869406031872,6974211297615506432);
(18074128796206217216,3688934152175623680);
(-3688934152175623680,18074128796206217216);
(10171868681482436608,15388809390190497792);
(-15388809390190497792,10171868681482436608);
(15286623679664414720,10324800404717838336);
(-10324800404717838336,15286623679664414720);
(3508538884763968000,18110011645911154688);
(-18110011645911154688,3508538884763968000);
(18348675702350872576,1899596507392333312);
(-1899596507392333312,18348675702350872576);
(11631255443029739520,14317690586820540416);
(-14317690586820540416,11631255443029739520);
(16225021818531495936,8776732530339258368);
(-8776732530339258368,16225021818531495936);
(5266735863919854592,17678910041646766080);
(-17678910041646766080,5266735863919854592);
(17625518149430259712,5442745344496926720);
(-5442745344496926720,17625518149430259712);
(8614521264023415808,16311725546753992704);
(-16311725546753992704,8614521264023415808);
(14201006998243631104,11773434807088961536);
(-11773434807088961536,14201006998243631104);
(1716552758185353472,18366703938086025216);
(-18366703938086025216,1716552758185353472);
(18419782701668530176,996981516504317056);
(-996981516504317056,18419782701668530176);
(12319780865294632960,13729725647370332160);
(-13729725647370332160,12319780865294632960);
(16636131922636582912,7970036485084021760);
(-7970036485084021760,16636131922636582912);
(6127854850303217664,17399188540117432320);
(-17399188540117432320,6127854850303217664);
(17871350296923588608,4571346134957147136);
(-4571346134957147136,17871350296923588608);
(9404523132735774720,15869382835094001664);
(-15869382835094001664,9404523132735774720);
(14761596328212922368,11062442802737072128);
(-11062442802737072128,14761596328212922368);
(2615696542514098176,18260353187121498112);
(-18260353187121498112,2615696542514098176);
(18233365136112074752,2797635203909038080);
(-2797635203909038080,18233365136112074752);
(10914709307624933376,14871162955565516800);
(-14871162955565516800,10914709307624933376);
(15774824215721498624,9562284658177931264);
(-9562284658177931264,15774824215721498624);
(4392928849528730112,17916041500396136448);
(-17916041500396136448,4392928849528730112);
(17337224584901896192,6301032503773626368);
(-6301032503773626368,17337224584901896192);
(7803766259043076096,16714771882833438720);
(-16714771882833438720,7803766259043076096);
(13606206198554265600,12456063575759476736);
(-12456063575759476736,13606206198554265600);
(813273647909876096,18428807690530439168);
(-18428807690530439168,813273647909876096);
(18438702158728458240,544637147687281856);
(-544637147687281856,18438702158728458240);
(12653014712300148736,13423247953131702272);
(-13423247953131702272,12653014712300148736);
(16826715917450401792,7559364943853403136);
(-7559364943853403136,16826715917450401792);
(6553006717066189824,17243563143591403520);
(-17243563143591403520,6553006717066189824);
(17978154230495885312,4131384439318300672);
(-4131384439318300672,17978154230495885312);
(9791144816870703104,15633804722331809792);
(-15633804722331809792,9791144816870703104);
(15028636348228300800,10696843292936921088);
(-10696843292936921088,15028636348228300800);
(3063040244093327872,18190661103544399872);
(-18190661103544399872,3063040244093327872);
(18296530992290672640,2349323427943751680);
(-2349323427943751680,18296530992290672640);
(11276378609739112448,14598823663938017280);
(-14598823663938017280,11276378609739112448);
(16004743346594541568,9172271110830523392);
(-9172271110830523392,16004743346594541568);
(4831287450177549312,17802837652877008896);
(-17802837652877008896,4831287450177549312);
(17486638015602622464,5873657960097748992);
(-5873657960097748992,17486638015602622464);
(8211616947031624704,16518223694942550016);
(-16518223694942550016,8211616947031624704);
(13907795366340308992,12118399026642980864);
(-12118399026642980864,13907795366340308992);
(1265294286030366720,18403298543757783040);
(-18403298543757783040,1265294286030366720);
(18389767856269154304,1448725340935350016);
(-1448725340935350016,18389767856269154304);
(11979126042962139136,14027933068266498048);
(-14027933068266498048,11979126042962139136);
(16435526944017610752,8375907174354884608);
(-8375907174354884608,16435526944017610752);
(5699011792913673216,17544333316064458752);
(-17544333316064458752,5699011792913673216);
(17753781330185254912,5008554222617936896);
(-5008554222617936896,17753781330185254912);
(9012236515523457024,16095401825030776832);
(-16095401825030776832,9012236515523457024);
(14485664474541066240,11421378710644234240);
(-11421378710644234240,14485664474541066240);
(2166777243144851200,18319045916737259520);
(-18319045916737259520,2166777243144851200);
(18159216182564919296,3244261789037808128);
(-3244261789037808128,18159216182564919296);
(10546465392751110144,15134544414697181184);
(-15134544414697181184,10546465392751110144);
(15535402920599576576,9946538242804107264);
(-9946538242804107264,15535402920599576576);
(3951924112803145216,18018453394439366656);
(-18018453394439366656,3951924112803145216);
(17177367858391808000,6724611541080010752);
(-6724611541080010752,17177367858391808000);
(7391214874061696000,16901251717147686912);
(-16901251717147686912,7391214874061696000);
(13296421160923033600,12786225057940152320);
(-12786225057940152320,13296421160923033600);
(360763124154144960,18443216012647821312);
(-18443216012647821312,360763124154144960);
(18443997293977014272,318324898031904512);
(-318324898031904512,18443997293977014272);
(12816785864738603008,13266965252776355840);
(-13266965252776355840,12816785864738603008);
(16918213933012805632,7352306048971970560);
(-7352306048971970560,16918213933012805632);
(6764118333011132416,17161849262185037824);
(-17161849262185037824,6764118333011132416);
(18027498950866874368,3910453745722125312);
(-3910453745722125312,18027498950866874368);
(9982258394874888192,15512475117107787776);
(-15512475117107787776,9982258394874888192);
(15158771441556736000,10511613353980557312);
(-10511613353980557312,15158771441556736000);
(3286036996971022848,18151703164592465920);
(-18151703164592465920,3286036996971022848);
(18323983109548468224,2124619947642616832);
(-2124619947642616832,18323983109548468224);
(11454679542687178752,14459345887531784192);
(-14459345887531784192,11454679542687178752);
(16116096094959138816,8975177634954153984);
(-8975177634954153984,16116096094959138816);
(5049391866969722880,17742209803029567488);
(-17742209803029567488,5049391866969722880);
(17557400122455064576,5658627736558866432);
(-5658627736558866432,17557400122455064576);
(8413702641862436864,16416210731324555264);
(-16416210731324555264,8413702641862436864);
(14055459532544749568,11946816490175758336);
(-11946816490175758336,14055459532544749568);
(1491035794360945152,18386385701950040064);
(-18386385701950040064,1491035794360945152);
(18406161229057800192,1222945514267884288);
(-1222945514267884288,18406161229057800192);
(12150368354519197696,13879874486840178688);
(-13879874486840178688,12150368354519197696);
(16537074644633767936,8173587285809666048);
(-8173587285809666048,16537074644633767936);
(5913878625792489472,17473076618624815104);
(-17473076618624815104,5913878625792489472);
(17813907168001820672,4790310880386760704);
(-4790310880386760704,17813907168001820672);
(9209073250408555520,15983595865434914816);
(-15983595865434914816,9209073250408555520);
(14624731616770742272,11242757315639463936);
(-11242757315639463936,14624731616770742272);
(2391416962128561664,18291076836375224320);
(-18291076836375224320,2391416962128561664);
(18197660909736871936,3021175985468749824);
(-3021175985468749824,18197660909736871936);
(10731395404525395968,15003983457491204096);
(-15003983457491204096,10731395404525395968);
(15656292458188453888,9755145995043321856);
(-9755145995043321856,15656292458188453888);
(4172740680864933376,17968600449984782336);
(-17968600449984782336,4172740680864933376);
(17258595762166691840,6513312462876349440);
(-6513312462876349440,17258595762166691840);
(7598062686698759168,16809277507672199168);
(-16809277507672199168,7598062686698759168);
(13452326615192000512,12622094737369681920);
(-12622094737369681920,13452326615192000512);
(587062590765402240,18437400153911674880);
(-18437400153911674880,587062590765402240);
(18430630222757675008,770867376991550336);
(-770867376991550336,18430630222757675008);
(12487338062387468288,13577509161719894016);
(-13577509161719894016,12487338062387468288);
(16732683860364353536,7765285426179821568);
(-7765285426179821568,16732683860364353536);
(6340908242413510656,17322680207815153664);
(-17322680207815153664,6340908242413510656);
(17926102066226630656,4351692961614341120);
(-4351692961614341120,17926102066226630656);
(9598556728471760896,15752779934070302720);
(-15752779934070302720,9598556728471760896);
(14896237997545492480,10880462326639450112);
(-10880462326639450112,14896237997545492480);
(2839582208621620224,18226879595844648960);
(-18226879595844648960,2839582208621620224);
(18266323484765366272,2573673108778129408);
(-2573673108778129408,18266323484765366272);
(11096379495650199552,14736102911199156224);
(-14736102911199156224,11096379495650199552);
(15890980342752020480,9367983276415866880);
(-9367983276415866880,15890980342752020480);
(4612455459266249728,17860784460857911296);
(-17860784460857911296,4612455459266249728);
(17413242485385938944,6087803632352852992);
(-6087803632352852992,17413242485385938944);
(8008294612893289472,16617749074830886912);
(-16617749074830886912,8008294612893289472);
(13758036737310586880,12288156576791764992);
(-12288156576791764992,13758036737310586880);
(1039362229034430336,18417439916497489920);
(-18417439916497489920,1039362229034430336);
(18370605052084238336,1674286994895301376);
(-1674286994895301376,18370605052084238336);
(11806079719085699072,14173879094571528192);
(-14173879094571528192,11806079719085699072);
(16331504113498302464,8576965682088652800);
(-8576965682088652800,16331504113498302464);
(5483286709821456384,17612947901439834112);
(-17612947901439834112,5483286709821456384);
(17690981838203901952,5226043295006097408);
(-5226043295006097408,17690981838203901952);
(8814042570968731648,16204783876315332608);
(-16204783876315332608,8814042570968731648);
(14344415844523988992,11598280088026312704);
(-11598280088026312704,14344415844523988992);
(1941811215478356224,18344256216166981632);
(-18344256216166981632,1941811215478356224);
(18118036744230719488,3466859018714769920);
(-3466859018714769920,18118036744230719488);
(10359947122081626112,15262826165183533056);
(-15262826165183533056,10359947122081626112);
(15412173808474558464,10136432578491768832);
(-10136432578491768832,15412173808474558464);
(3730512399506287616,18065592826089828352);
(-18065592826089828352,3730512399506287616);
(17093553106200776704,6934897917520649216);
(-6934897917520649216,17093553106200776704);
(7183253971651623936,16990680660282261504);
(-16990680660282261504,7183253971651623936);
(13138513314535311360,12948429820048328704);
(-12948429820048328704,13138513314535311360);
(134409327943381120,18446254390891941888);
(-18446254390891941888,134409327943381120);
(18445603295795527680,205148665790497824);
(-205148665790497824,18445603295795527680);
(12897949160802115584,13188073186265782272);
(-13188073186265782272,12897949160802115584);
(16963008354238396416,7248359434725684224);
(-7248359434725684224,16963008354238396416);
(6869294127834005504,17120022345378050048);
(-17120022345378050048,6869294127834005504);
(18051153681403320320,3799765478460188160);
(-3799765478460188160,18051153681403320320);
(10077253239623055360,15450933113098545152);
(-15450933113098545152,10077253239623055360);
(15222984128984770560,10418403002841473024);
(-10418403002841473024,15222984128984770560);
(3397351895056824320,18131198719943815168);
(-18131198719943815168,3397351895056824320);
(18336674588666836992,2012146105599278080);
(-2012146105599278080,18336674588666836992);
(11543184790050015232,14388789102064719872);
(-14388789102064719872,11543184790050015232);
(16170863368678328320,8876122173138212864);
(-8876122173138212864,16170863368678328320);
(5158160966367278080,17710893324899889152);
(-17710893324899889152,5158160966367278080);
(17591790296423532544,5550791032600425472);
(-5550791032600425472,17591790296423532544);
(8514272231711545344,16364276191914024960);
(-16364276191914024960,8514272231711545344);
(14128499230399471616,11860348916348960768);
(-11860348916348960768,14128499230399471616);
(1603824467815513344,18376890759793256448);
(-18376890759793256448,1603824467815513344);
(18413318590882013184,1109984410528946048);
(-1109984410528946048,18413318590882013184);
(12235304936064624640,13805059943457366016);
(-13805059943457366016,12235304936064624640);
(16586915527632502784,8071963837884945408);
(-8071963837884945408,16586915527632502784);
(6020980081296348160,17436460815818418176);
(-17436460815818418176,6020980081296348160);
(17842964621229256704,4680916624604579840);
(-4680916624604579840,17842964621229256704);
(9306973392716122112,15926789167569608704);
(-15926789167569608704,9306973392716122112);
(14693440572358223872,11152810007684866048);
(-11152810007684866048,14693440572358223872);
(2503603881956886016,18276059053395206144);
(-18276059053395206144,2503603881956886016);
(18215855931264557056,2909460364458038272);
(-2909460364458038272,18215855931264557056);
(10823256100812599296,14937854407416123392);
(-14937854407416123392,10823256100812599296);
(15715854183468662784,9658897152619909120);
(-9658897152619909120,15715854183468662784);
(4282915389868689408,17942658740670636032);
(-17942658740670636032,4282915389868689408);
(17298235807934877696,6407293098806864896);
(-6407293098806864896,17298235807934877696);
(7701059443138606080,16762340241570809856);
(-16762340241570809856,7701059443138606080);
(13529521096284311552,12539315205629700096);
(-12539315205629700096,13529521096284311552);
(700181300052740608,18433450926725437440);
(-18433450926725437440,700181300052740608);
(18435013224657264640,657764644572965120);
(-657764644572965120,18435013224657264640);
(12570413021816532992,13500632703021137920);
(-13500632703021137920,12570413021816532992);
(16780015767962157056,7662469428838188032);
(-7662469428838188032,16780015767962157056);
(6447078844177139712,17283447031709329408);
(-17283447031709329408,6447078844177139712);
(17952466098462173184,4241618547736795648);
(-4241618547736795648,17952466098462173184);
(9695033278932881408,15693587755555528704);
(-15693587755555528704,9695033278932881408);
(14962718841840613376,10788855906951690240);
(-10788855906951690240,14962718841840613376);
(2951366785003142144,18209113131103301632);
(-18209113131103301632,2951366785003142144);
(18281771387707942912,2461544606242517504);
(-2461544606242517504,18281771387707942912);
(11186589637083232256,14667739403617740800);
(-14667739403617740800,11186589637083232256);
(15948162064317173760,9270301704432982016);
(-9270301704432982016,15948162064317173760);
(4721960344290949120,17832146741990494208);
(-17832146741990494208,4721960344290949120);
(17450268746871973888,5980843383911810048);
(-5980843383911810048,17450268746871973888);
(8110108450462110720,16568298278419589120);
(-16568298278419589120,8110108450462110720);
(13833176457462988800,12203507529297887232);
(-12203507529297887232,13833176457462988800);
(1152349950194555520,18410715806649806848);
(-18410715806649806848,1152349950194555520);
(18380532462505943040,1561535563381014784);
(-1561535563381014784,18380532462505943040);
(11892826760126752768,14101171531988094976);
(-14101171531988094976,11892826760126752768);
(16383823949613721600,8476595997745930240);
(-8476595997745930240,16383823949613721600);
(5591254505153528832,17578971527923322880);
(-17578971527923322880,5591254505153528832);
(17722715209299933184,5117395092328448000);
(-5117395092328448000,17722715209299933184);
(8913307333737741312,16150396877330149376);
(-16150396877330149376,8913307333737741312);
(14415311523698178048,11510046072699838464);
(-11510046072699838464,14415311523698178048);
(2054332901547918592,18331996161099210752);
(-18331996161099210752,2054332901547918592);
(18138967924342902784,3355623572541739008);
(-3355623572541739008,18138967924342902784);
(10453403039774447616,15198971406281834496);
(-15198971406281834496,10453403039774447616);
(15474079659713669120,10041674442331525120);
(-10041674442331525120,15474079659713669120);
(3841290567364093952,18042362752644624384);
(-18042362752644624384,3841290567364093952);
(17135783058569779200,6829883299923317760);
(-6829883299923317760,17135783058569779200);
(7287371605567715328,16946285197744781312);
(-16946285197744781312,7287371605567715328);
(13217716057498613760,12867569667356837888);
(-12867569667356837888,13217716057498613760);
(247590886877239040,18445082425233936384);
(-18445082425233936384,247590886877239040);
(18441696886084972544,431489145520818304);
(-431489145520818304,18441696886084972544);
(12735140023931361280,13345357825543682048);
(-13345357825543682048,12735140023931361280);
(16872782550594850816,7455975853051053056);
(-7455975853051053056,16872782550594850816);
(6658687872956116992,17203030045067223040);
(-17203030045067223040,6658687872956116992);
(18003165495184111616,4020994786610733056);
(-4020994786610733056,18003165495184111616);
(9886887723740149760,15573433085196558336);
(-15573433085196558336,9886887723740149760);
(15093988034951698432,10604427948818053120);
(-10604427948818053120,15093988034951698432);
(3174598381449561088,18171524207876352000);
(-18171524207876352000,3174598381449561088);
(18310601742822780928,2237013798945766912);
(-2237013798945766912,18310601742822780928);
(11365743033113772032,14529358286798637056);
(-14529358286798637056,11365743033113772032);
(16060722059330830336,9073895186404929536);
(-9073895186404929536,16060722059330830336);
(4940432660822303744,17772858296988098560);
(-17772858296988098560,4940432660822303744);
(17522348922295470080,5766251396381295616);
(-5766251396381295616,17522348922295470080);
(8312816280864306176,16467527209679532032);
(-16467527209679532032,8312816280864306176);
(13981890654582802432,12032834273114068992);
(-12032834273114068992,13981890654582802432);
(1378190984251456000,18395188407077173248);
(-18395188407077173248,1378190984251456000);
(18398310885666516992,1335860574799421952);
(-1335860574799421952,18398310885666516992);
(12064974318472638464,13954166460793499648);
(-13954166460793499648,12064974318472638464);
(16486611150121453568,8274903002792805376);
(-8274903002792805376,16486611150121453568);
(5806554516100908032,17509034569972342784);
(-17509034569972342784,5806554516100908032);
(17784179031237971968,4899524783671790592);
(-4899524783671790592,17784179031237971968);
(9110826391698099200,16039800789949851648);
(-16039800789949851648,9110826391698099200);
(14555472048303820800,11332281340135561216);
(-11332281340135561216,14555472048303820800);
(2279140006803246848,18305405970650511360);
(-18305405970650511360,2279140006803246848);
(18178780756561293312,3132777860911183872);
(-3132777860911183872,18178780756561293312);
(10639130677266622464,15069547616069392384);
(-15069547616069392384,10639130677266622464);
(15596141282346168320,9851027561733652480);
(-9851027561733652480,15596141282346168320);
(4062408870532985856,17993865651647879168);
(-17993865651647879168,4062408870532985856);
(17218305940022657024,6619086604412946432);
(-6619086604412946432,17218305940022657024);
(7494779867493199872,16855581913976066048);
(-16855581913976066048,7494779867493199872);
(13374625661605912576,12704399054376837120);
(-12704399054376837120,13374625661605912576);
(473921778903330560,18440655223402979328);
(-18440655223402979328,473921778903330560);
(18425553318047232000,883941086689087872);
(-883941086689087872,18425553318047232000);
(12403792961738229760,13653874434872750080);
(-13653874434872750080,12403792961738229760);
(16684721976676558848,7867809064914116608);
(-7867809064914116608,16684721976676558848);
(6234498909038449664,17361261194801973248);
(-17361261194801973248,6234498909038449664);
(17899063126380167168,4461603536711468544);
(-4461603536711468544,17899063126380167168);
(9501718797774940160,15811379029324064768);
(-15811379029324064768,9501718797774940160);
(14829196318309150720,10971659103070271488);
(-10971659103070271488,14829196318309150720);
(2727690723574881792,18243959828871088128);
(-18243959828871088128,2727690723574881792);
(18250187865067757568,2685704713975841280);
(-2685704713975841280,18250187865067757568);
(11005751581800857600,14803911612834844672);
(-14803911612834844672,11005751581800857600);
(15833200334758580224,9465312149123198976);
(-9465312149123198976,15833200334758580224);
(4502776917900479488,17888749731285334016);
(-17888749731285334016,4502776917900479488);
(17375560625162332160,6194534678427977728);
(-6194534678427977728,17375560625162332160);
(7906179267558599680,16666574222381905920);
(-16666574222381905920,7906179267558599680);
(13682379034851100672,12372342982135820288);
(-12372342982135820288,13682379034851100672);
(926335376473831936,18423470620141893632);
(-18423470620141893632,926335376473831936);
(18359985998765428736,1786975390450541312);
(-1786975390450541312,18359985998765428736);
(11718888185816045568,14246053018618159104);
(-14246053018618159104,11718888185816045568);
(16278569405483616256,8677012448521165824);
(-8677012448521165824,16278569405483616256);
(5375112471843924992,17646261157422735360);
(-17646261157422735360,5375112471843924992);
(17658582411640643584,5334494740107460608);
(-5334494740107460608,17658582411640643584);
(8714445964478643200,16258560774346553344);
(-16258560774346553344,8714445964478643200);
(14272980106200748032,11686077434662844416);
(-11686077434662844416,14272980106200748032);
(1829216421314047488,18355825620356429824);
(-18355825620356429824,1829216421314047488);
(18096423430275473408,3577963939605223424);
(-3577963939605223424,18096423430275473408);
(10266101158235123712,15326106287306698752);
(-15326106287306698752,10266101158235123712);
(15349687697602555904,10230809083694565376);
(-10230809083694565376,15349687697602555904);
(3619593779965134336,18088142740175845376);
(-18088142740175845376,3619593779965134336);
(17050679591218640896,7039651440131006464);
(-7039651440131006464,17050679591218640896);
(7078865892283491328,17034436433296052224);
(-17034436433296052224,7078865892283491328);
(13058815913971636224,13028802471675576320);
(-13028802471675576320,13058815913971636224);
(21222708574294620,18446731865497997312);
(-18446731865497997312,21222708574294620)].
