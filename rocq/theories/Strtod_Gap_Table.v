(** Certificates for the distance between decimals of 18 digits and midpoints of doubles.
    Row k (from 35 for negative, from 38 for positive exponents of ten) lists the first exponent q and,
    for q, q + 1, ..., the Farey neighbours a/b < c/d of 10^e / 2^q.  Checked in Strtod_Gap_Proof. *)
From Coq Require Import ZArith List.
Import ListNotations.
Open Scope Z_scope.
Definition neg_rows : list (Z * list (Z * Z * Z * Z)) :=
  [ (-113, [(17888696636645914,172261882592877991,3615239595401375,34813490964589516); (8944348318322957,172261882592877991,12559587913724332,241888864522057023); (15224142275185123,586412629707813005,6279793956862166,241888864522057023); (12084245296754040,930936394893568987,3139896978431083,241888864522057023)]);
    (-117, [(17326192615563031,104278228689168265,1446095838160550,8703372741147379); (17326192615563031,208556457378336530,723047919080275,8703372741147379); (17701195296284953,426140775907021005,723047919080275,17406745482294758); (17888696636645914,861309412964389955,723047919080275,34813490964589516); (9667396237403232,930936394893568987,723047919080275,69626981929179032)]);
    (-120, [(17615411783195141,132523629046747176,1156876670528440,8703372741147379); (17615411783195141,265047258093494352,578438335264220,8703372741147379); (17904630950827251,538797888928136083,289219167632110,8703372741147379); (16603144696482756,999265423185945755,144609583816055,8703372741147379); (8301572348241378,999265423185945755,144609583816055,17406745482294758)]);
    (-123, [(17615411783195141,165654536308433970,925501336422752,8703372741147379); (17615411783195141,331309072616867940,462750668211376,8703372741147379); (17846787117300829,671321517974883259,231375334105688,8703372741147379); (13219280435187069,994508126303871358,115687667052844,8703372741147379)]);
    (-127, [(11297293582590145,66399523929577986,7404010691382016,43516863705736895); (14999298928281153,176315911564892867,3702005345691008,43516863705736895); (16850301601126657,396148686835522629,1851002672845504,43516863705736895); (16850301601126657,792297373671045258,17775802937549409,835814237376782153); (10371792246167393,975358655461773986,462750668211376,43516863705736895)]);
    (-130, [(4518917433036058,33199761964788993,17067480099282061,125392040246736734); (2259458716518029,33199761964788993,17067480099282061,250784080493473468); (2259458716518029,66399523929577986,16441845557454132,483182414246996419); (10480381495245095,615981462106152391,8220922778727066,483182414246996419); (6369920105881562,748780509965308363,4110461389363533,483182414246996419)]);
    (-133, [(16469740685502243,151250680744655278,1605929046641989,14748129079289687); (10643763912714105,195495067982524339,12249692959356094,224991326141103713); (16768610392392152,615981462106152391,6124846479678047,224991326141103713); (8384305196196076,615981462106152391,6124846479678047,449982652282207426)]);
    (-137, [(2651576518443653,15219302823259488,15499008891579565,88959948219707923); (17030022260342568,195495067982524339,14378445741898915,165056462336005363); (8515011130171284,195495067982524339,14378445741898915,330112924672010726); (4257505565085642,195495067982524339,14378445741898915,660225849344021452); (2128752782542821,195495067982524339,10120940176813273,929461562722994226)]);
    (-140, [(2651576518443653,19024128529074360,17702360150150958,127008205277856643); (14154333111962785,203104719394154083,11502756593519132,165056462336005363); (14154333111962785,406209438788308166,5751378296759566,165056462336005363); (17030022260342568,977475339912621695,2875689148379783,165056462336005363); (8515011130171284,977475339912621695,2875689148379783,330112924672010726)]);
    (-143, [(2651576518443653,23780160661342950,17343779942253150,155544398071468183); (11323466489570228,203104719394154083,8671889971126575,155544398071468183); (5661733244785114,203104719394154083,14333623215911689,514193515537090449); (2830866622392557,203104719394154083,11502756593519132,825282311680026815)]);
    (-147, [(14892241532232219,83473900757885077,4285935458457607,24023499104527702); (9589088495344913,107497399862412779,13875023953802520,155544398071468183); (16526600472246173,370539197796293741,6937511976901260,155544398071468183); (16526600472246173,741078395592587482,3468755988450630,155544398071468183); (9589088495344913,859979198899302232,1734377994225315,155544398071468183)]);
    (-150, [(6814083704584409,47742825155074464,15385954621499623,107801572916393719); (17914102867626425,251030048381617111,11100019163042016,155544398071468183); (17914102867626425,502060096763234222,5550009581521008,155544398071468183); (15139098076865921,848575795455000261,2775004790760504,155544398071468183); (8201586099964661,919429600552659607,1387502395380252,155544398071468183)]);
    (-153, [(6814083704584409,59678531443843080,15034397179033462,131672985493930951); (14331282294101140,251030048381617111,7517198589516731,131672985493930951); (7165641147050570,251030048381617111,14682839736567301,514376019369479013); (3582820573525285,251030048381617111,11100019163042016,777721990357340915)]);
    (-157, [(6814083704584409,37299082152401925,11789684818201603,64534637619607486); (6814083704584409,74598164304803850,16115967965977415,176431884076813261); (11465025835280912,251030048381617111,16115967965977415,352863768153626522); (5732512917640456,251030048381617111,16115967965977415,705727536307253044); (2866256458820228,251030048381617111,10383455048336959,909394975851271866)]);
    (-160, [(367696518193443,2515881671299091,17696225345308118,121082487308233259); (13260470890975375,181463647419411443,12892774372781932,176431884076813261); (13260470890975375,362927294838822886,6446387186390966,176431884076813261); (16483664484170858,902286473754459033,3223193593195483,176431884076813261); (8241832242085429,902286473754459033,3223193593195483,352863768153626522)]);
    (-163, [(16280261587363893,139242587653682446,4936491838196707,42221059765728997); (10608376712780300,181463647419411443,15544868550977007,265905766950869437); (5304188356390150,181463647419411443,15544868550977007,531811533901738874); (2652094178195075,181463647419411443,12892774372781932,882159420384066305)]);
    (-167, [(7793560217139653,41660705428698668,10566124829478001,56481531133315439); (16973402740448480,181463647419411443,9179842523308827,98142236562014107); (8486701370224240,181463647419411443,17666543893533067,377748120543439657); (4243350685112120,181463647419411443,17666543893533067,755496241086879314); (2121675342556060,181463647419411443,11301517865864887,966601539915524299)]);
    (-170, [(7793560217139653,52075881785873335,11570323950438262,77311883847664773); (13578722192358784,181463647419411443,5785161975219131,77311883847664773); (6789361096179392,181463647419411443,12574523071398523,336087415114740989); (3394680548089696,181463647419411443,15969203619488219,853638477648893421); (1697340274044848,181463647419411443,9179842523308827,981422365620141070)]);
    (-173, [(15683133534496280,130991643295828567,3872776833515583,32346941408384527); (15587120434279306,260379408929366675,3872776833515583,64693882816769054); (15539113884170819,519154940196442891,3872776833515583,129387765633538108); (13578722192358784,907318237097057215,3872776833515583,258775531267076216)]);
    (-177, [(14754957207446005,77024470552699559,16227257460678659,84710236489223076); (14754957207446005,154048941105399118,15491107334062332,161734707041922635); (14754957207446005,308097882210798236,7745553667031166,161734707041922635); (14754957207446005,616195764421596472,3872776833515583,161734707041922635); (9313867020480794,777930471463519107,3872776833515583,323469414083845270)]);
    (-180, [(11803965765956804,77024470552699559,16227257460678659,105887795611528845); (5901982882978402,77024470552699559,16227257460678659,211775591223057690); (2950991441489201,77024470552699559,16227257460678659,423551182446115380); (2950991441489201,154048941105399118,15491107334062332,808673535209613175); (2950991441489201,308097882210798236,7745553667031166,808673535209613175)]);
    (-183, [(17415323159303011,142050357528797647,1769316677888742,14431662529414643); (17415323159303011,284100715057595294,884658338944371,14431662529414643); (12688624104901175,413985677822327081,13573282443845546,442849002881156367); (12688624104901175,827971355644654162,6786641221922773,442849002881156367)]);
    (-187, [(10803057231159555,55072841889475948,11920215961809682,60767998808675037); (16763165212064396,170913682587626933,5960107980904841,60767998808675037); (14341690586937039,292449680204977007,5960107980904841,121535997617350074); (10150899283920940,413985677822327081,16111007264825781,657057673057027229); (5075449641960470,413985677822327081,11035557622865311,900129668291727377)]);
    (-190, [(2160611446231911,13768210472368987,17432303599991974,111085047430209367); (2160611446231911,27536420944737974,17358597584923631,221230731209161263); (16241438854273504,413985677822327081,14080827408041593,358912835932851133); (8120719427136752,413985677822327081,14080827408041593,717825671865702266); (4060359713568376,413985677822327081,5960107980904841,607679988086750370)]);
    (-193, [(16882251686636243,134474893018411991,8239805901708599,65633840656567056); (12561028794172421,200108733674979047,8239805901708599,131267681313134112); (12561028794172421,400217467349958094,10400417347940510,331376414988113159); (12561028794172421,800434934699916188,5200208673970255,331376414988113159)]);
    (-197, [(17123835616567670,85249512525986699,8239805901708599,41021150410354410); (16801723709992434,167291813346695519,8239805901708599,82042300820708820); (8400861854996217,167291813346695519,16640667756704816,331376414988113159); (16721195733348625,665960041681504197,8320333878352408,331376414988113159); (8400861854996217,669167253386782076,4160166939176204,331376414988113159)]);
    (-200, [(15089340148335667,93901194275936362,16479611803417198,102552876025886025); (15089340148335667,187802388551872724,8239805901708599,102552876025886025); (15089340148335667,375604777103745448,11664573025022133,290355264577758749); (13376956586678900,665960041681504197,11664573025022133,580710529155517498); (6688478293339450,665960041681504197,4976094731682683,495461016629530799)]);
    (-203, [(2461759367634521,19149457694009259,17869883458498729,139005697219794610); (15089340148335667,234752985689840905,12627580780701146,196454070301822387); (15089340148335667,469505971379681810,6313790390350573,196454070301822387); (10701565269343120,665960041681504197,6313790390350573,392908140603644774); (5350782634671560,665960041681504197,6313790390350573,785816281207289548)]);
    (-207, [(13056175865722342,63475610845962541,9737226328045429,47339772033920664); (6528087932861171,63475610845962541,16265314260906600,158155154913803869); (6528087932861171,126951221691925082,14660745063314471,285106376605728951); (17122504430948992,665960041681504197,10594416498087821,412057598297654033); (8561252215474496,665960041681504197,10594416498087821,824115196595308066)]);
    (-210, [(6550050161359702,39805724829002209,16287276489405131,98980439871403039); (3275025080679851,39805724829002209,16287276489405131,197960879742806078); (13056175865722342,317378054229812705,9781150785042491,237766604571808287); (16309238717903662,792911263373429279,9781150785042491,475533209143616574); (8154619358951831,792911263373429279,9781150785042491,951066418287233148)]);
    (-213, [(672574798934795,5109183653900897,17456728259286473,132609236644299384); (11754950724849814,178591889529407457,11082375925915019,168373522221605663); (16959851288339926,515338933972618783,11082375925915019,336747044443211326); (8479925644169963,515338933972618783,11082375925915019,673494088886422652); (7178700503297435,872522713031433697,1301225140872528,158155154913803869)]);
    (-216, [(538059839147836,5109183653900897,17994788098434309,170870729459275127); (269029919573918,5109183653900897,17994788098434309,341741458918550254); (134514959786959,5109183653900897,17994788098434309,683482917837100508); (11351405845488937,862304345723631903,11216890885701978,852085978415830109)]);
    (-220, [(15424187475731975,91538385686945494,3706569587516429,21997489139147003); (9565378531624202,113535874826092497,13271948119140631,157530853104386503); (4782689265812101,113535874826092497,13271948119140631,315061706208773006); (9027318692476366,428597581034865503,13271948119140631,630123412417546012); (4513659346238183,428597581034865503,8758288772902448,831649243800226521)]);
    (-223, [(6169674990292790,45769192843472747,16667651660472043,123647512113076628); (3084837495146395,45769192843472747,16667651660472043,247295024226153256); (12961082072955614,384602602756571497,9876244577809219,293064217069626003); (16356785614287026,970731036895823503,9876244577809219,586128434139252006); (8178392807143513,970731036895823503,1697851770665706,201525831382680509)]);
    (-226, [(4935739992234232,45769192843472747,16667651660472043,154559390141345785); (2467869996117116,45769192843472747,16667651660472043,309118780282691570); (1233934998058558,45769192843472747,17901586658530601,664006753408855887); (616967499029279,45769192843472747,12965846666296369,961859964069929798)]);
    (-230, [(8641356661082510,50082145746204633,10501788344851857,60864528003034348); (4320678330541255,50082145746204633,14822466675393112,171811201752273329); (4320678330541255,100164291492409266,16052589998779066,372139784737091861); (4320678330541255,200328582984818532,16667651660472043,772796950706728925); (4320678330541255,400657165969637064,10494164995506649,973125533691547457)]);
    (-233, [(6913085328866008,50082145746204633,17414873673717865,126162805749997568); (3456542664433004,50082145746204633,17414873673717865,252325611499995136); (1728271332216502,50082145746204633,17414873673717865,504651222999990272); (864135666108251,50082145746204633,16550738007609614,959220300253775911); (864135666108251,100164291492409266,8275369003804807,959220300253775911)]);
    (-236, [(17203417111233313,155788624418524989,3482974734743573,31540701437499392); (13826170657732016,250410728731023165,17309145392475589,313492131606021949); (6913085328866008,250410728731023165,17309145392475589,626984263212043898); (3456542664433004,250410728731023165,10396060063609581,753147068962041466)]);
    (-240, [(14986758332896438,84822046184151357,3482974734743573,19712938398437120); (17942303370678938,203099676574774077,3482974734743573,39425876796874240); (8971151685339469,203099676574774077,12454126420083042,281951430168522557); (15198214895380990,688150783318070711,6227063210041521,281951430168522557); (7599107447690495,688150783318070711,6227063210041521,563902860337045114)]);
    (-243, [(16168976348009438,114391453781807037,3482974734743573,24641172998046400); (15050437643491865,212956145773992637,3482974734743573,49282345996092800); (9266706189117719,262238491770085437,12749680923861292,360803183762271037); (9266706189117719,524476983540170874,15641546651048365,885280167302441911); (6079285958152396,688150783318070711,3187420230965323,360803183762271037)]);
    (-246, [(17114750760099838,151353213278876637,3482974734743573,30801466247558000); (12040350114793492,212956145773992637,15523324849537065,274559078269108637); (6020175057396746,212956145773992637,15523324849537065,549118156538217274); (3010087528698373,212956145773992637,12513237320838692,885280167302441911)]);
    (-250, [(14844892171082878,82049914221871137,3482974734743573,19250916404723750); (17871370289772158,197555412650213637,3482974734743573,38501832809447500); (8935685144886079,197555412650213637,12418659879629652,274559078269108637); (15145015084700905,669669903569535911,6209329939814826,274559078269108637); (8935685144886079,790221650600854548,3104664969907413,274559078269108637)]);
    (-253, [(14993691178766441,103590435426287756,6965949469487146,48127291011809375); (14993691178766441,207180870852575512,3482974734743573,48127291011809375); (9238332956755007,255308161864384887,12721307691498580,351562743888003637); (9238332956755007,510616323728769774,15598986802504297,862179067616773411); (6058006033880362,669669903569535911,3180326922874645,351562743888003637)]);
    (-256, [(14993691178766441,129488044282859695,8571497811343005,74024899868381314); (14993691178766441,258976088565719390,11782594495054723,203512944151241009); (13388142836910582,462489032716960399,11782594495054723,407025888302482018); (6694071418455291,462489032716960399,11782594495054723,814051776604964036)]);
    (-260, [(17987285421652675,97088267968740969,6857198249074404,37012449934190657); (17987285421652675,194176535937481938,3428599124537202,37012449934190657); (17987285421652675,388353071874963876,1714299562268601,37012449934190657); (16707990741035042,721465121282679789,1714299562268601,74024899868381314); (10068294932786122,869514921019442417,1714299562268601,148049799736762628)]);
    (-263, [(17649569502066009,119081763394294048,3259741164743869,21993495425553079); (17649569502066009,238163526788588096,10454655333404939,141075258819847127); (14052112417735474,379238785608435223,10454655333404939,282150517639694254); (17480711542272676,943539820887823731,10454655333404939,564301035279388508); (8740355771136338,943539820887823731,1714299562268601,185062249670953285)]);
    (-266, [(17649569502066009,148852204242867560,6137706832208297,51763936274126591); (11893638167137153,200616140516994151,6137706832208297,103527872548253182); (11893638167137153,401232281033988302,9015672499672725,304144013065247333); (11893638167137153,802464562067976604,10454655333404939,705376294099235635)]);
    (-270, [(17649569502066009,93032627651792225,13350244831946477,70370461804485036); (17649569502066009,186065255303584450,15499907167006243,163403089456277261); (16574738334536126,349468344759861711,15499907167006243,326806178912554522); (8287369167268063,349468344759861711,15499907167006243,653612357825109044); (8287369167268063,698936689519723422,3606268999869090,304144013065247333)]);
    (-273, [(6109508702484921,40254781298428448,13350244831946477,87963077255606295); (9729876767215699,128217858554034743,13350244831946477,175926154511212590); (9729876767215699,256435717108069486,11540060799581088,304144013065247333); (9729876767215699,512871434216138972,15499907167006243,817015447281386305); (6844861567320427,721598855367030611,2885015199895272,304144013065247333)]);
    (-276, [(6109508702484921,50318476623035560,13123999346551150,108090467904820519); (12671508375760496,208727421150891639,6561999673275575,108090467904820519); (12897753861155823,424908356960532677,6561999673275575,216180935809641038); (9729876767215699,641089292770173715,6561999673275575,432361871619282076)]);
    (-280, [(6109508702484921,31449047889397225,14888890251996919,76641420015423294); (16608708179725841,170988563683614969,10499199477240920,108090467904820519); (16608708179725841,341977127367229938,5249599738620460,108090467904820519); (16608708179725841,683954254734459876,2624799869310230,108090467904820519); (11359108441105381,935546637849637676,1312399934655115,108090467904820519)]);
    (-283, [(10309188493381289,66333926837951661,16798719163585472,108090467904820519); (10309188493381289,132667853675903322,8399359581792736,108090467904820519); (14508868284277657,373426175256627163,4199679790896368,108090467904820519); (16608708179725841,854942818418074845,2099839895448184,108090467904820519); (9259268545657197,953252361502406057,1049919947724092,108090467904820519)]);
    (-286, [(2825769263311679,22727828152258616,15804830603720045,127119180819430761); (12141069196827541,195302665276206609,9315299933515862,149847008971689377); (12141069196827541,390605330552413218,16798719163585472,540452339524102595); (12141069196827541,781210661104826436,8399359581792736,540452339524102595)]);
    (-290, [(2825769263311679,14204892595161635,16810421176017035,84504503033945856); (2825769263311679,28409785190323270,15469633746287715,155528966009754031); (11973470768111376,240758321580723841,9147701504799697,183938751200077301); (15134436888855385,608635823980878443,9147701504799697,367877502400154602); (12141069196827541,976513326381033045,9147701504799697,735755004800309204)]);
    (-293, [(14665161288450123,92150588734294639,3362084235203407,21126125758486464); (9013622761826765,113276714492781103,12375706997030172,155528966009754031); (9013622761826765,226553428985562206,15201476260341851,382082394995316237); (12107549511084308,608635823980878443,15201476260341851,764164789990632474); (6053774755542154,608635823980878443,9147701504799697,919693756000386505)]);
    (-296, [(14421796418922824,113276714492781103,17783880654126231,139684371690889183); (7210898209461412,113276714492781103,17783880654126231,279368743381778366); (3605449104730706,113276714492781103,17783880654126231,558737486763556732); (1802724552365353,113276714492781103,14178431549395525,890921544541551258)]);
    (-300, [(15678288952829023,76966185845382493,3362084235203407,16504785748817550); (12882270829219622,126480543091835143,16244355064423029,159490114589470243); (6441135414609811,126480543091835143,16244355064423029,318980229178940486); (6441135414609811,252961086183670286,17783880654126231,698421858454445915); (6441135414609811,505922172367340572,12112508034368021,951382944638116201)]);
    (-303, [(15232298550425944,93470971594200043,10978233510416379,67366467983121959); (7616149275212972,93470971594200043,10978233510416379,134732935966243918); (14786308148022865,362936843526687879,10978233510416379,269465871932487836); (12882270829219622,632402715459175715,10978233510416379,538931743864975672); (6441135414609811,632402715459175715,4537098095806568,445460772270775629)]);
    (-306, [(850813008001913,6526125902769521,17537730793606213,134522436929754644); (850813008001913,13052251805539042,17702401980823193,271571080887914585); (11829046518418292,362936843526687879,10978233510416379,336832339915609795); (5914523259209146,362936843526687879,10978233510416379,673664679831219590); (2957261629604573,362936843526687879,8020971880811806,984392516135751301)]);
    (-309, [(10994700629138077,105417994162903392,7591448597130425,72787364649055787); (9293074613134251,178205358811959179,16884523210264676,323780088110070753); (9293074613134251,356410717623918358,17735336218266589,680190805733989111); (9293074613134251,712821435247836716,4221130802566169,323780088110070753)]);
    (-313, [(10994700629138077,65886246351814620,12146317755408680,72787364649055787); (17067859506842417,204559857352685027,6073158877704340,72787364649055787); (17067859506842417,409119714705370054,3036579438852170,72787364649055787); (17067859506842417,818239429410740108,1518289719426085,72787364649055787); (9293074613134251,891026794059795895,1518289719426085,145574729298111574)]);
    (-316, [(10994700629138077,82357807939768275,9717054204326944,72787364649055787); (15853227731301549,237502980528592337,4858527102163472,72787364649055787); (15853227731301549,475005961057184674,2429263551081736,72787364649055787); (15853227731301549,950011922114369348,1214631775540868,72787364649055787); (7958121190285907,953788103791013465,607315887770434,72787364649055787)]);
    (-319, [(8540231218348235,79965197117090153,15802816011885337,147967340120789696); (8540231218348235,159930394234180306,12171523615116786,227932537237879849); (14625993025906628,547793325706240461,6085761807558393,227932537237879849); (7312996512953314,547793325706240461,6085761807558393,455865074475759698)]);
    (-323, [(13664369949357176,79965197117090153,15802816011885337,92479587575493560); (6832184974678588,79965197117090153,15802816011885337,184959175150987120); (3416092487339294,79965197117090153,15802816011885337,369918350301974240); (1708046243669647,79965197117090153,17510862255554984,819801897721038633); (1708046243669647,159930394234180306,10463477371447139,979732291955218939)]);
    (-326, [(4610369554731606,33725403329343373,15802816011885337,115599484469366950); (2305184777365803,33725403329343373,15802816011885337,231198968938733900); (11359185171991373,332375178926764019,9054000394625570,264924372268077273); (11359185171991373,664750357853528038,15886185369304158,929674730121605311); (3416092487339294,399825985585450765,7943092684652079,929674730121605311)]);
    (-329, [(17125062838441999,156589847194046814,1316415380484425,12037169452670051); (13169985250916487,240850033362737171,14486400631400912,264924372268077273); (13169985250916487,481700066725474342,7243200315700456,264924372268077273); (13169985250916487,963400133450948684,3621600157850228,264924372268077273)]);
    (-333, [(16598496686248229,94859362133111746,2106264608775080,12037169452670051); (17651628990635769,201755893718893543,1053132304387540,12037169452670051); (17651628990635769,403511787437787086,526566152193770,12037169452670051); (17914912066732654,819060744328244223,263283076096885,12037169452670051); (10800437566044522,987581116665624937,263283076096885,24074338905340102)]);
    (-336, [(17441002529758261,124592787392724708,1685011687020064,12037169452670051); (17441002529758261,249185574785449416,842505843510032,12037169452670051); (17862255451513277,510408319023568883,421252921755016,12037169452670051); (17441002529758261,996742299141797664,210626460877508,12037169452670051); (8700004403341679,994399533711981095,105313230438754,12037169452670051)]);
    (-339, [(13160620217087059,117518929449883633,11020429060751458,98407902054372507); (13160620217087059,235037858899767266,5510214530375729,98407902054372507); (14845631904107123,530261565062884787,5510214530375729,196815804108745014); (10177923217241426,727077369171629801,5510214530375729,393631608217490028)]);
    (-343, [(16521031411409330,92203762667086287,3980133393033463,22213097089154236); (16220782491771591,181056151023703231,3980133393033463,44426194178308472); (14080591335435990,314334733558628647,3980133393033463,88852388356616944); (7040295667717995,314334733558628647,11020429060751458,492039510271862535); (7040295667717995,628669467117257294,5510214530375729,492039510271862535)]);
    (-346, [(17196958522160927,119970134028529082,3980133393033463,27766371361442795); (14568679350630658,203269248112857467,3980133393033463,55532742722885590); (11264473068348792,314334733558628647,15244606461382255,425400219004399827); (5632236534174396,314334733558628647,15244606461382255,850800438008799654); (2816118267087198,314334733558628647,6796251660120661,758596675341713367)]);
    (-349, [(8215551776072341,71642090549296463,15920533572133852,138831856807213975); (8215551776072341,143284181098592926,16175818562139267,282116037905806901); (8215551776072341,286568362197185852,12195685169105804,425400219004399827); (14313394360625243,998536943398771531,6097842584552902,425400219004399827)]);
    (-353, [(8521893764078839,46445928202577396,16226875560140350,88439532113775841); (16635331544149014,181331388518930633,8113437780070175,88439532113775841); (16431103552144682,358210452746482315,8113437780070175,176879064227551682); (16328989556142516,711968581201585679,8113437780070175,353758128455103364); (8164494778071258,711968581201585679,8113437780070175,707516256910206728)]);
    (-356, [(8521893764078839,58057410253221745,12981500448112280,88439532113775841); (15012643988134979,204554352620219331,6490750224056140,88439532113775841); (15012643988134979,409108705240438662,3245375112028070,88439532113775841); (16635331544149014,906656942594653165,1622687556014035,88439532113775841); (8317665772074507,906656942594653165,1622687556014035,176879064227551682)]);
    (-359, [(16310794032946207,138901411901859062,10385200358489824,88439532113775841); (16310794032946207,277802823803718124,5192600179244912,88439532113775841); (16310794032946207,555605647607436248,2596300089622456,88439532113775841); (13714493943323751,934332230987320814,1298150044811228,88439532113775841)]);
    (-363, [(7416238949985171,39472559516176343,16335452318052053,86944624923292118); (7416238949985171,78945119032352686,11875845634018612,126417184439468461); (7416238949985171,157890238064705372,13354161766994477,284307422504173833); (17801439308474995,757978136698289949,10385200358489824,442197660568879205); (7416238949985171,631560952258821488,5192600179244912,442197660568879205)]);
    (-366, [(17197783712731726,114417925603059313,6233586043604479,41472435988911201); (14832477899970342,197362797580881715,6233586043604479,82944871977822402); (7416238949985171,197362797580881715,13649824993589650,363252541536526519); (14241151446779996,757978136698289949,6824912496794825,363252541536526519); (7120575723389998,757978136698289949,6824912496794825,726505083073053038)]);
    (-369, [(9372547902534482,77945180795985257,17153446038476199,142653680370270631); (4686273951267241,77945180795985257,17153446038476199,285307360740541262); (15606133946138961,519142903128497033,10919859994871720,363252541536526519); (10146203948703101,675033264720467547,5459929997435860,363252541536526519)]);
    (-373, [(9690877855853035,50370323150203271,16835116085157646,87503965078706659); (9690877855853035,100740646300406542,8417558042578823,87503965078706659); (9054217949215929,188244611379113201,17471775991794752,363252541536526519); (9054217949215929,376489222758226402,17790105945113305,739741764294752921); (9054217949215929,752978445516452804,4367943997948688,363252541536526519)]);
    (-376, [(7752702284682428,50370323150203271,14896940513987039,96787375560832506); (3876351142341214,50370323150203271,14896940513987039,193574751121665012); (1938175571170607,50370323150203271,16835116085157646,437519825393533295); (16170260327261251,840482410595159463,14232084756090644,739741764294752921); (9054217949215929,941223056895566005,7116042378045322,739741764294752921)]);
    (-379, [(6080469016670379,49382005465309762,17632942994633320,143204427971461741); (6080469016670379,98764010930619524,14896940513987039,241968438902081265); (6080469016670379,197528021861239048,16569173781999088,538260471693939837); (6080469016670379,395056043722478096,14365055907669923,933316515416417933)]);
    (-383, [(17512918798400873,88893538623946567,972708181182949,4937353577046834); (12160938033340758,123455013663274405,13133646214523707,133329720817368073); (6080469016670379,123455013663274405,13133646214523707,266659441634736146); (6080469016670379,246910027326548810,15687526632267422,637024482624559361); (6080469016670379,493820054653097620,7843763316133711,637024482624559361)]);
    (-386, [(9145125517962837,58024491648852077,11090541880328735,70367875591469162); (9145125517962837,116048983297704154,10117833699145786,128392367240321239); (14204042367535730,360490333835729547,5058916849572893,128392367240321239); (12160938033340758,617275068316372025,17219854882913651,874059802797014503); (6080469016670379,617275068316372025,5058916849572893,513569468961284956)]);
    (-389, [(16072142659859927,127469260224262902,4436216752131494,35183937795734581); (16072142659859927,254938520448525804,2218108376065747,35183937795734581); (13581342270094331,430858209427198709,15799450646160078,501226085018667871); (13581342270094331,861716418854397418,7899725323080039,501226085018667871)]);
    (-393, [(4988915232824583,24729641976966508,15534073085753620,77001121070806873); (4988915232824583,49459283953933016,17744867008525976,175919688978672905); (4988915232824583,98918567907866032,13861348737087571,274838256886538937); (4988915232824583,197837135815732064,14414047217780660,571593960610137033); (4988915232824583,395674271631464128,12195938841714913,967268232241601161)]);
    (-396, [(4988915232824583,30912052471208135,17416173701427479,107913173542015008); (4988915232824583,61824104942416270,16191459699950614,200649330955639413); (4988915232824583,123648209884832540,13084645082799890,324297540840471953); (4988915232824583,247296419769665080,16520153007049111,818890380379802113); (4988915232824583,494592839539330160,5765618887112264,571593960610137033)]);
    (-399, [(4499029632233837,34845811556912518,15456631299064495,119714450799128157); (9977830465649166,154560262356040675,15456631299064495,239428901598256314); (4988915232824583,154560262356040675,15456631299064495,478857803196512628); (4988915232824583,309120524712081350,15211688498769122,942538590264634653); (4988915232824583,618241049424162700,7605844249384561,942538590264634653)]);
    (-402, [(10681682151859635,103414489845704726,12365305039251596,119714450799128157); (16864334671485433,326543430490537609,6182652519625798,119714450799128157); (16864334671485433,653086860981075218,3091326259812899,119714450799128157); (9977830465649166,772801311780203375,3091326259812899,239428901598256314)]);
    (-406, [(8545345721487708,51707244922852363,9776255065899703,59155384883918561); (4272672860743854,51707244922852363,14048927926643557,170018014690689485); (2136336430371927,51707244922852363,16185264357015484,391743274304231333); (2136336430371927,103414489845704726,16637977899995450,805401233687050237); (2136336430371927,206828979691409452,8318988949997725,805401233687050237)]);
    (-409, [(17336873311857815,131130147297397457,17829237049622613,134854217277930556); (17583055180740214,265984364575328013,17829237049622613,269708434555861112); (8791527590370107,265984364575328013,17829237049622613,539416869111722224); (8791527590370107,531968729150656026,13310382319996360,805401233687050237); (2136336430371927,258536224614261815,6655191159998180,805401233687050237)]);
    (-412, [(13869498649486252,131130147297397457,17829237049622613,168567771597413195); (6934749324743126,131130147297397457,17829237049622613,337135543194826390); (3467374662371563,131130147297397457,17829237049622613,674271086389652780); (3467374662371563,262260294594794914,10648305855997088,805401233687050237)]);
    (-416, [(12679494279643546,74924479723702663,14259223940094495,84259270236871004); (6339747139821773,74924479723702663,14259223940094495,168518540473742008); (6339747139821773,149848959447405326,16639232679779907,393291979644849997); (6339747139821773,299697918894810652,17829237049622613,842838857987065975); (6339747139821773,599395837789621304,5744744954900420,543140939092255323)]);
    (-419, [(16495839662347396,121844587907900303,2851844788018899,21064817559217751); (16803454195230395,248233493263206809,2851844788018899,42129635118435502); (12679494279643546,374622398618513315,15531339067662445,458881668855384319); (6339747139821773,374622398618513315,15531339067662445,917763337710768638); (6339747139821773,749244797237026630,4595795963920336,543140939092255323)]);
    (-422, [(9573226466111057,88389395264823891,11407379152075596,105324087796088755); (9573226466111057,176778790529647782,15276916042148855,282102878325736537); (9573226466111057,353557581059295564,12425071254129956,458881668855384319); (9573226466111057,707115162118591128,6212535627064978,458881668855384319)]);
    (-426, [(13849840197006060,79922048999191459,15683992882970599,90506231831231999); (6924920098503030,79922048999191459,15683992882970599,181012463662463998); (3462460049251515,79922048999191459,15683992882970599,362024927324927996); (9573226466111057,441946976324119455,15683992882970599,724049854649855992); (9573226466111057,883893952648238910,3055383208429771,282102878325736537)]);
    (-429, [(11079872157604848,79922048999191459,12914024843569387,93152277539242134); (5539936078802424,79922048999191459,12914024843569387,186304555078484268); (2769968039401212,79922048999191459,15683992882970599,452531159156159995); (17068976902671205,984984367311511449,15683992882970599,905062318312319990); (692492009850303,79922048999191459,8066580774617266,930982097633533931)]);
    (-432, [(15878651557839695,143171142883597722,3316466043099693,29903183654835871); (9597558800469694,173074326538433593,12914024843569387,232880693848105335); (4798779400234847,173074326538433593,17712804243804234,638835714234644263); (13655181522136964,984984367311511449,8856402121902117,638835714234644263)]);
    (-436, [(12702921246271756,71585571441798861,9808662397767325,55275372428994554); (6351460623135878,71585571441798861,16160123020903203,182136316299787969); (3175730311567939,71585571441798861,16160123020903203,364272632599575938); (12843656977803510,579029346924972521,9667926666235571,435858204041374799); (6421828488901755,579029346924972521,9667926666235571,871716408082749598)]);
    (-439, [(15597180094776187,109869713068253960,3923464959106930,27637686214497277); (17558912574329652,247377112351005197,1961732479553465,27637686214497277); (16626386205378686,468478602066983413,1961732479553465,55275372428994554); (10274925582242808,579029346924972521,12236658061796273,689580091782961629); (5137462791121404,579029346924972521,7099195270674869,800130836640950737)]);
    (-442, [(15597180094776187,137337141335317450,3138771967285544,27637686214497277); (17166566078418959,302311968885132177,1569385983642772,27637686214497277); (17951259070240345,632261623984761631,784692991821386,27637686214497277); (14027794111133415,988146385824550492,392346495910693,27637686214497277)]);
    (-446, [(8749889611738910,48153128441078001,16930032675011631,93170779756782193); (4374944805869455,48153128441078001,16930032675011631,186341559513564386); (15027433546309998,330800944836798389,10652488740440543,234494687954642387); (7513716773154999,330800944836798389,10652488740440543,468989375909284774); (7513716773154999,661601889673596778,9083102756797771,799790320746083163)]);
    (-449, [(6999911689391128,48153128441078001,15180054752663849,104425192585708241); (3499955844695564,48153128441078001,15180054752663849,208850385171416482); (1749977922347782,48153128441078001,16930032675011631,465853898783910965); (874988961173891,48153128441078001,17805021636185522,979860926008899931); (874988961173891,96306256882156002,8902510818092761,979860926008899931)]);
    (-452, [(12835887315680349,110374272918313562,10508015189476535,90357176549550681); (11671951252578442,200731449467864243,10508015189476535,180714353099101362); (5835975626289221,200731449467864243,16343990815765756,562160155666066967); (5835975626289221,401462898935728486,14007971034172099,963623054601795453)]);
    (-456, [(8632681239889735,46394626436558306,16812824303162456,90357176549550681); (17039093391470963,183146429422667293,8406412151581228,90357176549550681); (17039093391470963,366292858845334586,4203206075790614,90357176549550681); (17039093391470963,732585717690669172,2101603037895307,90357176549550681); (9570348214683135,822942894240219853,2101603037895307,180714353099101362)]);
    (-459, [(3453072495955894,23197313218279153,14633749878567495,98307718673341361); (1726536247977947,23197313218279153,16360286126545442,219812750564961875); (1726536247977947,46394626436558306,16812824303162456,451785882747753405); (11859484647537122,637364388493986629,10132948399559175,544575135620870017); (5929742323768561,637364388493986629,4203206075790614,451785882747753405)]);
    (-462, [(13285967463581181,111566854236882164,12759644943338786,107147142382368563); (13285967463581181,223133708473764328,6379822471669393,107147142382368563); (9832894967625287,330280850856132891,16212717439294680,544575135620870017); (9832894967625287,660561701712265782,8106358719647340,544575135620870017)]);
    (-466, [(13707025479775097,71939139825308153,12864909447387265,67519427970794552); (13285967463581181,139458567796102705,12864909447387265,135038855941589104); (13075438455484223,274497423737691809,12864909447387265,270077711883178208); (13075438455484223,548994847475383618,12970173951435744,544575135620870017); (6590351479766351,553414559329897219,6485086975717872,544575135620870017)]);
    (-469, [(16233373576938593,106497844236061195,2572981889477453,16879856992698638); (17122123401640382,224656843184951661,2572981889477453,33759713985397276); (16280007369252550,427215127097335317,2572981889477453,67519427970794552); (15858949353058634,832331694922102629,2572981889477453,135038855941589104); (7929474676529317,832331694922102629,2572981889477453,270077711883178208)]);
    (-472, [(13183102343416815,108108457344301171,5145963778954906,42199642481746595); (15756084232894268,258416557170348937,2572981889477453,42199642481746595); (15596987784879493,511614412060828507,2572981889477453,84399284963493190); (14230948616133379,933610836878294457,2572981889477453,168798569926986380)]);
    (-476, [(13055825185004995,66915448055204561,5018686620543086,25722438766107951); (15565168495276538,159553334876517073,2509343310271543,25722438766107951); (7782584247638269,159553334876517073,10291927557909812,210998212408732975); (12928548026593175,530104882161767121,5145963778954906,210998212408732975); (10355566137115722,849211551914801267,2572981889477453,210998212408732975)]);
    (-479, [(10444660148003996,66915448055204561,7629851657544085,48881910471436079); (5222330074001998,66915448055204561,12852181731546083,164679268998076719); (2611165037000999,66915448055204561,15463346768547082,396273986051357999); (10342838421274540,530104882161767121,7731673384273541,396273986051357999); (5171419210637270,530104882161767121,7731673384273541,792547972102715998)]);
    (-482, [(11970630479512813,95864787686864721,6103881326035268,48881910471436079); (15022571142530447,240611485845165521,3051940663017634,48881910471436079); (16548541474039264,530104882161767121,1525970331508817,48881910471436079); (8274270737019632,530104882161767121,9800241068528449,627868703104639279)]);
    (-486, [(4693399322782036,23491438607714321,13381112482766045,66975247741223679); (2346699661391018,23491438607714321,15727812144157063,157441934090161679); (1173349830695509,23491438607714321,16901161974852572,338375306788037679); (9623930818121795,385358184003466321,8450580987426286,338375306788037679); (9623930818121795,770716368006932642,4225290493713143,338375306788037679)]);
    (-489, [(7369621819335245,46108110194948821,10704889986212836,66975247741223679); (12722066812441663,159191468131121321,5352444993106418,66975247741223679); (15398289308994872,385358184003466321,2676222496553209,66975247741223679); (7699144654497436,385358184003466321,10375367151050645,519308679485913679); (3849572327248718,385358184003466321,6525794823801927,653259174968361037)]);
    (-492, [(5895697455468196,46108110194948821,12178814350079885,95246087225266804); (2947848727734098,46108110194948821,15126663077813983,236600284645482429); (1473924363867049,46108110194948821,16600587441681032,519308679485913679); (9774218084707565,611524899875811321,8300293720840516,519308679485913679)]);
    (-496, [(16275501211824853,79552992777897001,4871525740031954,23811521806316701); (16275501211824853,159105985555794002,2435762870015977,23811521806316701); (16662920650968346,325786638200010909,2435762870015977,47623043612633402); (15638748935532104,611524899875811321,2435762870015977,95246087225266804); (7819374467766052,611524899875811321,10255137337782029,802017074326344929)]);
    (-499, [(6178015686384143,37746889549211776,13308087273743673,81310719482371729); (6178015686384143,75493779098423552,15921067166448051,194551388130007057); (11049541426416097,270045167228430609,15921067166448051,389102776260014114); (13485304296432074,659147943488444723,15921067166448051,778205552520028228); (6742652148216037,659147943488444723,9178415018232014,897263161551611733)]);
    (-502, [(6178015686384143,47183611936514720,11882072956271767,90747441869674673); (15208060007712098,232298277679218833,9030044321327955,137931053806189393); (7604030003856049,232298277679218833,16634074325184004,508160385291597619); (7604030003856049,464596555358437666,15921067166448051,972756940650035285); (7604030003856049,929193110716875332,4158518581296001,508160385291597619)]);
    (-505, [(6178015686384143,58979514920643400,14448070914124728,137931053806189393); (13402051143446507,255890083647476193,7224035457062364,137931053806189393); (17014068871977689,649711221101141779,3612017728531182,137931053806189393); (11596042279180916,885629280783715379,1806008864265591,137931053806189393)]);
    (-509, [(6178015686384143,36862196825402125,13232088364384936,78951538885545993); (6178015686384143,73724393650804250,12794059868576611,152675932536350243); (9486037777480377,226400326187154493,12794059868576611,305351865072700486); (9486037777480377,452800652374308986,11140048823028494,531752191259854979); (9486037777480377,905601304748617972,5570024411514247,531752191259854979)]);
    (-512, [(12005608576121626,89541919446134441,6353227084707473,47384532340438092); (12356031372768286,184310984127010625,6353227084707473,94769064680876184); (12531242771091616,373849113488762993,6353227084707473,189538129361752368); (12618848470253281,752925372212267729,6353227084707473,379076258723504736); (3132810692772904,373849113488762993,6353227084707473,758152517447009472)]);
    (-515, [(12145777694780290,113234185616353487,6353227084707473,59230665425547615); (12426115932097618,231695516467448717,6353227084707473,118461330851095230); (12566285050756282,468618178169639177,6353227084707473,236922661702190460); (12636369610085614,942463501574020097,6353227084707473,473845323404380920)]);
    (-519, [(13640693701575647,79481985497099817,7848143091502830,45729785377846147); (17564765247327062,204693756372045781,3924071545751415,45729785377846147); (8782382623663531,204693756372045781,12706454169414946,296153327127738075); (15135609708371004,705540839871829637,6353227084707473,296153327127738075); (7567804854185502,705540839871829637,6353227084707473,592306654255476150)]);
    (-522, [(15210322319876213,110784928215836308,6278514473202264,45729785377846147); (15210322319876213,221569856431672616,3139257236601132,45729785377846147); (16779950938176779,488869498241191379,1569628618300566,45729785377846147); (16779950938176779,977738996482382758,784814309150283,45729785377846147); (7997568314513248,932009211104536611,784814309150283,91459570755692294)]);
    (-525, [(15210322319876213,138481160269795385,14149004970487539,128818481539723378); (14679663645181876,267299641809518763,14149004970487539,257636963079446756); (7339831822590938,267299641809518763,14149004970487539,515273926158893512); (3669915911295469,267299641809518763,10479089059192070,763248210508268261)]);
    (-529, [(17827859844095986,101445200519828537,1556220174831099,8855301144911417); (8913929922047993,101445200519828537,10470150096879092,119155802809651371); (8913929922047993,202890401039657074,14149004970487539,322046203849308445); (11531467446267766,524936604888965519,14149004970487539,644092407698616890); (5765733723133883,524936604888965519,8383271247353656,763248210508268261)]);
    (-532, [(16271639669264887,115737374218646400,7753632007570834,55150250832369977); (16271639669264887,231474748437292800,3876816003785417,55150250832369977); (17827859844095986,507226002599142685,3876816003785417,110300501664739954); (16667561929618827,948428009258102501,3876816003785417,220601003329479908); (6395372962916705,727827005928622593,3876816003785417,441202006658959816)]);
    (-535, [(12711561473762622,113018937941693177,9151483278260357,81366158110078354); (6355780736881311,113018937941693177,15507264015141668,275751254161849885); (14109412744452145,501789130045236239,7753632007570834,275751254161849885); (10232596740666728,727827005928622593,3876816003785417,275751254161849885)]);
    (-539, [(16271639669264887,90419823608317500,10575514556461263,58767043776702677); (13423577112863075,149186867385020177,10575514556461263,117534087553405354); (11999545834662169,266720954938425531,10575514556461263,235068175106810708); (11287530195561716,501789130045236239,10575514556461263,470136350213621416); (5643765097780858,501789130045236239,10575514556461263,940272700427242832)]);
    (-542, [(16271639669264887,113024779510396875,5206083711316033,36162087874623302); (15944945401606493,221511043134266781,5206083711316033,72324175749246604); (15944945401606493,443022086268533562,10575514556461263,293835218883513385); (13260229979033878,736857305152046947,10575514556461263,587670437767026770); (6630114989516939,736857305152046947,3945399566944324,438483570382006593)]);
    (-545, [(13797173063548401,119796043535789216,10412167422632066,90405219686558255); (13797173063548401,239592087071578432,5206083711316033,90405219686558255); (13797173063548401,479184174143156864,9501628387432217,329997306758136687); (13797173063548401,958368348286313728,11649400725490309,809181480901293551)]);
    (-549, [(13797173063548401,74872527209868260,8381164038082265,45481703360637299); (13797173063548401,149745054419736520,11089168550815333,120354230570505559); (13797173063548401,299490108839473040,12443170807181867,270099284990242079); (13797173063548401,598980217678946080,13120171935365134,569589393829715119); (7237087095865834,628371041528177041,6560085967682567,569589393829715119)]);
    (-552, [(13797173063548401,93590659012335325,6704931230465812,45481703360637299); (13797173063548401,187181318024670650,17149638678781307,232663021385307949); (13797173063548401,374362636049341300,15473405871164854,419844339409978599); (13797173063548401,748725272098682600,7736702935582427,419844339409978599); (3030235063982987,328880932688704001,7736702935582427,839688678819957198)]);
    (-555, [(17975056042874599,152413227431427494,1263524125569807,10713612767394143); (17975056042874599,304826454862854988,9619290084222203,163126840198821637); (13797173063548401,467953295061676625,9619290084222203,326253680397643274); (13797173063548401,935906590123353250,11708231573885302,794206975459319899)]);
    (-559, [(3089601558346997,16373250237079901,16287396121252450,86314564311130517); (3089601558346997,32746500474159802,17412502735667216,184554065733609923); (17975056042874599,381033068578568735,14885454484527602,315540067630249131); (17975056042874599,762066137157137470,7442727242263801,315540067630249131); (5266164400305399,446526069526888339,7442727242263801,631080135260498262)]);
    (-562, [(12526283899291481,82978329466832258,12694161565194974,84090407748265011); (12526283899291481,165956658933664516,6347080782597487,84090407748265011); (12526283899291481,331913317867329032,9436682340944484,250047066681929527); (12526283899291481,663826635734658064,17244625069763723,913873702416587591); (7807942728819239,827559138105457074,2359170585236121,250047066681929527)]);
    (-565, [(2438105713496899,20188543225991688,17738250658092265,146880193989105581); (12526283899291481,207445823667080645,10088178185794582,167068737215097269); (12526283899291481,414891647334161290,17570372992188772,581960384549258559); (12526283899291481,829783294668322580,8785186496094386,581960384549258559)]);
    (-569, [(2438105713496899,12617839516244805,16190672485463129,83790996407881556); (2438105713496899,25235679032489610,16628706239970711,172115873021595191); (11971511690230704,247822910119064021,9533405976733805,197351552054084801); (15519161821849157,642526014227233623,9533405976733805,394703104108169602); (2992877922557676,247822910119064021,9533405976733805,789406208216339204)]);
    (-572, [(14941041921877741,96654786199439219,5188619067890145,33565588618215194); (10064830494883943,130220374817654413,15253449562774088,197351552054084801); (17691555276270987,457792301689393627,7626724781387044,197351552054084801); (17691555276270987,915584603378787254,3813362390693522,197351552054084801); (8158149299537182,844411446487150503,1906681195346761,197351552054084801)]);
    (-575, [(16391674267241105,132548802489398667,2075447627156058,16782794309107597); (17429398080819134,281880399287904931,1037723813578029,16782794309107597); (17016489549033799,550405108233626483,1037723813578029,33565588618215194); (13178001935618030,852495405797563229,14215725749196059,919626583033993617)]);
    (-579, [(10707564961208558,54115693508734163,13655572989228511,69014832527136074); (5353782480604279,54115693508734163,13655572989228511,138029665054272148); (9504677734916395,192145358563006311,13655572989228511,276059330108544296); (9504677734916395,384290717126012622,11580125362072453,468204688671550607); (10542401548494424,852495405797563229,11580125362072453,936409377343101214)]);
    (-582, [(1551911386637721,9804138622583063,17999677658630696,113712249582341807); (15207484375866232,192145358563006311,13655572989228511,172537081317840185); (7603742187933116,192145358563006311,13655572989228511,345074162635680370); (3801871093966558,192145358563006311,17457444083195069,882293683834367051); (1900935546983279,192145358563006311,9853701895261953,996005933416708858)]);
    (-585, [(12786752055348074,100974748592794687,16076305309746669,126951776332734373); (6393376027674037,100974748592794687,16076305309746669,253903552665468746); (17628216696384390,556827798443852807,11234840668710353,354878301258263433); (8814108348192195,556827798443852807,11234840668710353,709756602516526866)]);
    (-589, [(17020665649259801,84005765663591369,2631642603518876,12988513869969843); (17020665649259801,168011531327182738,1315821301759438,12988513869969843); (17678576300139520,349011576524335319,657910650879719,12988513869969843); (14102573357107512,556827798443852807,14760484007987231,582804826183792493); (7051286678553756,556827798443852807,7709197329433475,608781853923732179)]);
    (-592, [(13896699034482307,85734223520140752,8141089816185937,50225597623329989); (11018894425334122,135959821143470741,8141089816185937,100451195246659978); (5509447212667061,135959821143470741,13650537028852998,336862211636790697); (5509447212667061,271919642286941482,17844162939760621,880701496210673661); (5509447212667061,543839284573882964,6167357863546780,608781853923732179)]);
    (-595, [(13896699034482307,107167779400175940,9292211659845211,71659153503365177); (11594455347163759,178826932903541117,9292211659845211,143318307006730354); (10443333503504485,322145239910271471,9292211659845211,286636614013460708); (10443333503504485,644290479820542942,9867772581674848,608781853923732179); (5509447212667061,679799105717353705,4933886290837424,608781853923732179)]);
    (-598, [(15771788748565553,152034988053497132,17646878462648799,170110251856774339); (16709333605607176,322145239910271471,17646878462648799,340220503713548678); (8354666802803588,322145239910271471,17646878462648799,680441007427097356); (4177333401401794,322145239910271471,9292211659845211,716591535033651770)]);
    (-602, [(7963001477872735,47975488618422821,15617574541385636,94092757830025773); (15771788748565553,190043735066871415,7808787270692818,94092757830025773); (15771788748565553,380087470133742830,3904393635346409,94092757830025773); (9838091191955981,474180227963768603,13742484827302390,662365743623820149); (9838091191955981,948360455927537206,6871242413651195,662365743623820149)]);
    (-605, [(6370401182298188,47975488618422821,14024974245811089,105622075132926511); (3185200591149094,47975488618422821,17210174836960183,259219638884275843); (1592600295574547,47975488618422821,17210174836960183,518439277768551686); (12586588157416459,758316720860665791,10993987861841912,662365743623820149); (7089594226495503,854267698097511433,5496993930920956,662365743623820149)]);
    (-608, [(1017245860216695,9576097680585488,17343637847459192,163268661647430201); (10706310644162986,201573052369772153,9689064783946291,182420857008601177); (5353155322081493,201573052369772153,15042220106027784,566414766386974507); (5353155322081493,403146104739544306,12874265375095385,969560871126518813)]);
    (-612, [(203449172043339,1197012210073186,17900294585930170,105318055453678521); (203449172043339,2394024420146372,17901910862872001,210655129940118889); (203449172043339,4788048840292744,18004443587364586,423723303333145997); (203449172043339,9576097680585488,17953985363589209,845071601278907469); (203449172043339,19152195361170976,10502861472119647,988713066487689789)]);
    (-615, [(406898344086678,2992530525182965,17942923952669035,131961086644187833); (203449172043339,2992530525182965,17942923952669035,263922173288375666); (203449172043339,5985061050365930,17821500960219764,524272328979293621); (16845268189800103,991107090907836161,16641819017756764,979136968807104301); (203449172043339,23940244201463720,8320909508878382,979136968807104301)]);
    (-618, [(14574840080874113,133988176885972027,12947246704527401,119025524260057202); (13761043392700757,253013701146029229,12947246704527401,238051048520114404); (13761043392700757,506027402292058458,13354145048614079,491064749666143633); (13557594220657418,997092151958202091,13354145048614079,982129499332287266)]);
    (-622, [(6480973382888330,37237707377971713,16173033334722307,92925344258113933); (3240486691444165,37237707377971713,16173033334722307,185850688516227866); (16187733395971566,372039225406086431,12947246704527401,297563810650143005); (8093866697985783,372039225406086431,12947246704527401,595127621300286010); (8093866697985783,744078450812172862,10520556701256592,967166846706372441)]);
    (-625, [(5184778706310664,37237707377971713,14876838658144641,106847253478149488); (2592389353155332,37237707377971713,17469228011299973,250932214334270689); (1296194676577666,37237707377971713,17469228011299973,501864428668541378); (648097338288833,37237707377971713,16821130673011140,966491149959111043); (648097338288833,74475414755943426,8410565336505570,966491149959111043)]);
    (-628, [(1172455233419603,10525894008434341,17221749124983847,154610854864555542); (9197102179201725,165136748872989883,17221749124983847,309221709729111084); (13209425652092786,474358458602100967,17221749124983847,618443419458222168); (6604712826046393,474358458602100967,10617036298937454,762528380314343369)]);
    (-632, [(9702592210200586,54441554728790397,9864067381622467,55347597072099743); (14715363486722760,165136748872989883,9864067381622467,110695194144199486); (7357681743361380,165136748872989883,17221749124983847,386527137161388855); (3678840871680690,165136748872989883,17221749124983847,773054274322777710); (1839420435840345,165136748872989883,9864067381622467,885561553153595888)]);
    (-635, [(15588737604889690,109336130629235467,3977921986933363,27900309121877208); (11772290789378208,165136748872989883,15750212776311571,220937367116744299); (5886145394689104,165136748872989883,15750212776311571,441874734233488598); (2943072697344552,165136748872989883,15750212776311571,883749468466977196); (1471536348672276,165136748872989883,8392531032950191,941815192569004977)]);
    (-638, [(16448912070845115,144211517031581977,3977921986933363,34875386402346510); (10213417028889239,179086903433928487,14191339015822602,248837676238621507); (10213417028889239,358173806867856974,17309086536800540,607011483106478481); (10213417028889239,716347613735713948,8654543268400270,607011483106478481)]);
    (-642, [(15760772498080775,86361521272219914,10557486815271409,57849995759362063); (13159129656676092,144211517031581977,10557486815271409,115699991518724126); (17137051643609455,375611500069030229,10557486815271409,231399983037448252); (17137051643609455,751223000138060458,13847269229440432,607011483106478481); (10213417028889239,895434517169642435,6923634614720216,607011483106478481)]);
    (-645, [(6304308999232310,43180760636109957,17962819130926663,123034609080350179); (3152154499616155,43180760636109957,17962819130926663,246069218160700358); (13709641314887564,375611500069030229,10557486815271409,289249978796810315); (6854820657443782,375611500069030229,17412307472715191,954111457662650859); (3427410328721891,375611500069030229,7130076486549518,781388415118211031)]);
    (-648, [(5043447199385848,43180760636109957,14180233731387277,121407690873355256); (2521723599692924,43180760636109957,16701957331080201,285996142382820469); (1260861799846462,43180760636109957,17962819130926663,615173045401750895); (630430899923231,43180760636109957,14180233731387277,971261526986842048)]);
    (-652, [(16577655757849723,88708644713618178,14180233731387277,75879806795847035); (16577655757849723,177417289427236356,15378944744618500,164588451509465213); (16577655757849723,354834578854472712,7689472372309250,164588451509465213); (16577655757849723,709669157708945424,3844736186154625,164588451509465213); (10211195972002174,874257609218410637,3844736186154625,329176903018930426)]);
    (-655, [(4274499962154923,28591580137290116,16057311667079754,107405291234884981); (16577655757849723,221771611784045445,12303155795694800,164588451509465213); (16577655757849723,443543223568090890,6151577897847400,164588451509465213); (16577655757849723,887086447136181780,3075788948923700,164588451509465213); (8888183385540473,951230636725037495,1537894474461850,164588451509465213)]);
    (-658, [(4274499962154923,35739475171612645,15410549310956757,128848976337852568); (14117024598710763,236067401852690503,9842524636555840,164588451509465213); (14117024598710763,472134803705381006,4921262318277920,164588451509465213); (14117024598710763,944269607410762012,2460631159138960,164588451509465213)]);
    (-662, [(16085529526021931,84057841298307358,15410549310956757,80530610211157855); (16085529526021931,168115682596614716,15748039418489344,164588451509465213); (16085529526021931,336231365193229432,7874019709244672,164588451509465213); (16085529526021931,672462730386458864,3937009854622336,164588451509465213); (10180014744088427,851160106244522089,1968504927311168,164588451509465213)]);
    (-665, [(13408407792869684,87585072385456861,9381325629587089,61279765430155767); (16085529526021931,210144603245768395,9381325629587089,122559530860311534); (16085529526021931,420289206491536790,12733427577804510,332704134106079929); (16085529526021931,840578412983073580,6366713788902255,332704134106079929); (4859407868559838,507874278876993651,6366713788902255,665408268212159858)]);
    (-668, [(1610832865313038,13152653477650547,17957234826517659,146623086836564144); (805416432656519,13152653477650547,17957234826517659,293246173673128288); (10992158494900127,359009441061381023,10186742062243608,332704134106079929); (10992158494900127,718018882122762046,5093371031121804,332704134106079929)]);
    (-672, [(16943120445714988,86464196895932619,17957234826517659,91639429272852590); (8471560222857494,86464196895932619,17957234826517659,183278858545705180); (4235780111428747,86464196895932619,17957234826517659,366557717091410360); (4235780111428747,172928393791865238,15332287580401950,625950307779208217); (4235780111428747,345856787583730476,11901923901629722,971807095362938693)]);
    (-675, [(15929006064912317,101611205648765810,10368695143589527,66141955766179457); (13148850604250922,167753161414945267,10368695143589527,132283911532358914); (16943120445714988,432320984479663095,10368695143589527,264567823064717828); (8471560222857494,432320984479663095,10368695143589527,529135646129435656); (4235780111428747,432320984479663095,6132915032160780,625950307779208217)]);
    (-678, [(13704881696383201,109279382119664086,9256632959324969,73810132237077733); (11480757327854085,183089514356741819,9256632959324969,147620264474155466); (11480757327854085,366179028713483638,10368695143589527,330709778830897285); (11480757327854085,732358057426967276,10924726235721806,696888807544380923)]);
    (-682, [(4520275834099933,22527235235604599,14137044278633407,70453338178718824); (4520275834099933,45054470471209198,13848935890466603,138035043885532621); (9184605862283268,183089514356741819,13848935890466603,276070087771065242); (4592302931141634,183089514356741819,13848935890466603,552140175542130484); (2296151465570817,183089514356741819,11552784424895786,921190836727519149)]);
    (-685, [(16503479713293202,102808374796173209,15714667901739937,97894474105248316); (8251739856646601,102808374796173209,15714667901739937,195788948210496632); (8251739856646601,205616749592346418,11983203879193269,298597323006669841); (8251739856646601,411233499184692836,10117471867919935,504214072599016259); (9184605862283268,915447571783709095,932866005636667,92980573414323423)]);
    (-688, [(16345717350982549,127281993322485288,15714667901739937,122368092631560395); (16345717350982549,254563986644970576,16030192626361243,249650085954045683); (16345717350982549,509127973289941152,16187954988671896,504214072599016259); (8251739856646601,514041873980866045,8093977494335948,504214072599016259); (4204751109478627,523869675362715831,4046988747167974,504214072599016259)]);
    (-692, [(16345717350982549,79551245826553305,12066894761997860,58727095970317751); (16345717350982549,159102491653106610,6033447380998930,58727095970317751); (16345717350982549,318204983306213220,3016723690499465,58727095970317751); (16345717350982549,636409966612426440,9681220520741007,376932079276530971); (3332248415120771,259477887335895469,9681220520741007,753864158553061942)]);
    (-695, [(9105580493783833,55393735305453318,9653515809598288,58727095970317751); (13932338398582977,169514566581224387,4826757904799144,58727095970317751); (16345717350982549,397756229132766525,2413378952399572,58727095970317751); (17552406827182335,854239554235850801,1206689476199786,58727095970317751); (9708925231883726,945026860857570839,603344738099893,58727095970317751)]);
    (-698, [(9324754620109615,70908849464248864,9763102872761179,74242210129113297); (9324754620109615,141817698928497728,9543928746435397,145151059593362161); (9324754620109615,283635397856995456,9434341683272506,286968758521859889); (14041925461745868,854239554235850801,4717170841636253,286968758521859889); (7020962730872934,854239554235850801,4717170841636253,573937517043719778)]);
    (-701, [(1864950924021923,17727212366062216,16673000402781640,158484502252819893); (1864950924021923,35454424732124432,17661254821500435,335756625913442053); (1864950924021923,70908849464248864,17222906568848871,654846448502561941); (1864950924021923,141817698928497728,11408879670457320,867572996895308533)]);
    (-705, [(1864950924021923,11079507728788885,17352046024341009,103086963608875468); (1864950924021923,22159015457577770,17068302170269158,202802533167975433); (1864950924021923,44318030915155540,17858905705244194,424392687743753133); (1864950924021923,88636061830311080,16389256548709789,778936935064997453); (1864950924021923,177272123660622160,9127103736365856,867572996895308533)]);
    (-708, [(7459803696087692,55397538643944425,15406095118608509,114407802732529947); (3729901848043846,55397538643944425,15406095118608509,228815605465059894); (1864950924021923,55397538643944425,17271046042630432,513028749574064213); (1864950924021923,110795077287888850,16095326717402908,956209058725619613); (1864950924021923,221590154575777700,8047663358701454,956209058725619613)]);
    (-711, [(7362506150801067,68343741943770257,15114202482748634,140300209332181611); (14919607392175384,276987693219722125,7557101241374317,140300209332181611); (7459803696087692,276987693219722125,15016904937462009,557588111884085347); (3729901848043846,276987693219722125,11287003089418163,838188530548448569)]);
    (-715, [(14569336229143534,84526496068552547,7596020259488967,44069610756596822); (14880688374060734,172665717581746191,7596020259488967,88139221513193644); (7440344187030367,172665717581746191,15036364446519334,348944160608133479); (14958526410290034,694275595771625861,7518182223259667,348944160608133479); (7479263205145017,694275595771625861,7518182223259667,697888321216266958)]);
    (-718, [(7346938543555207,53280650723425479,15192040518977934,110174026891492055); (14942958803044174,216735328338343013,7596020259488967,110174026891492055); (7471479401522087,216735328338343013,15067499661011054,437083382121327123); (7471479401522087,433470656676686026,15005229232027614,870554038798013149); (7471479401522087,866941313353372052,7502614616013807,870554038798013149)]);
    (-721, [(7446571229928711,67503994765442123,15291673205351438,138620714975525343); (7446571229928711,135007989530884246,15092407832604430,273628704506409589); (7446571229928711,270015979061768492,14992775146230926,543644683568178081); (7446571229928711,540031958123536984,7496387573115463,543644683568178081)]);
    (-725, [(16302750556744361,92366402121902782,10664318169196605,60420767461502269); (16302750556744361,184732804243805564,13483534362970483,152787169583405051); (14893142459857422,337519973827210615,13483534362970483,305574339166810102); (7446571229928711,337519973827210615,13483534362970483,611148678333620204); (10465052796449597,948668652160830819,3018481566520886,273628704506409589)]);
    (-728, [(12037023289065719,85247618921627343,8531454535357284,60420767461502269); (16302750556744361,230916005304756955,4265727267678642,60420767461502269); (16302750556744361,461832010609513910,2132863633839321,60420767461502269); (11350670729131162,643094312994020717,13483534362970483,763935847917025255); (5675335364565581,643094312994020717,7808198998404902,884777382840029793)]);
    (-731, [(1402227501483374,12413425730062537,17764022821456255,157258631518786941); (701113750741687,12413425730062537,17764022821456255,314517263037573882); (9933682036840658,351757540227761493,9232568286098971,326930688767636419); (4966841018420329,351757540227761493,9232568286098971,653861377535272838)]);
    (-735, [(17669551200290623,97763942225990531,2150577062807877,11898937858559282); (12060641194357127,133460755801668377,14211218257165004,157258631518786941); (12060641194357127,266921511603336754,7105609128582502,157258631518786941); (12060641194357127,533843023206673508,15613445758648378,691101654725460449); (4253918315032938,376584391687886567,7806722879324189,691101654725460449)]);
    (-738, [(15856102610478800,109662880084549813,10078628368047277,69705112365474009); (18006679673286677,249073104815497831,10078628368047277,139410224730948018); (14042654020666977,388483329546445849,10078628368047277,278820449461896036); (12060641194357127,667303779008341885,10078628368047277,557640898923792072); (991006413154925,109662880084549813,8096615541737427,895956037678484518)]);
    (-741, [(12684882088383040,109662880084549813,6907407845951517,59715670435705058); (13249848890143037,229094220955959929,6907407845951517,119431340871410116); (13249848890143037,458188441911919858,10078628368047277,348525561827370045); (11664238629095157,806714003739289903,10078628368047277,697051123654740090)]);
    (-745, [(16628901320216262,89849732082193397,1833455010598301,9906574001178208); (11981360681304733,129476028086906229,13814815691903034,149289176089262645); (11981360681304733,258952056173812458,6907407845951517,149289176089262645); (11981360681304733,517904112347624916,9444384263628125,408241232263075103); (10712872472466429,926145344610700019,9444384263628125,816482464526150206)]);
    (-748, [(17703413081608932,119569454085728021,1833455010598301,12383217501472760); (8851706540804466,119569454085728021,10685161551402767,144335889088673541); (4425853270402233,119569454085728021,15111014821805000,408241232263075103); (11981360681304733,647380140434531145,7555507410902500,408241232263075103); (8203606975853483,886519048605987187,3777753705451250,408241232263075103)]);
    (-751, [(14896112469526466,125761062836464401,16729567480124767,141240084713305351); (7448056234763233,125761062836464401,16729567480124767,282480169426610702); (7448056234763233,251522125672928802,12088811857444000,408241232263075103); (13492462163485233,911285483608932707,6044405928722000,408241232263075103)]);
    (-755, [(17508643961312099,92385919392743182,14117035988339134,74489797825862913); (17508643961312099,184771838785486364,7058517994169567,74489797825862913); (12283580977740833,259261636611349277,7058517994169567,148979595651725826); (12283580977740833,518523273222698554,9671049485955200,408241232263075103); (7448056234763233,628805314182322005,4835524742977600,408241232263075103)]);
    (-758, [(16152000772122913,106534338457488843,13438714393744541,88638216890608574); (16152000772122913,213068676914977686,14795357582933727,195172555348097417); (16152000772122913,426137353829955372,15473679177528320,408241232263075103); (16152000772122913,852274707659910744,7736839588764160,408241232263075103); (8415161183358753,888066950793671282,3868419794382080,408241232263075103)]);
    (-761, [(3773057430100257,31107615006092278,15558256497188311,128272697208244601); (3773057430100257,62215230012184556,17211771823844798,283810772238705991); (16152000772122913,532671692287444215,12378943342022656,408241232263075103); (9962529101111585,657102152311813327,6189471671011328,408241232263075103)]);
    (-765, [(15092229720401028,77769037515230695,13014805973055787,67064241183914963); (7546114860200514,77769037515230695,13014805973055787,134128482367829926); (3773057430100257,77769037515230695,16787863403156044,346026002250890547); (12166989131678279,501564077281351937,8393931701578022,346026002250890547); (7970023280889268,657102152311813327,4196965850789011,346026002250890547)]);
    (-768, [(11242814277382726,72416639349572829,9165390530037485,59035643935428164); (5621407138691363,72416639349572829,14786797668728848,190487927220429157); (5621407138691363,144833278699145658,13014805973055787,335321205919574815); (5621407138691363,289666557398291316,14939513694564938,769821042017011789); (5621407138691363,579333114796582632,7469756847282469,769821042017011789)]);
    (-771, [(17475085519418449,140699531990008530,1833078106007497,14758910983857041); (16986394236742961,273529730844721899,1833078106007497,29517821967714082); (11242814277382726,362083196747864145,13075892383390223,421118840683292309); (5621407138691363,362083196747864145,13075892383390223,842237681366584618)]);
    (-775, [(2761785861480691,13897713752786806,17426410709540667,87692268672072011); (12855884146991370,129385409930432429,10094098285510679,101589982424858817); (16522040359006364,332565374780150063,10094098285510679,203179964849717634); (8261020179503182,332565374780150063,10094098285510679,406359929699435268); (4130510089751591,332565374780150063,10094098285510679,812719859398870536)]);
    (-778, [(13046493179073787,82064847156199722,7522921456112405,47320562774232707); (17807628773705501,224026535478897843,7522921456112405,94641125548465414); (12665275114908953,318667661027363257,7522921456112405,189282251096930828); (12665275114908953,637335322054726514,10094098285510679,507949912124294085); (1285588414699137,129385409930432429,8808509870811542,886514414318155741)]);
    (-781, [(16055661761518749,126241340332366006,6018337164889924,47320562774232707); (16055661761518749,252482680664732012,3009168582444962,47320562774232707); (17560246052741230,552285924103696731,1504584291222481,47320562774232707); (14798460191260539,930850426297558387,1504584291222481,94641125548465414)]);
    (-785, [(12040731922867219,59170643318195429,8021744491128318,39420509078257559); (16051604168431378,157761795714648417,4010872245564159,39420509078257559); (8025802084215689,157761795714648417,12036674329779848,236602813871163535); (8025802084215689,315523591429296834,14044139249105613,552126405300460369); (11034970666660651,867649996729757203,3009168582444962,236602813871163535)]);
    (-788, [(17657576103891990,108466219516421923,2404900310103547,14772720979144312); (8828788051945995,108466219516421923,11233688362049542,138011661474710547); (14445632232970766,354944100507554393,5616844181024771,138011661474710547); (7222816116485383,354944100507554393,12839660297510154,630967423456975487); (7222816116485383,709888201015108786,6419830148755077,630967423456975487)]);
    (-791, [(14126060883113592,108466219516421923,16530961193217139,126932120740352313); (7063030441556796,108466219516421923,16530961193217139,253864241480704626); (3531515220778398,108466219516421923,16530961193217139,507728482961409252); (1765757610389199,108466219516421923,14765203582827940,906990746406396581); (1765757610389199,216932439032843846,7382601791413970,906990746406396581)]);
    (-794, [(16470292997715601,158082853968650287,7093364539307565,68082535676158754); (11781828768511583,226165389644809041,7093364539307565,136165071352317508); (11781828768511583,452330779289618082,9437596653909574,362330460997126549); (11781828768511583,904661558579236164,4718798326954787,362330460997126549)]);
    (-798, [(17335184008954559,103990080906094572,5674691631446052,34041267838079377); (17335184008954559,207980161812189144,2837345815723026,34041267838079377); (17335184008954559,415960323624378288,1418672907861513,34041267838079377); (17888965905577114,858496805519410189,1418672907861513,68082535676158754); (10363155860650070,994661876871727697,1418672907861513,136165071352317508)]);
    (-801, [(12546543412104595,94080055902682397,10152223113679613,76126283287714488); (12546543412104595,188160111805364794,11349383262892104,170206339190396885); (12546543412104595,376320223610729588,5674691631446052,170206339190396885); (12546543412104595,752640447221459176,15383889227827621,922846786411856061); (8290524688520056,994661876871727697,1418672907861513,170206339190396885)]);
    (-804, [(10037234729683676,94080055902682397,10152223113679613,95157854109643110); (5018617364841838,94080055902682397,15170840478521451,284395764121968617); (2509308682420919,94080055902682397,17680149160942370,662871584146619631); (2509308682420919,188160111805364794,11349383262892104,851031695951984425)]);
    (-808, [(13799154176766085,80838076380276117,6045338514609393,35414745739375988); (15967584860297132,187082313598404081,6045338514609393,70829491478751976); (14029130944757959,328741296555908033,6045338514609393,141658982957503952); (10037234729683676,470400279513411985,16082573244293069,753718245428419889); (5018617364841838,470400279513411985,6045338514609393,566635931830015808)]);
    (-811, [(17084661856022261,125106508554496102,6045338514609393,44268432174219985); (17610338699925220,257911805077156057,6045338514609393,88536864348439970); (14850507864572003,434985533774035997,6045338514609393,177073728696879940); (14850507864572003,869971067548071994,10447923189590698,612059262470915937); (4402584674981305,515823610154312114,5223961594795349,612059262470915937)]);
    (-814, [(998796965360695,9142411051514033,17189775300912707,157345283510501694); (13089473994579481,239626982974127991,12090677029218786,221342160871099925); (13089473994579481,479253965948255982,6045338514609393,221342160871099925); (13089473994579481,958507931896511964,9567406254594437,700596126819355907)]);
    (-818, [(1598075144577112,9142411051514033,17589294087056985,100626404956942067); (799037572288556,9142411051514033,17589294087056985,201252809913884134); (399518786144278,9142411051514033,17988812873201263,411648030879282301); (199759393072139,9142411051514033,17988812873201263,823296061758564602); (199759393072139,18284822103028066,10892120670785952,997001871737331229)]);
    (-821, [(16624168502285466,118881285364826281,5115933961988509,36584615053628058); (13428018213131242,192050515472082397,5115933961988509,73169230107256116); (16945877030542639,484727435901106861,5115933961988509,146338460214512232); (16146839458254083,923742816544643557,5115933961988509,292676920429024464); (5515452748132787,631065896115619093,5115933961988509,585353840858048928)]);
    (-824, [(13811974947698099,123463719026262242,10231867923977018,91461537634070145); (13811974947698099,246927438052524484,5115933961988509,91461537634070145); (14579888416831813,521312050954734919,5115933961988509,182923075268140290); (9847911189410161,704235126222875209,5115933961988509,365846150536280580)]);
    (-828, [(13710284318260854,76596698573600633,6651760900255937,37162097651173780); (6855142159130427,76596698573600633,13506903059386364,150920893875948193); (6855142159130427,153193397147201266,13608593688823609,304114291023149459); (17087010083107445,763694482464753257,10231867923977018,457307688170350725); (6855142159130427,612773588588805064,5115933961988509,457307688170350725)]);
    (-831, [(6977170914455121,48725125335220298,13628931814711058,95177747399187523); (13791636821810650,192627998069628119,6814465907355529,95177747399187523); (13710284318260854,382983492868003165,6814465907355529,190355494798375046); (13669608066485956,763694482464753257,6814465907355529,380710989596750092); (6834804033242978,763694482464753257,6814465907355529,761421979193500184)]);
    (-834, [(18010480371903641,157220405703839432,4056138542993399,35407592365788687); (15089448000441919,263443182801205493,4056138542993399,70815184731577374); (9572793271717659,334258367532782867,13628931814711058,475888736995937615); (9572793271717659,668516735065565734,6814465907355529,475888736995937615)]);
    (-838, [(17296109891931623,94365244504728474,16581739411959605,90467735444557303); (17296109891931623,188730489009456948,16938924651945614,184832979949285777); (17296109891931623,377460978018913896,8469462325972807,184832979949285777); (12882786108952215,562293957968199673,8469462325972807,369665959898571554); (10676124217462511,931959917866771227,8469462325972807,739331919797143108)]);
    (-841, [(10663414127147781,72722687908631941,13265391529567684,90467735444557303); (17296109891931623,235913111261821185,6632695764783842,90467735444557303); (17296109891931623,471826222523642370,3316347882391921,90467735444557303); (13622576769553693,743229428857314279,16938924651945614,924164899746428885); (5153114443580886,562293957968199673,8469462325972807,924164899746428885)]);
    (-844, [(4785761131343093,40797605838297311,14775477067525992,125957830516408027); (4785761131343093,81595211676594622,16959260796449182,289148253869597271); (4785761131343093,163190423353189244,13265391529567684,452338677222786515); (4785761131343093,326380846706378488,11418456896126935,778719523929165003)]);
    (-848, [(11318549245824738,60305155507066943,13483769902460003,71841436842209806); (5659274622912369,60305155507066943,13483769902460003,143682873684419612); (9571522262686186,203988029191486555,13483769902460003,287365747368839224); (4785761131343093,203988029191486555,13483769902460003,574731494737678448); (4785761131343093,407976058382973110,9134765516901548,778719523929165003)]);
    (-851, [(12617681639805897,84033655385190826,14349858165114109,95569936720333689); (12617681639805897,168067310770381652,13483769902460003,179603592105524515); (12617681639805897,336134621540763304,13050725771132950,347670902875906167); (12617681639805897,672269243081526608,6525362885566475,347670902875906167); (3046159377119711,324598340205620441,6525362885566475,695341805751812334)]);
    (-854, [(16971883685604971,141290756256512514,8263479594006823,68793382206464551); (12617681639805897,210084138462977065,8263479594006823,137586764412929102); (12617681639805897,420168276925954130,10440580616906360,347670902875906167); (12617681639805897,840336553851908260,5220290308453180,347670902875906167)]);
    (-858, [(177969799036530,925997960895853,17837500558403977,92810629859565946); (88984899518265,925997960895853,17926485457922242,186547257680027745); (16793913886568441,349522898797697873,16704928987050176,347670902875906167); (16793913886568441,699045797595395746,8352464493525088,347670902875906167); (8441449393043353,702749789438979158,4176232246762544,347670902875906167)]);
    (-861, [(142375839229224,925997960895853,17908688478018589,116476286304905359); (71187919614612,925997960895853,17979876397633201,233878570570706571); (35593959807306,925997960895853,17979876397633201,467757141141413142); (17796979903653,925997960895853,17997673377536854,936440280243722137); (17796979903653,1851995921791706,9603934005492629,999408141584640141)]);
    (-864, [(13940565338518498,113335021825755933,6685530990800801,54352516010638334); (13655813660060050,222040053847032601,6685530990800801,108705032021276668); (13513437820830826,439450117889585937,6685530990800801,217410064042553336); (13442249901216214,874270245974692609,6685530990800801,434820128085106672)]);
    (-868, [(17610181918848841,89480335968407109,9131942044354363,46400954058188726); (17610181918848841,178960671936814218,13371061981601602,135881290026595835); (17610181918848841,357921343873628436,6685530990800801,135881290026595835); (12147856454824821,493802633900224271,6685530990800801,271762580053191670); (9416693722812811,765565213953415941,6685530990800801,543525160106383340)]);
    (-871, [(8870461176410409,56340406498750736,9393422912298317,59661978646721079); (8870461176410409,112680812997501472,18002403220764772,228683198142973287); (8870461176410409,225361625995002944,17871662786792795,454044824137976231); (8870461176410409,450723251990005888,13371061981601602,679406450132979175); (8870461176410409,901446503980011776,6685530990800801,679406450132979175)]);
    (-874, [(8870461176410409,70425508123438420,12837015035684899,101917283520784131); (8870461176410409,140851016246876840,10853738106047654,172342791644222551); (8870461176410409,281702032493753680,14297330229434236,454044824137976231); (8870461176410409,563404064987507360,7148665114717118,454044824137976231)]);
    (-878, [(17740922352820818,88031885154298025,12043704263830001,59761830275821868); (8870461176410409,88031885154298025,12043704263830001,119523660551643736); (8870461176410409,176063770308596050,10457082720120205,207555545705941761); (8870461176410409,352127540617192100,9663771948265307,383619316014537811); (9267116562337858,735746856631729911,9663771948265307,767238632029075622)]);
    (-881, [(9375256176724654,58150970016387091,12043704263830001,74702287844777335); (4687628088362327,58150970016387091,16731332352192328,207555545705941761); (17740922352820818,440159425771490125,13053294264458491,323857485738715943); (8870461176410409,440159425771490125,13053294264458491,647714971477431886); (8870461176410409,880318851542980250,2091416544024041,207555545705941761)]);
    (-884, [(14466720265338377,112164110575676621,8567584176221862,66426628930582213); (14466720265338377,224328221151353242,4283792088110931,66426628930582213); (17942840352946516,556461365804264307,4283792088110931,132853257861164426); (13255212264584189,822167881526593159,4283792088110931,265706515722328852); (4485710088236629,556461365804264307,4283792088110931,531413031444657704)]);
    (-887, [(1179827217823303,11434370411273602,17752755655361206,172051958895080637); (1179827217823303,22868740822547204,17135168352443724,332133144652911065); (9747411394045165,377870626298005473,8567584176221862,332133144652911065); (9747411394045165,755741252596010946,4283792088110931,332133144652911065)]);
    (-891, [(4719308871293212,28585926028184005,14416031012648961,87321175067455367); (16775685448295567,203228276163094739,14416031012648961,174642350134910734); (15595858230472264,377870626298005473,14416031012648961,349284700269821468); (7797929115236132,377870626298005473,14416031012648961,698569400539642936); (3898964557618066,377870626298005473,6618101897412829,641397548483274926)]);
    (-894, [(17999680529357143,136285192963580779,51620879753865,390849245725838); (9593480381848019,145274725615275053,9645101261601884,146056424106726729); (9593480381848019,290549451230550106,14416031012648961,436605875337276835); (12004755697248490,727155326567826941,14416031012648961,873211750674553670); (6002377848624245,727155326567826941,2411275315400471,292112848213453458)]);
    (-897, [(18004322376516947,170400423583918039,20648351901546,195424622862919); (18004322376516947,340800847167836078,10324175950773,195424622862919); (18010004705307916,681816814063629733,10324175950773,390849245725838); (9603804557798792,727155326567826941,9614128733749565,727937025059278617)]);
    (-901, [(7660330459147333,45312853482270927,15485847733507034,91602830078856449); (7660330459147333,90625706964541854,15403254325900850,182228537043398303); (15361957622097758,363479950972482011,7701627162950425,182228537043398303); (7680978811048879,363479950972482011,15382605973999304,727937025059278617); (7680978811048879,726959901944964022,7691302986999652,727937025059278617)]);
    (-904, [(1499028728786993,11083932591989083,17150063277506395,126808874083452888); (13821632189507673,204396402227376469,12322603460720680,182228537043398303); (13821632189507673,408792804454752938,6161301730360340,182228537043398303); (16902283054687843,999814145952904179,3080650865180170,182228537043398303); (7660330459147333,906257069645418540,1540325432590085,182228537043398303)]);
    (-907, [(16286152881651809,150526318522535081,3430012655501279,31702218520863222); (16286152881651809,301052637045070162,9858082768576544,182228537043398303); (16286152881651809,602105274090140324,4929041384288272,182228537043398303); (11357111497363537,839753474093484042,2464520692144136,182228537043398303)]);
    (-911, [(1712443434958933,9892138424878451,17144937491922982,99039823151914957); (10284912180920424,118824100001671859,8572468745961491,99039823151914957); (5142456090460212,118824100001671859,13714924836421703,316903746305501773); (16286152881651809,752631592612675405,13714924836421703,633807492611003546); (1285614022615053,118824100001671859,9858082768576544,911142685216991515)]);
    (-914, [(3771476185376383,27232990394198352,15779083372422566,113937250240797857); (3771476185376383,54465980788396704,15432494056964049,222869211817591265); (3771476185376383,108931961576793408,17144937491922982,495199115759574785); (3771476185376383,217863923153586816,16115421116714257,930926962066748417); (3771476185376383,435727846307173632,6171972465668937,713063038913161601)]);
    (-917, [(3771476185376383,34041237992747940,17903333357464989,161594983430644973); (3771476185376383,68082475985495880,14608880956797069,263718697408888793); (3771476185376383,136164951970991760,16733130941839492,604131077336368193); (3771476185376383,272329903941983520,12138041656296129,876460981278351713)]);
    (-921, [(7542952370752766,42551547490934925,16585552397197821,93562955962602964); (3771476185376383,42551547490934925,16585552397197821,187125911925205928); (3771476185376383,85103094981869850,17721466662039868,399883649379880553); (3771476185376383,170206189963739700,16403685701772700,740296029307359953); (3771476185376383,340412379927479400,8201842850886350,740296029307359953)]);
    (-924, [(11468864730927510,80873164491503293,9351472376041777,65942286481585666); (15085904741505532,212757737454674625,9351472376041777,131884572963171332); (7542952370752766,212757737454674625,16894424746794543,476526883381017289); (3771476185376383,212757737454674625,16894424746794543,953053766762034578); (3771476185376383,425515474909349250,6561474280709080,740296029307359953)]);
    (-927, [(13939018268412781,122864440347733729,4763926483670773,41991275856230436); (13939018268412781,245728880695467458,9351472376041777,164855716203964165); (13939018268412781,491457761390934916,11645245322227279,410584596899431623); (12792131795320030,902042358290366539,11645245322227279,821169193798863246)]);
    (-931, [(8292858724527761,45685491727780451,17820711691869307,98174586548068496); (8292858724527761,91370983455560902,13056785208198534,143860078275848947); (14821251328627028,326602045186970751,6528392604099267,143860078275848947); (13939018268412781,614322201738668645,6528392604099267,287720156551697894); (10233705436256024,902042358290366539,6528392604099267,575440313103395788)]);
    (-934, [(16832716297618279,115914630092578026,17326713994743793,119316431638831823); (17079715146181036,235231061731409849,17326713994743793,238632863277663646); (8539857573090518,235231061731409849,17326713994743793,477265726555327292); (4269928786545259,235231061731409849,17326713994743793,954531453110654584); (4269928786545259,470462123462819698,6528392604099267,719300391379244735)]);
    (-937, [(10297228857421173,88636873342560418,17820711691869307,153397791481357025); (10297228857421173,177273746685120836,14058970274645240,242034664823917443); (10297228857421173,354547493370241672,17326713994743793,596582158194159115); (10297228857421173,709094986740483344,13811971426082483,951129651564400787)]);
    (-941, [(17744615627957289,95464230577563224,1899894724590038,10221240733758199); (17744615627957289,190928461155126448,949947362295019,10221240733758199); (10297228857421173,221592183356401045,11247176219716192,242034664823917443); (10297228857421173,443184366712802090,15920816967279269,685219031536719533); (10297228857421173,886368733425604180,2811794054929048,242034664823917443)]);
    (-944, [(17744615627957289,119330288221954030,8617762030854946,57953356022539811); (17744615627957289,238660576443908060,4308881015427473,57953356022539811); (15335629337119854,412520644511527493,4308881015427473,115906712045079622); (16285576699414873,876147492691845981,4308881015427473,231813424090159244); (5988347841993700,644334068601686737,4308881015427473,463626848180318488)]);
    (-947, [(13890237562617393,116762606089298224,6690572998184998,56241567934102607); (13890237562617393,233525212178596448,17235524061709892,289766780112699055); (13890237562617393,467050424357192896,8617762030854946,289766780112699055); (13890237562617393,934100848714385792,4308881015427473,289766780112699055)]);
    (-951, [(13890237562617393,72976628805811390,16261011822142954,85432219456427163); (13890237562617393,145953257611622780,8130505911071477,85432219456427163); (13890237562617393,291906515223245560,11010371736844435,231385477068049943); (13890237562617393,583813030446491120,12450304649730914,523291992291295503); (7665085237751936,644334068601686737,6225152324865457,523291992291295503)]);
    (-954, [(16601403476233677,109025714434246273,3726357216333703,24471952526760734); (13890237562617393,182441572014528475,17616594778951096,231385477068049943); (13890237562617393,364883144029056950,8808297389475548,231385477068049943); (13890237562617393,729766288058113900,4404148694737774,231385477068049943); (9486088867879619,996761621980127914,2202074347368887,231385477068049943)]);
    (-957, [(11857461493360655,97338774138954421,7452714432667406,61179881316901835); (11857461493360655,194677548277908842,15583818709694358,255857429594810677); (11857461493360655,389355096555817684,7791909354847179,255857429594810677); (11857461493360655,778710193111635368,9824685424103917,645212526150628361)]);
    (-961, [(17957225779424009,92132617576087204,338237536651013,1735385520955739); (9485969194688524,97338774138954421,9824206731339537,100809545180865899); (4742984597344262,97338774138954421,14567191328683799,298957864500686219); (2371492298672131,97338774138954421,16938683627355930,695254503140326859); (2371492298672131,194677548277908842,10840834112350096,889932051418235701)]);
    (-964, [(7453480341090414,47801694308999341,11856695584937647,76041005265888359); (3726740170545207,47801694308999341,15583435755482854,199883704840776059); (3726740170545207,95603388617998682,15245198218831841,391090482076773423); (9485969194688524,486693870694772105,15245198218831841,782180964153546846); (4742984597344262,486693870694772105,5759229024143317,590974186917549482)]);
    (-967, [(2100749087666719,16841019415277416,17209426838361342,137962355053332209); (12806211594514109,205326432714441873,10705462506847390,171644393883887041); (12806211594514109,410652865428883746,5352731253423695,171644393883887041); (9079471423968902,582297259312770787,14432202677392597,925586047080544869)]);
    (-971, [(2100749087666719,10525637134548385,17451487320577896,87439296807499961); (2100749087666719,21051274269096770,17128740010955824,171644393883887041); (10665119093144631,213746942422080581,8564370005477912,171644393883887041); (14947304095883587,599138278728048203,4282185002738956,171644393883887041); (10665119093144631,854987769688322324,2141092501369478,171644393883887041)]);
    (-974, [(8111945456982361,50805326321883049,15932840020280207,99787793292907222); (8111945456982361,101610652643766098,12022392738631284,150593119614790271); (8111945456982361,203221305287532196,14123141826298003,353814424902322467); (11117543641640182,557035730189854663,14123141826298003,707628849804644934); (5558771820820091,557035730189854663,8564370005477912,858221969419435205)]);
    (-977, [(58210178736903,455714837714719,18011657501177500,141009351856164933); (16223890913964722,254026631609415245,16165680735227819,253115201933985807); (8111945456982361,254026631609415245,16165680735227819,506230403867971614); (12138813096105090,760257035477386859,4026867639122729,252203772258556369)]);
    (-981, [(13374941946582718,65443445962641367,6454630258343747,31582435887033886); (13142101231635106,128608317736709139,6454630258343747,63164871774067772); (13025680874161300,254938061284844683,6454630258343747,126329743548135544); (12967470695424397,507597548381115771,6454630258343747,252659487096271088); (9711050476884072,760257035477386859,6454630258343747,505318974192542176)]);
    (-984, [(14386459140314333,87990985783629984,12909260516687494,78956089717584715); (14386459140314333,175981971567259968,6454630258343747,78956089717584715); (16875174957672787,412850240720014113,6454630258343747,157912179435169430); (11664902608008267,570762420155183543,6454630258343747,315824358870338860); (9059766433176007,886586779025522403,6454630258343747,631648717740677720)]);
    (-987, [(14386459140314333,109988732229537480,4572824757224262,34960596825769723); (16672871518926464,254938061284844683,2286412378612131,34960596825769723); (10622848138075363,324859254936384129,12909260516687494,394780448587923575); (10622848138075363,649718509872768258,6454630258343747,394780448587923575); (2084108939865808,254938061284844683,6454630258343747,789560897175847150)]);
    (-990, [(15167427118030876,144949329055307203,15948395095747419,152412742823692556); (7583713559015438,144949329055307203,15948395095747419,304825485647385112); (3791856779507719,144949329055307203,15948395095747419,609650971294770224); (3791856779507719,289898658110614406,9870125937627569,754600300350077427)]);
    (-994, [(8944262675275217,53423071674692032,14008264840944404,83669785180231631); (8944262675275217,106846143349384064,15948395095747419,190515928529615695); (12446328885511318,297362071878999759,15948395095747419,381031857059231390); (6223164442755659,297362071878999759,15948395095747419,762063714118462780); (6223164442755659,594724143757999518,4862615326495880,464701642239463021)]);
    (-997, [(8944262675275217,66778839593365040,14784316942865610,110381321017577647); (8944262675275217,133557679186730080,16336421146708022,243939000204307727); (17112473248629228,511054358577767887,8168210573354011,243939000204307727); (16724447197668625,998932358986383341,8168210573354011,487878000408615454); (4278118312157307,511054358577767887,8168210573354011,975756000817230908)]);
    (-1000, [(8944262675275217,83473549491706300,11827453554292488,110381321017577647); (14857989452421461,277328420000990247,5913726777146244,110381321017577647); (14857989452421461,554656840001980494,17814852840994583,665038161019558141); (13379557758134900,998932358986383341,1478431694286561,110381321017577647)]);
    (-1004, [(17888525350550434,104341936864632875,7673110308378947,44756466822325536); (8944262675275217,104341936864632875,16617372983654164,193854870509283947); (17252949167102299,402538744238549697,8308686491827082,193854870509283947); (17252949167102299,805077488477099394,4154343245913541,193854870509283947); (10703646206507920,998932358986383341,4154343245913541,387709741018567894)]);
    (-1007, [(17380064403791926,126720170275795643,7673110308378947,55945583527906920); (8690032201895963,126720170275795643,16363142510274910,238611337331609483); (8690032201895963,253440340551591286,16871603457033418,492051677883200769); (17125833930412672,998932358986383341,8435801728516709,492051677883200769); (8562916965206336,998932358986383341,8435801728516709,984103355766401538)]);
    (-1010, [(10834807399681962,98747378511842183,7673110308378947,69931979409883650); (5417403699840981,98747378511842183,13090514008219928,238611337331609483); (11962660703950945,436106094355293849,6545257004109964,238611337331609483); (11962660703950945,872212188710587698,3272628502054982,238611337331609483)]);
    (-1014, [(11467146817942565,65319036457646181,17875578289800306,101822673813333829); (11467146817942565,130638072915292362,8937789144900153,101822673813333829); (10202467981421359,232460746728626191,8937789144900153,203645347626667658); (9570128563160756,436106094355293849,8937789144900153,407290695253335316); (4785064281580378,436106094355293849,8937789144900153,814581390506670632)]);
    (-1017, [(9173717454354052,65319036457646181,15582148926211793,110948583152255741); (4586858727177026,65319036457646181,15582148926211793,221897166304511482); (2293429363588513,65319036457646181,17875578289800306,509113369066669145); (13524647872077179,770389514897253869,11231218508488666,639751441981961507); (7909038617832846,901027587812546231,5615609254244333,639751441981961507)]);
    (-1020, [(9902346552226338,88133809804950961,16310778024084079,145170743173212911); (4951173276113169,88133809804950961,16310778024084079,290341486346425822); (4951173276113169,176267619609901922,15582148926211793,554742915761278705); (4951173276113169,352535239219803844,10266661101162481,731010535371180627)]);
    (-1024, [(5358504653037974,29807671560409993,15496115270234469,86200002490532434); (2679252326518987,29807671560409993,15496115270234469,172400004981064868); (2679252326518987,59615343120819986,17125440777933689,381053705903934819); (9902346552226338,440669049024754805,17125440777933689,762107411807869638); (4951173276113169,440669049024754805,7223094225707351,642876725566229666)]);
    (-1027, [(3330982529598675,23161506717981881,14772053552954546,102715344366086203); (10717009306075948,149038357802049965,7386026776477273,102715344366086203); (12744531429515247,354469046534222371,7386026776477273,205430688732172406); (17451305879473533,970761112730739589,7386026776477273,410861377464344812); (5032639551498130,559899735266394777,7386026776477273,821722754928689624)]);
    (-1030, [(15438250058874281,134184557137103224,12773464035195341,111023050419121343); (15438250058874281,268369114274206448,14105857047034811,245207607556224567); (15438250058874281,536738228548412896,14772053552954546,513576721830431015); (8052223282397008,559899735266394777,7386026776477273,513576721830431015)]);
    (-1034, [(15438250058874281,83865348210689515,11174592420987977,60703841492707634); (15438250058874281,167730696421379030,13306421239931129,144569189703397149); (15438250058874281,335461392842758060,14372335649402705,312299886124776179); (14905292854138493,647761278967534239,14372335649402705,624599772249552358); (266478602367894,23161506717981881,11441071023355871,994422970601304025)]);
    (-1037, [(3940381539352117,26756713732167849,14468421763271720,98246176267433387); (3940381539352117,53513427464335698,15114973960340094,205273031196104783); (15438250058874281,419326741053447575,11497868519522164,312299886124776179); (15438250058874281,838653482106895150,5748934259761082,312299886124776179); (6814848669232658,740407305839461763,2874467129880541,312299886124776179)]);
    (-1040, [(15761526157408468,133783568660839245,6834065892006461,58007436232068158); (14714828970710695,249798441124975561,6834065892006461,116014872464136316); (10774447431358578,365813313589111877,17608513323365039,597843058517384509); (5387223715679289,365813313589111877,12221289607685750,829872803445657141)]);
    (-1044, [(9875594569124190,52389925272402583,8730334499450827,46314332653883906); (4937797284562095,52389925272402583,13668131784012922,145018590580170395); (11771863176568556,249798441124975561,6834065892006461,145018590580170395); (5885931588284278,249798441124975561,12719997480290739,539835622285316351); (2942965794142139,249798441124975561,9777031686148600,829872803445657141)]);
    (-1047, [(7900475655299352,52389925272402583,12680572327100503,84087878453556174); (3950237827649676,52389925272402583,16630810154750179,220565682179514931); (1975118913824838,52389925272402583,16630810154750179,441131364359029862); (987559456912419,52389925272402583,17618369611662598,934652653990462307); (987559456912419,104779850544805166,8809184805831299,934652653990462307)]);
    (-1050, [(16464838385919884,136477803725958757,4448153134140561,36870946203965839); (8232419192959942,136477803725958757,12680572327100503,210219696133890435); (4116209596479971,136477803725958757,16796781923580474,556917195993739627); (4116209596479971,272955607451917514,12514600558270208,829872803445657141)]);
    (-1054, [(11485575591522379,59502790678769424,8365196608024178,43337187482481149); (15668173895534468,162342768840019997,4182598304012089,43337187482481149); (16199283555791412,335691518769944593,4182598304012089,86674374964962298); (16464838385919884,682389018629793785,4182598304012089,173348749929924596); (8232419192959942,682389018629793785,4182598304012089,346697499859849192)]);
    (-1057, [(11286387523028294,73088582821865861,11087199454534209,71798677295269942); (5643193761514147,73088582821865861,16730393216048356,216685937412405745); (14008390369538325,362863103056137467,8365196608024178,216685937412405745); (14008390369538325,725726206112274934,4182598304012089,216685937412405745); (4912896032763118,509040268699869189,9095494336775207,942412143524680679)]);
    (-1060, [(11326225136727111,91683204908981306,11166874681931843,90393299382385387); (11246549909329477,182076504291366693,11166874681931843,180786598764770774); (11206712295630660,362863103056137467,11166874681931843,361573197529541548); (5603356147815330,362863103056137467,11166874681931843,723146395059083096)]);
    (-1064, [(16047935737172277,81190233440305582,4403009690854630,22275848463947367); (16047935737172277,162380466880611164,2201504845427315,22275848463947367); (17930739673009056,362863103056137467,2201504845427315,44551696927894734); (8965369836504528,362863103056137467,11166874681931843,451966496911926935); (4482684918252264,362863103056137467,11166874681931843,903932993823853870)]);
    (-1067, [(17809139613514129,112625716032355661,3522407752683704,22275848463947367); (17809139613514129,225251432064711322,1761203876341852,22275848463947367); (17809139613514129,450502864129422644,880601938170926,22275848463947367); (17809139613514129,901005728258845288,440300969085463,22275848463947367); (9565021260385259,967833273650687389,440300969085463,44551696927894734)]);
    (-1070, [(15616854621865663,123452021836174638,9902161877533493,78277088051970491); (12759508249699578,201729109888145129,9902161877533493,156554176103940982); (6379754124849789,201729109888145129,16281916002383282,514837462096027093); (14520712126041430,918295681872317351,8140958001191641,514837462096027093)]);
    (-1074, [(13330977524132795,65863780201558112,17518446657334118,86552626618912077); (13330977524132795,131727560403116224,8759223328667059,86552626618912077); (13330977524132795,263455120806232448,11045100426399927,218280187022028301); (12188038975266361,481735307828260749,11045100426399927,436560374044056602); (11616569700833144,918295681872317351,11045100426399927,873120748088113204)]);
    (-1075, [(2666195504826559,65863780201558112,17518446657334118,432763133094560385); (2666195504826559,131727560403116224,16757809843146736,827945814303909057); (2666195504826559,263455120806232448,8378904921573368,827945814303909057)]);
    (-1075, [(2666195504826559,658637802015581120,3884801069594659,959673374707025281)]);
    (-1075, [(350844931767169,866702139018372141,121860556476810,301035572691444161)]);
    (-1075, [(34007484927463,840096500206173224,12186055647681,301035572691444161)]);
    (-1075, [(4023873197825,994028755133345322,255068201558,63010217868159259)]);
    (-1075, [(294638236449,727853152903505464,127534100779,315051089340796295)]);
    (-1075, [(16710413567,412802063562709169,27271619377,673698512031707936)]);
    (-1075, [(4036966595,997263253999106486,1056120581,260896448468998767)]);
    (-1075, [(309938795,765650554614663576,124363631,307218988345887349)]);
    (-1075, [(30799823,760856722114553983,31187936,770444387114773169)]);
    (-1075, [(3041171,751269057114334797,3429284,847145707116526657)]);
    (-1075, [(32438,80132507098991777,388113,958766500021918600)]);
    (-1075, [(16219,400662535494958885,38697,955942914855935876)]);
    (-1075, [(996,246044691628940779,3271,808044363773358723)]);
    (-1075, [(43,106224113855868007,369,911551116577099874)]);
    (-1075, [(19,469362363549184217,24,592878775009495853)]);
    (-1075, [(4,988131291682493089,1,247032822920623272)]) ].
Definition pos_rows : list (Z * list (Z * Z * Z * Z)) :=
  [ (129, [(8703372741147379,59232085531056128,10475783676484093,71294489295714757); (9589578208815736,130526574826770885,10475783676484093,142588978591429514); (4794789104407868,130526574826770885,15270572780891961,415704532009629913); (2397394552203934,130526574826770885,17667967333095895,961935638846030711); (1198697276101967,130526574826770885,8078389124280159,879658679077894342)]);
    (132, [(4794789104407868,26105314965354177,14020605547157521,76335437460025612); (2397394552203934,26105314965354177,16418000099361455,178776189885405401); (1198697276101967,26105314965354177,17616697375463422,383657694736164979); (1198697276101967,52210629930708354,17199229620445480,749132104251123457); (1198697276101967,104421259861416708,10997009362426674,957974623973956873)]);
    (136, [(5993486380509835,52210629930708354,13603137792139579,118500042891799679); (5993486380509835,104421259861416708,15791798466834542,275131932683924741); (13889385613927106,483974452406758157,7895899233417271,275131932683924741); (6944692806963553,483974452406758157,7895899233417271,550263865367849482)]);
    (139, [(16650541932197123,116037341577305561,1902412852907436,13257882592218265); (17601748358650841,245332565746829387,951206426453718,13257882592218265); (17601748358650841,490665131493658774,475603213226859,13257882592218265); (17599533624022312,981206787405734579,475603213226859,26515765184436530); (8799766812011156,981206787405734579,475603213226859,53031530368873060)]);
    (142, [(17619466235679073,98231806763998130,475603213226859,2651576518443653); (17608392562536428,196340137946413291,475603213226859,5303153036887306); (17840657332578535,397859953348130919,475603213226859,10606306073774612); (17718988110986159,790293278077791563,475603213226859,21212612147549224); (10999708515013945,981206787405734579,475603213226859,42425224295098448)]);
    (146, [(16767781684532441,149573610756538623,2378016066134295,21212612147549224); (9572898875333368,170786222904087847,11950914941467663,213211447199186295); (16737364379134347,597209117302460437,11950914941467663,426422894398372590); (2393224718833342,170786222904087847,11950914941467663,852845788796745180)]);
    (149, [(11981332246865757,85501644024413329,11950914941467663,85284578879674518); (11966123594166710,170786222904087847,11950914941467663,170569157759349036); (17933976738551018,511924538422785919,11950914941467663,341138315518698072); (8966988369275509,511924538422785919,11950914941467663,682276631037396144); (7475025083179432,853496984230961613,1491963286096077,170352092614610225)]);
    (152, [(17979602696648159,102645385858243757,5967853144384308,34070418522922045); (17979602696648159,205290771716487514,2983926572192154,34070418522922045); (17979602696648159,410581543432975028,1491963286096077,34070418522922045); (17195599421852503,785356147185117523,1491963286096077,68140837045844090); (10835744640070367,989778658322649793,1491963286096077,136281674091688180)]);
    (156, [(17347685948842973,158460446363351895,1491963286096077,13628167409168818); (16879641047949910,308370287864208893,1491963286096077,27256334818337636); (17391600240551417,635446305684260525,1491963286096077,54512669636675272); (12425708335515901,908009653867636885,1491963286096077,109025339273350544)]);
    (159, [(17391600240551417,127089261136852105,7459816430480385,54512669636675272); (12425708335515901,181601930773527377,7459816430480385,109025339273350544); (12425708335515901,363203861547054754,9942762382998143,290627270046877921); (12425708335515901,726407723094109508,11184235359257022,653831131593932675); (6833590655887390,798984314594286341,5592117679628511,653831131593932675)]);
    (162, [(17391600240551417,101671408909481684,4976870477962627,29094817409304851); (17391600240551417,203342817818963368,11184235359257022,130766226318786535); (17391600240551417,406685635637926736,5592117679628511,130766226318786535); (17083976639718475,798984314594286341,5592117679628511,261532452637573070); (5745929480044982,537451861956713271,5592117679628511,523064905275146140)]);
    (166, [(12722353363421732,118999937736596359,5592117679628511,52306490527514614); (17545412040967888,328225899846654815,5592117679628511,104612981055029228); (14364823700112455,537451861956713271,5592117679628511,209225962110058456); (9978470689870483,746677824066771727,5592117679628511,418451924220116912)]);
    (169, [(8772706020483944,65645179969330963,10415176357174667,77935602171396530); (4386353010241972,65645179969330963,14801529367416639,221516384312124023); (2193176505120986,65645179969330963,16994705872537625,508677948593579009); (1096588252560493,65645179969330963,15898117619977132,951710717217827055); (1096588252560493,131290359938661926,7949058809988566,951710717217827055)]);
    (172, [(10965882525604930,65645179969330963,10415176357174667,62348481737117224); (5482941262802465,65645179969330963,15898117619977132,190342143443565411); (5482941262802465,131290359938661926,13432000072791031,321632503382227337); (9457470667796748,452922863320889263,13432000072791031,643265006764454674); (4728735333898374,452922863320889263,8703264738892657,833607150208020085)]);
    (176, [(14940411930599213,143100716639642623,17406529477785314,166721430041604017); (14940411930599213,286201433279285246,8703264738892657,166721430041604017); (11821838334745935,452922863320889263,8703264738892657,333442860083208034); (10262551536819296,786365723404097297,8703264738892657,666885720166416068)]);
    (179, [(15592867979266390,119480003237681229,5584691143039379,42792571369105361); (13381125132672574,205065145975891951,5584691143039379,85585142738210722); (6690562566336287,205065145975891951,12275253709375666,376235431452313395); (12828189421024120,786365723404097297,6137626854687833,376235431452313395); (6414094710512060,786365723404097297,6137626854687833,752470862904626790)]);
    (182, [(8902305412930103,54570973394966593,12275253709375666,75247086290462679); (15039932267617936,184389033080395865,6137626854687833,75247086290462679); (13657592988496801,334883205661321223,6137626854687833,150494172580925358); (16035236776280150,786365723404097297,6137626854687833,300988345161850716); (8017618388140075,786365723404097297,6137626854687833,601976690323701432)]);
    (185, [(7519966133808968,36877806616079173,15648202005821229,76738559348767012); (3759983066904484,36877806616079173,15648202005821229,153477118697534024); (1879991533452242,36877806616079173,17528193539273471,343832044011147221); (939995766726121,36877806616079173,17528193539273471,687664088022294442); (939995766726121,73755613232158346,12054081953178159,945808734334848653)]);
    (189, [(4699978833630605,36877806616079173,13768210472368987,108030572311595550); (4699978833630605,73755613232158346,13934073486630401,218663992159833069); (14017004993761108,439930831856308107,9317026160130503,292419605391991415); (7008502496880554,439930831856308107,9317026160130503,584839210783982830)]);
    (192, [(14182868008022522,89027305385918409,9317026160130503,58483921078398283); (16408460164141764,205995147542714975,9317026160130503,116967842156796566); (17521256242201385,439930831856308107,9317026160130503,233935684313593132); (13419141201165944,673866516169901239,9317026160130503,467871368627186264); (6709570600582972,673866516169901239,9317026160130503,935742737254372528)]);
    (195, [(8204230082070882,41199029508542995,13768210472368987,69139566279421152); (4102115041035441,41199029508542995,17870325513404428,179478162067385299); (4102115041035441,82398059017085990,17139392838773096,344274280101557279); (12671811460421989,509070398135729259,8569696419386548,344274280101557279); (8386963250728715,673866516169901239,4284848209693274,344274280101557279)]);
    (199, [(4102115041035441,32959223606834396,14133676809684653,113559714853716507); (4102115041035441,65918447213668792,17322126007430929,278355832887888487); (4102115041035441,131836894427337584,14814235565268626,476111174528894863); (11509232823669754,739784963383570031,7407117782634313,476111174528894863)]);
    (202, [(13900569721979461,89349417292493645,6610005483197744,42487477134843939); (17205572463578333,221186311719831229,3305002741598872,42487477134843939); (17205572463578333,442372623439662458,1652501370799436,42487477134843939); (17205572463578333,884745246879324916,826250685399718,42487477134843939); (9356190952281012,962228428196614991,413125342699859,42487477134843939)]);
    (205, [(13900569721979461,71479533833994916,8262506853997180,42487477134843939); (13900569721979461,142959067667989832,4131253426998590,42487477134843939); (15966196435478756,328405612470823603,2065626713499295,42487477134843939); (16245605071736558,668305429549575115,2065626713499295,84974954269687878); (8122802535868279,668305429549575115,10188429249367574,838255338088950871)]);
    (209, [(16245605071736558,133661085909915023,10328133567496475,84974954269687878); (8122802535868279,133661085909915023,10328133567496475,169949908539375756); (8122802535868279,267322171819830046,17348270587550656,570933166269120825); (8122802535868279,534644343639660092,8674135293775328,570933166269120825)]);
    (212, [(5917471504240083,38948905312181716,17348270587550656,114186633253824165); (14591606798015411,192084443878187597,8674135293775328,114186633253824165); (14591606798015411,384168887756375194,4337067646887664,114186633253824165); (16760140621459243,882524408766574553,2168533823443832,114186633253824165); (9170272239405831,965742384756379951,1084266911721916,114186633253824165)]);
    (215, [(16576154580537423,87283641296432365,4337067646887664,22837326650764833); (16576154580537423,174567282592864730,2168533823443832,22837326650764833); (17660421492259339,371971891836494293,1084266911721916,22837326650764833); (17660421492259339,743943783672988586,542133455860958,22837326650764833); (11696953477788801,985466381029150846,271066727930479,22837326650764833)]);
    (219, [(16576154580537423,139653826074291784,2710667279304790,22837326650764833); (17931488220189818,302144978799348401,1355333639652395,22837326650764833); (17097745948009279,576192898608526397,1355333639652395,45674653301529666); (14647874352440417,987264778322293391,1355333639652395,91349306603059332)]);
    (222, [(14387078668704489,96968718401093413,6776668198261975,45674653301529666); (17358541631745207,233992678305682411,6776668198261975,91349306603059332); (12067604915003591,325341984908741743,6776668198261975,182698613206118664); (16198804754894758,873437824527097735,6776668198261975,365397226412237328); (8099402377447379,873437824527097735,6776668198261975,730794452824474656)]);
    (225, [(17540294694585926,94577081898428377,1485731481520359,8011048300699117); (16198804754894758,174687564905419547,17684536236415117,190709661506817781); (8099402377447379,174687564905419547,17684536236415117,381419323013635562); (8099402377447379,349375129810839094,12891969306931248,556106887919055109); (8099402377447379,698750259621678188,6445984653465624,556106887919055109)]);
    (229, [(16534177239817550,142643371702623079,4792566929483869,41346351621643203); (17852222478876513,308028778189195891,4792566929483869,82692703243286406); (17852222478876513,616057556378391782,11322394704180191,390721481432482297); (3264913887348161,225336074945909485,11322394704180191,781442962864964594)]);
    (232, [(6529827774696322,45067214989181897,17433006872723023,120318191497390915); (3264913887348161,45067214989181897,17433006872723023,240636382994781830); (3264913887348161,90134429978363794,16878788154731914,465972457940691315); (3264913887348161,180268859956727588,14969221852062279,826510177854146491); (3264913887348161,360537719913455176,5852153982357059,646241317897418903)]);
    (235, [(16324569436740805,90134429978363794,16878788154731914,93194491588138263); (16324569436740805,180268859956727588,8439394077365957,93194491588138263); (12381981757053381,273463351544865851,8439394077365957,186388983176276526); (12381981757053381,546926703089731702,10410687917209669,459852334721142377); (985646919921856,87074368368589325,10410687917209669,919704669442284754)]);
    (239, [(1971293839843712,17414873673717865,16570150468861529,146384608594220807); (985646919921856,17414873673717865,17555797388783385,310184090862159479); (492823459960928,17414873673717865,17555797388783385,620368181724318958); (246411729980464,17414873673717865,14106033169056889,996928132016587806)]);
    (242, [(492823459960928,3482974734743573,17798055629465149,125785769390731592); (246411729980464,3482974734743573,17798055629465149,251571538781463184); (123205864990232,3482974734743573,17921261494455381,506626052297669941); (61602932495116,3482974734743573,17674849764474917,999320205656365590); (30801466247558,3482974734743573,8834828951425771,999026662441325729)]);
    (245, [(616029324951160,3482974734743573,17674849764474917,99932020565636559); (308014662475580,3482974734743573,17982864426950497,203347015866016691); (154007331237790,3482974734743573,17982864426950497,406694031732033382); (77003665618895,3482974734743573,17982864426950497,813388063464066764); (77003665618895,6965949469487146,11032029352375966,997985724405476133)]);
    (249, [(385018328094475,3482974734743573,17751853430093812,160587827851967209); (385018328094475,6965949469487146,17731348261219831,320804665650171567); (385018328094475,13931898938974292,17913604840830078,648204290716067429); (385018328094475,27863797877948584,13577022357548739,982569865251450437)]);
    (252, [(1925091640472375,13931898938974292,17143568184641128,124068098567623769); (1925091640472375,27863797877948584,16272150654210064,235523290079418105); (17761533529466907,514161268858903945,15836441888994532,458433673103006777); (9843312584969641,569888864614801113,7918220944497266,458433673103006777); (5884202112721008,681344056126595449,3959110472248633,458433673103006777)]);
    (255, [(17761533529466907,102832253771780789,8136075327105032,47104658015883621); (17761533529466907,205664507543561578,4068037663552516,47104658015883621); (17761533529466907,411329015087123156,2034018831776258,47104658015883621); (17761533529466907,822658030174246312,1017009415888129,47104658015883621); (8372262056789389,775553372158362691,9389271472677518,869762688190129933)]);
    (259, [(15727514697690649,145689742828495814,5085047079440645,47104658015883621); (15727514697690649,291379485656991628,10406280888565647,192794400844379435); (13066897793128148,484173886501371063,10406280888565647,385588801688758870); (6533448896564074,484173886501371063,10406280888565647,771177603377517740)]);
    (262, [(13303084522812505,98585084812612193,10406280888565647,77117760337751774); (11854682705689076,175702845150363967,10406280888565647,154235520675503548); (16333622241410185,484173886501371063,10406280888565647,308471041351007096); (16333622241410185,968347773002742126,13369951564987916,792644927852378159); (2963670676422269,351405690300727934,6684975782493958,792644927852378159)]);
    (265, [(7375743169967967,43727498820016961,14885220424286756,88247847510330045); (14818353382111345,175702845150363967,7442610212143378,88247847510330045); (14818353382111345,351405690300727934,3721305106071689,88247847510330045); (12991134350163206,616149232831718069,16712439456234895,792644927852378159); (6495567175081603,616149232831718069,10216872281153292,969140622873038249)]);
    (269, [(16578705371884073,157260425778001835,3721305106071689,35299139004132018); (17592615451121259,333756120798661925,3721305106071689,70598278008264036); (14378265384668163,545550954823454033,3721305106071689,141196556016528072); (9049785245369926,686747510839982105,12771090351441615,969140622873038249)]);
    (272, [(17592615451121259,133502448319464770,506955039618593,3847053848531651); (9049785245369926,137349502167996421,9556740284988519,145043609865059723); (4524892622684963,137349502167996421,14081632907673482,427436721898115867); (4524892622684963,274699004335992842,16090601699206667,976834730570101551); (4524892622684963,549398008671985684,5782854538260852,702135726234108709)]);
    (275, [(17592615451121259,106801958655571816,5031847662303556,30547543512424605); (17592615451121259,213603917311143632,2515923831151778,30547543512424605); (17592615451121259,427207834622287264,1257961915575889,30547543512424605); (10683250598924463,518850465159561079,11941212514500352,579945552184410289); (4712644341674287,457755378134711869,5970606257250176,579945552184410289)]);
    (279, [(16935357442921534,164498960415435661,1257961915575889,12219017404969842); (17273412130491990,335565204085013449,1257961915575889,24438034809939684); (13668553727549551,531069482564530921,14926515643125440,579945552184410289); (6205295905986831,482193412944651553,7463257821562720,579945552184410289)]);
    (282, [(11152629896397773,86663468664954437,17442439474277218,135539538284833805); (11152629896397773,173326937329908874,8721219737138609,135539538284833805); (9936924816768191,308866475614742679,8721219737138609,271079076569667610); (9936924816768191,617732951229485358,9329072276953400,579945552184410289); (5272388678291491,655520350274560427,4664536138476700,579945552184410289)]);
    (285, [(14799745135286519,92003214359008591,8721219737138609,54215815313933522); (11760482436212564,146219029672942113,8721219737138609,108431630627867044); (14601460955244891,363082290928676201,8721219737138609,216863261255734088); (14601460955244891,726164581857352402,11661340346191750,579945552184410289); (8770790782149016,872383611530294515,5830670173095875,579945552184410289)]);
    (288, [(15196313495369775,75574798090150138,2840978519032327,14128846316558395); (17541581564298032,174476722306058903,2840978519032327,28257692633116790); (8770790782149016,174476722306058903,11611769301181343,230992107572292483); (4385395391074508,174476722306058903,15997164692255851,636460937450643869); (2192697695537254,174476722306058903,11611769301181343,923968430289169932)]);
    (292, [(16245019917307886,129264414093072039,2840978519032327,22606154106493432); (10963488477686270,174476722306058903,13804466996718597,219689030519045767); (5481744238843135,174476722306058903,13804466996718597,439378061038091534); (5481744238843135,348953444612117806,15124849856624001,962808227956268243)]);
    (295, [(2640765719810808,16810421176017035,16845658314972443,107235037601990763); (1320382859905404,16810421176017035,16845658314972443,214470075203981526); (660191429952702,16810421176017035,17505849744925145,445750571583980087); (330095714976351,16810421176017035,17835945459901496,908311564343977209); (330095714976351,33620842352034070,9578164159903450,975553249048045349)]);
    (298, [(660191429952702,3362084235203407,17548957149639313,89369642652418945); (330095714976351,3362084235203407,17879052864615664,182101369540041297); (330095714976351,6724168470406814,17852110736669309,363653918241025275); (330095714976351,13448336940813628,18003687530184307,733483184113400045); (330095714976351,26896673881627256,12137753057367488,989001585988858977)]);
    (302, [(1650478574881755,13448336940813628,18003687530184307,146696636822680009); (16428997352060051,267731669290002661,14778518777178296,240834995408375405); (16428997352060051,535463338580005322,7389259388589148,240834995408375405); (12734367657765477,830091681751635239,3694629694294574,240834995408375405)]);
    (305, [(15641652262997923,101960346844929593,7389259388589148,48166999081675081); (15641652262997923,203920693689859186,3694629694294574,48166999081675081); (17488967110145210,456008386461393453,1847314847147287,48166999081675081); (17981057790809040,937678377278144263,1847314847147287,96333998163350162); (8990528895404520,937678377278144263,1847314847147287,192667996326700324)]);
    (308, [(11947022568703349,62301477843273642,9236574235736435,48166999081675081); (10591798402219892,110468476924948723,9236574235736435,96333998163350162); (14532473436846381,303136473251649047,9236574235736435,192667996326700324); (11884523836291408,495804469578349371,9236574235736435,385335992653400648); (5942261918145704,495804469578349371,9236574235736435,770671985306801296)]);
    (312, [(13239748002774865,110468476924948723,6588624635181462,54973503145690385); (16534060320365596,275910456995587831,3294312317590731,54973503145690385); (14855654795364260,495804469578349371,3294312317590731,109947006291380770); (7427827397682130,495804469578349371,10722139715272861,715698482161110911)]);
    (315, [(14980652260188142,99995246929378599,3294312317590731,21989401258276154); (17373263082866264,231931654479035523,3294312317590731,43978802516552308); (15275256176614594,407846864545244755,3294312317590731,87957605033104616); (7637628088307297,407846864545244755,10931940405898028,583762074611453987); (7637628088307297,815693729090489510,5465970202949014,583762074611453987)]);
    (318, [(15275256176614594,81569372909048951,16471561587953655,87957605033104616); (7637628088307297,81569372909048951,16471561587953655,175915210066209232); (7637628088307297,163138745818097902,12054594838130476,257484582975258183); (7637628088307297,326277491636195804,13664925507372535,583762074611453987); (10651276797839916,910039566247649791,3013648709532619,257484582975258183)]);
    (322, [(9247958757549356,79014080059426685,10444264168888417,89235251457915749); (4623979378774678,79014080059426685,15068243547663095,257484582975258183); (2311989689387339,79014080059426685,17380233237050434,593983246009943051); (13314095997299895,910039566247649791,11002106307912556,752011406128796421)]);
    (325, [(2311989689387339,15802816011885337,17541475503632000,119898765653382941); (2311989689387339,31605632023770674,15706706819978017,214715661724694963); (2311989689387339,63211264047541348,15945317322844695,435955085891089681); (16064622574278034,878433934223879117,13752632884890695,752011406128796421); (8032311287139017,878433934223879117,5720321597751678,625588878033713725)]);
    (328, [(11559948446936695,63211264047541348,11321337944070017,61906511559201397); (11559948446936695,126422528095082696,11440643195503356,125117775606742745); (17280270044688373,377962831796908137,5720321597751678,125117775606742745); (17280270044688373,755925663593816274,2860160798875839,125117775606742745); (10070215421782106,881043439200559019,2860160798875839,250235551213485490)]);
    (332, [(17757491050421729,155360340681451098,2860160798875839,25023555121348549); (16029147522400462,280478116288193843,2860160798875839,50047110242697098); (16595056157827748,580760777744376431,2860160798875839,100094220485394196); (14017849676665552,981137659685953215,2860160798875839,200188440970788392)]);
    (335, [(13734895358951909,96133311451796447,14300803994379195,100094220485394196); (14017849676665552,196227531937190643,14300803994379195,200188440970788392); (7008924838332776,196227531937190643,14300803994379195,400376881941576784); (3504462419166388,196227531937190643,17805266413545583,996981295820344211); (1752231209583194,196227531937190643,7291879156046419,816597400017544564)]);
    (338, [(6725970520619133,37661142773999029,14866712629806481,83244103615193556); (17522312095831940,196227531937190643,10796341575212807,120905246389192585); (8761156047915970,196227531937190643,10796341575212807,241810492778385170); (4380578023957985,196227531937190643,15176919599170792,679848517493960983); (4380578023957985,392455063874381286,7588459799585396,679848517493960983)]);
    (342, [(11106548544577118,99503334825836575,10796341575212807,96724197111354068); (16349615847501366,292951729048544711,10796341575212807,193448394222708136); (8174807923750683,292951729048544711,10796341575212807,386896788445416272); (8174807923750683,585903458097089422,9485574749481745,679848517493960983)]);
    (345, [(5553274272288559,39801333930334630,13107668257310620,93945059396871561); (5553274272288559,79602667860669260,17660382673232428,253150395118210081); (14383465608904773,412355730839548601,8830191336616214,253150395118210081); (14383465608904773,824711461679097202,4415095668308107,253150395118210081); (4984184970298333,571561066560887121,4415095668308107,506300790236420162)]);
    (348, [(5553274272288559,31841067144267704,16384585321638275,93945059396871561); (5553274272288559,63682134288535408,16522204069251976,189468260829674673); (13814376306914547,316832529406745489,8261102034625988,189468260829674673); (13814376306914547,633665058813490978,17944927324227541,823133319643165651); (9683825289601553,888393595967632610,2065275508656497,189468260829674673)]);
    (352, [(9683825289601553,88839359596763261,10968929796963417,100628901232911412); (9683825289601553,177678719193526522,10326377543282485,189468260829674673); (9683825289601553,355357438387053044,10005101416442019,367146980023201195); (9844463353021786,722504418410254239,10005101416442019,734293960046402390)]);
    (355, [(8398720782239689,61639854368492088,10005101416442019,73429396004640239); (9201911099340854,135069250373132327,10005101416442019,146858792009280478); (14606056966112446,428786834391693283,10005101416442019,293717584018560956); (7303028483056223,428786834391693283,10005101416442019,587435168037121912); (7303028483056223,857573668783386566,1351036466692898,158648333645428629)]);
    (358, [(3797765232569262,22298033420167205,15409247283213611,90473183532797917); (17308129899498242,203244400485763039,15409247283213611,180946367065595834); (8654064949749121,203244400485763039,15409247283213611,361892734131191668); (8654064949749121,406488800971526078,12031656116481366,565137134616954707); (8654064949749121,812977601943052156,6015828058240683,565137134616954707)]);
    (362, [(1898882616284631,17838426736133764,16887955833661225,158648333645428629); (11292301841257559,212163613853829921,9393419224972928,176486760381562393); (15989011453744023,600813988089222235,4696709612486464,176486760381562393); (11292301841257559,848654455415319684,2348354806243232,176486760381562393)]);
    (365, [(15989011453744023,120162797617844447,7494536608688297,56323962763717946); (15989011453744023,240325595235688894,11741774031216160,176486760381562393); (15989011453744023,480651190471377788,5870887015608080,176486760381562393); (15989011453744023,961302380942755576,2935443507804040,176486760381562393); (7182680930331903,863684199596136794,1467721753902020,176486760381562393)]);
    (368, [(10118124438135943,60832886017963079,9118186201768514,54820988345636235); (10118124438135943,121665772035926158,14677217539020200,176486760381562393); (10118124438135943,243331544071852316,17456733207646043,419818304453414709); (13787428822890993,663149848525267025,17456733207646043,839636608906829418); (10118124438135943,973326176287409264,1834652192377525,176486760381562393)]);
    (372, [(13787428822890993,132629969705053405,4559093100884257,43856790676508988); (13787428822890993,265259939410106810,9173260961887625,176486760381562393); (13787428822890993,530519878820213620,11480344892389309,441746699791669203); (1153541965250842,88773179028544417,12633886857640151,972266578611882823)]);
    (375, [(13787428822890993,106103975764042724,16039437993273566,123434772499541031); (13787428822890993,212207951528085448,8019718996636783,123434772499541031); (13787428822890993,424415903056170896,10903573909763888,335642724027626479); (13787428822890993,848831806112341792,5451786954881944,335642724027626479); (5609748390568077,690735440141804147,2725893477440972,335642724027626479)]);
    (378, [(14419274565635525,88773179028544417,5135864083509678,31619273194107529); (16987206607390364,209165631251196363,2567932041754839,31619273194107529); (11061535345450021,272404177639411421,13629467387204860,335642724027626479); (17876269039052451,880451079306449321,6814733693602430,335642724027626479); (7654168498648806,753973986530019205,3407366846801215,335642724027626479)]);
    (381, [(5925671261940343,29185416972596261,12839660208774195,63238546388215058); (15308336997297612,150794797306003841,9382665735357269,92423963360811319); (7654168498648806,150794797306003841,17036834234006075,335642724027626479); (3827084249324403,150794797306003841,17036834234006075,671285448055252958); (3827084249324403,301589594612007682,10431959241665239,822080245361256799)]);
    (385, [(13579839760589149,107014586078555554,5555581486032866,43780211227448287); (16357630503605582,257809383384559395,2777790743016433,43780211227448287); (10956605994819224,345369805839455969,13734396737835657,432930228294352543); (5478302997409612,345369805839455969,13734396737835657,865860456588705086)]);
    (388, [(8178815251802791,51561876676911879,13888953715082165,87560422454896574); (8178815251802791,103123753353823758,11033884483442478,139122299131808453); (13695757493524030,345369805839455969,5516942241721239,139122299131808453); (6847878746762015,345369805839455969,12364820988483254,623614404103072875); (6847878746762015,690739611678911938,6182410494241627,623614404103072875)]);
    (391, [(16164434282047447,81524625887032941,2855069231639687,14399418311193878); (9509751756843567,95924044198226819,12364820988483254,124722880820614575); (15692162251085194,316570969217068213,6182410494241627,124722880820614575); (14028491619784224,566016730858297363,6182410494241627,249445761641229150); (7014245809892112,566016730858297363,6182410494241627,498891523282458300)]);
    (395, [(14500763650746477,117014359904084893,6182410494241627,49889152328245830); (16523997566735679,266681816888822383,6182410494241627,99778304656491660); (17535614524730280,566016730858297363,6182410494241627,199556609312983320); (14950217756606767,965129949484264003,6182410494241627,399113218625966640)]);
    (398, [(13489146692751876,87080868507137395,6182410494241627,39911321862596664); (12926983840617565,166903512232330723,6182410494241627,79822643725193328); (15737107661671223,406371443407910707,6182410494241627,159645287450386656); (17142169572198052,885307305759070675,6182410494241627,319290574900773312); (8571084786099026,885307305759070675,6182410494241627,638581149801546624)]);
    (401, [(3372286673187969,17416173701427479,17422905778456259,89980592644676740); (17142169572198052,177061461151814135,13769882899010083,142229113748959177); (8571084786099026,177061461151814135,13769882899010083,284458227497918354); (4285542393049513,177061461151814135,13769882899010083,568916454995836708); (4285542393049513,354122922303628270,9027712646029798,745977916147650843)]);
    (405, [(4285542393049513,35412292230362827,17422905778456259,143968948231482784); (4285542393049513,70824584460725654,15139766478802399,250205824922571265); (4285542393049513,141649168921451308,13998196828975469,462679578304748227); (4285542393049513,283298337842902616,13427412004062004,887627085069102151)]);
    (408, [(3143972743222583,20783419476211401,15139766478802399,100082329969028506); (12285842354235074,162432588397662709,9141869611012491,120865749445239907); (6142921177117537,162432588397662709,15284790788130028,404164087288142523); (13785316571182551,729029264083467941,7642395394065014,404164087288142523); (6142921177117537,649730353590650836,3821197697032507,404164087288142523)]);
    (411, [(15719863716112915,83133677904845604,2998948433894954,15859782098563421); (17219337933060392,182127137908254629,1499474216947477,15859782098563421); (17606514268215058,372444523091015681,1499474216947477,31719564197126842); (8803257134107529,372444523091015681,10302731351055006,435883651485269365); (8803257134107529,744889046182031362,5151365675527503,435883651485269365)]);
    (415, [(13108091617372627,110914332199854062,10302731351055006,87176730297053873); (13108091617372627,221828664399708124,5151365675527503,87176730297053873); (14281094321977568,483358855290869743,5151365675527503,174353460594107746); (12291912836516287,832065776479085235,5151365675527503,348706921188215492)]);
    (418, [(17545809445402928,118771323506072853,1173002704604941,7940305298290699); (12291912836516287,166413155295817047,13464915541121228,182293765892398445); (12291912836516287,332826310591634094,6732457770560614,182293765892398445); (12291912836516287,665652621183268188,15658141721796594,847946387075666633); (4462841975617990,483358855290869743,7829070860898297,847946387075666633)]);
    (421, [(14332359788657137,77615038342276271,6732457770560614,36458753178479689); (17698588673937444,191688829863032231,3366228885280307,36458753178479689); (15581752107529336,337523842576950987,3366228885280307,72917506356959378); (14523333824325282,629193868004788499,17889562709605589,775028880718707255); (7261666912162641,629193868004788499,10627895797442948,920863893432626011)]);
    (425, [(1058418283204054,9170763429822695,17889562709605589,155005776143741451); (529209141602027,9170763429822695,17889562709605589,310011552287482902); (9209385925603808,319182315717305597,17889562709605589,620023104574965804); (4604692962801904,319182315717305597,13284869746803685,920863893432626011)]);
    (428, [(529209141602027,3668305371929078,17998845123111609,124762131005064463); (529209141602027,7336610743858156,17731373397989250,245816208278724037); (11511732407004760,319182315717305597,10982523265402733,304509094229589285); (5755866203502380,319182315717305597,16738389468905113,928200504176484167); (2877933101751190,319182315717305597,8104590163651543,898854061201051543)]);
    (431, [(13628568973412868,75575040333634169,10982523265402733,60901818845917857); (17796807752109167,197378678025469883,10982523265402733,121803637691835714); (14389665508755950,319182315717305597,10982523265402733,243607275383671428); (7194832754377975,319182315717305597,10982523265402733,487214550767342856); (7194832754377975,638364631434611194,9088678009890354,806396866484648453)]);
    (435, [(10601974997731192,94066479276914787,14770213776427491,131049357163476023); (5300987498865596,94066479276914787,14770213776427491,262098714326952046); (2650493749432798,94066479276914787,17420707525860289,618263907930818879); (1325246874716399,94066479276914787,13444966901711092,954328378030893397)]);
    (438, [(13252468747163990,94066479276914787,12119720026994693,86026189875397861); (6626234373581995,94066479276914787,12119720026994693,172052379750795722); (15999211573870339,454251817581540083,9372977200288344,266118859027710509); (15999211573870339,908503635163080166,4686488600144172,266118859027710509); (6626234373581995,752531834215318296,2343244300072086,266118859027710509)]);
    (441, [(16650714907671881,94549877985172452,2746742826706349,15597180094776187); (17938957347308162,203730138648605761,2746742826706349,31194360189552374); (8969478673654081,203730138648605761,11716221500360430,266118859027710509); (14827589423834296,673579136324922031,5858110750180215,266118859027710509); (7413794711917148,673579136324922031,5858110750180215,532237718055421018)]);
    (445, [(12080846597127947,109760339113342507,8604853576886564,78179259957184001); (16383273385571229,297699938183869015,4302426788443282,78179259957184001); (16383273385571229,595399876367738030,2151213394221641,78179259957184001); (9267243389896435,673579136324922031,11418456784118076,829937656239290033)]);
    (448, [(16383273385571229,119079975273547606,10756066971108205,78179259957184001); (16383273385571229,238159950547095212,13569670178339717,197259235230731607); (14976471781955473,435419185777826819,13569670178339717,394518470461463214); (14976471781955473,870838371555653638,14273070980147595,829937656239290033); (351700400903939,40900715316363605,8294164164780632,964563152100398781)]);
    (451, [(1406801603615756,8180143063272721,17203493161531369,100033320183645258); (703400801807878,8180143063272721,17906893963339247,208246783430563237); (351700400903939,8180143063272721,17906893963339247,416493566861126474); (351700400903939,16360286126545442,17921807204720068,833680863088035245); (351700400903939,32720572253090884,10719405606879729,997283724353489665)]);
    (455, [(1758502004519695,16360286126545442,17921807204720068,166736172617607049); (1758502004519695,32720572253090884,17753413624958509,330339033883061469); (9755957814739102,363059606136152353,17753413624958509,660678067766122938); (4877978907369551,363059606136152353,12875434717588958,958296529396093523)]);
    (458, [(16789965832817882,124964836832175885,7997455810219407,59523692325994117); (16392438726628348,244012221484164119,7997455810219407,119047384651988234); (16193675173533581,482106990788140587,7997455810219407,238094769303976468); (16193675173533581,964213981576281174,12095565491876494,720201760092117055); (4098109681657087,488024442968328238,6047782745938247,720201760092117055)]);
    (461, [(8394982916408941,49985934732870354,15796148067344047,94054417285553057); (8394982916408941,99971869465740708,12095565491876494,144040352018423411); (14442765662347188,343984090949904827,6047782745938247,144040352018423411); (13269165577111841,632064794986751649,6047782745938247,288080704036846822); (9658474161525044,920145499023598471,6047782745938247,576161408073693644)]);
    (465, [(1173600085235347,11180677382611601,17329312792102418,165093252828119211); (15706256907463291,299261381419458423,14532656822227944,276900026654235221); (15706256907463291,598522762838916846,7266328411113972,276900026654235221); (12073092701906305,920145499023598471,3633164205556986,276900026654235221)]);
    (468, [(8439928496349319,64324547236936325,11011856566521903,83926384943426246); (8439928496349319,128649094473872650,9725892531435611,148250932180362571); (17522839010241784,534198215601980521,9082910513892465,276900026654235221); (8761419505120892,534198215601980521,9082910513892465,553800053308470442); (4380709752560446,534198215601980521,4702200761332019,573401891014960363)]);
    (471, [(8439928496349319,51459637789549060,11654838584065049,71061475496038981); (8439928496349319,102919275579098120,10047383540207184,122521113285588041); (8439928496349319,205838551158196240,13463620266452911,328359664443784281); (10951774381401115,534198215601980521,13463620266452911,656719328887568562); (9695851438875217,945875317918373001,1255922942525898,122521113285588041)]);
    (474, [(8439928496349319,41167710231639248,16678530354168641,81353403053948793); (8439928496349319,82335420463278496,12559229425258980,122521113285588041); (8439928496349319,164670840926556992,14719543208978809,287191954212145033); (11579735852664064,451862795138702025,14719543208978809,574383908424290066); (5789867926332032,451862795138702025,8929675282646777,696905021709878107)]);
    (478, [(11579735852664064,90372559027740405,15699036781573725,122521113285588041); (5789867926332032,90372559027740405,15699036781573725,245042226571176082); (2894933963166016,90372559027740405,15699036781573725,490084453142352164); (1447466981583008,90372559027740405,15699036781573725,980168906284704328); (723733490791504,90372559027740405,7737968382867181,966239663264264201)]);
    (481, [(2894933963166016,18074511805548081,17701570681382289,110519705225842463); (1447466981583008,18074511805548081,17701570681382289,221039410451684926); (723733490791504,18074511805548081,17701570681382289,442078820903369852); (361866745395752,18074511805548081,17701570681382289,884157641806739704); (180933372697876,18074511805548081,9921435655373621,991111275974911925)]);
    (484, [(3618667453957520,18074511805548081,16254103699799281,81185959458454738); (1809333726978760,18074511805548081,16254103699799281,162371918916909476); (904666863489380,18074511805548081,17158770563288661,342818349639367033); (452333431744690,18074511805548081,17611103995033351,703711211084282147); (226166715872345,18074511805548081,12409269529969416,991708650640958431)]);
    (488, [(2261667158723450,18074511805548081,16706437131543971,133512437494637197); (1130833579361725,18074511805548081,17837270710905696,285099386794822475); (1130833579361725,36149023611096162,17965303990346648,574291575683591771); (1130833579361725,72298047222192324,14636819891981949,935781811794553391)]);
    (491, [(5654167896808625,36149023611096162,14572803252261473,93168900970060657); (5654167896808625,72298047222192324,15767653471343674,201615971803349143); (5654167896808625,144596094444384648,13537994632480462,346212066247733791); (5654167896808625,289192188888769296,12423165213048856,635404255136503087); (5654167896808625,578384377777538592,6211582606524428,635404255136503087)]);
    (494, [(17122545289727065,87576217085420153,2229658838863212,11403975471792899); (17122545289727065,175152434170840306,1114829419431606,11403975471792899); (17679959999442868,361708843813473511,557414709715803,11403975471792899); (13856712387163661,566980402305745693,14414127096879464,589788353249331491); (6649648838723929,544172451362159895,7207063548439732,589788353249331491)]);
    (498, [(13299297677447858,108834490272431979,16086371226026873,131642441216017777); (6649648838723929,108834490272431979,16086371226026873,263284882432035554); (6649648838723929,217668980544863958,11368010032375401,372119372704467533); (6649648838723929,435337961089727916,9008829435549665,589788353249331491)]);
    (501, [(14374799419013757,94108666817181098,4718361193651472,30890078431920715); (16733980015839493,219107412066282911,2359180596825736,30890078431920715); (17913570314252361,469104902564486537,1179590298412868,30890078431920715); (17913570314252361,938209805128973074,589795149206434,30890078431920715); (9361540650759068,980607335732245413,294897574603217,30890078431920715)]);
    (504, [(17612843368076857,92245945695053814,1179590298412868,6178015686384143); (17612843368076857,184491891390107628,589795149206434,6178015686384143); (17907740942680074,375161798466599399,294897574603217,6178015686384143); (17800797709436547,745842739649647979,294897574603217,12356031372768286); (11701925813448835,980607335732245413,294897574603217,24712062745536572)]);
    (508, [(16621207411023679,139283722831714967,1474487873016085,12356031372768286); (17894774880116392,299912130677702685,1474487873016085,24712062745536572); (17794314678154706,596456883624141549,1474487873016085,49424125491073144); (11846133085109523,794153385588434125,13320620958125608,893001636570580413)]);
    (511, [(16319826805138621,109406551626613681,7372439365080425,49424125491073144); (11846133085109523,158830677117686825,7372439365080425,98848250982146288); (11846133085109523,317661354235373650,9609286225094974,257678928099833113); (11846133085109523,635322708470747300,16650776197657010,893001636570580413); (3520744986281018,377643780370914187,8325388098828505,893001636570580413)]);
    (514, [(11846133085109523,63532270847074730,12508031870146301,67082115558608923); (11846133085109523,127064541694149460,12177082477627912,130614386405683653); (11846133085109523,254129083388298920,17934674323923479,384743469793982573); (11846133085109523,508258166776597840,14890403704516501,638872553182281493); (10323997775406034,885901947147512027,1522135309703489,130614386405683653)]);
    (518, [(11846133085109523,101651633355319568,15221353097034890,130614386405683653); (11846133085109523,203303266710639136,7610676548517445,130614386405683653); (11846133085109523,406606533421278272,9728404816813484,333917653116322789); (11846133085109523,813213066842556544,4864202408406742,333917653116322789)]);
    (521, [(13963861353405562,95859082745246751,17339081365330929,119029285185538019); (6981930676702781,95859082745246751,17339081365330929,238058570371076038); (6981930676702781,191718165490493502,12160506021016855,333917653116322789); (16553149025562599,909072149587803295,9571218348859818,525635818606816291); (6981930676702781,766872661961974008,4785609174429909,525635818606816291)]);
    (524, [(1803355332388707,9903735572932843,16876100059626835,92680809761165072); (16553149025562599,181814429917560659,14749793693173892,162006958771694973); (16553149025562599,363628859835121318,7374896846586946,162006958771694973); (16553149025562599,727257719670242636,3687448423293473,162006958771694973); (10120298724428036,889264678441937609,3687448423293473,324013917543389946)]);
    (528, [(9178252178975653,80648760425370538,9258989937491712,81358198346324435); (9178252178975653,161297520850741076,13807747147721509,242655719197065511); (11492999663348581,403953240047806587,13807747147721509,485311438394131022); (12650373405535045,889264678441937609,13807747147721509,970622876788262044)]);
    (531, [(15799543598030201,111063726001038621,2314747484372928,16271639669264887); (16956917340216665,238399091671342129,1157373742186464,16271639669264887); (17535604211309897,493069823011949145,578686871093232,16271639669264887); (17535604211309897,986139646023898290,289343435546616,16271639669264887); (8855301144911417,995980911891903360,144671717773308,16271639669264887)]);
    (534, [(17535604211309897,98613964602389829,2893434355466160,16271639669264887); (17535604211309897,197227929204779658,1446717177733080,16271639669264887); (17535604211309897,394455858409559316,723358588866540,16271639669264887); (17897283505743167,805183356488383519,361679294433270,16271639669264887); (11025376911511037,992044405544701332,180839647216635,16271639669264887)]);
    (538, [(17173924916876627,154528015429970749,1808396472166350,16271639669264887); (17173924916876627,309056030859941498,904198236083175,16271639669264887); (17176845701228476,618217184575974351,904198236083175,32543279338529774); (13109414031030113,943649977961272091,904198236083175,65086558677059548)]);
    (541, [(13560052756895776,97608813444371051,4520991180415875,32543279338529774); (15822008739279638,227781930798490147,4520991180415875,65086558677059548); (7911004369639819,227781930798490147,12431995550055694,357955048152609243); (7911004369639819,455563861596980294,14127002144667666,813518909749589537); (7911004369639819,911127723193960588,7063501072333833,813518909749589537)]);
    (544, [(16950065946119720,97608813444371051,1130977991191931,6512860781949609); (9606010964251791,110634535008270269,10736988955443722,123660256572169487); (9606010964251791,221269070016540538,14974505441973652,344929326588710025); (17093263685238617,787467466621791101,7487252720986826,344929326588710025); (9606010964251791,885076280066162152,3743626360493413,344929326588710025)]);
    (548, [(10593791216324825,97608813444371051,7487252720986826,68985865317742005); (14337417576818238,264203492206484107,3743626360493413,68985865317742005); (14655961509395945,540146953477452127,3743626360493413,137971730635484010); (12943420295438092,954062145383904157,3743626360493413,275943461270968020)]);
    (551, [(17125412139578530,126231761571000097,3743626360493413,27594346127096802); (16049958790776091,236609146079387305,3743626360493413,55188692254193604); (17384045296621578,512552607350355325,3743626360493413,110377384508387208); (16179275369297615,954062145383904157,3743626360493413,220754769016774416); (6217824504402101,733307376367129741,3743626360493413,441509538033548832)]);
    (554, [(17384045296621578,102510521470071065,1334086505845487,7866863038316143); (8692022648310789,102510521470071065,10026109154156276,118244247546703351); (13705077225388927,323265290486845481,5013054577078138,118244247546703351); (16211604513927996,764774828520394313,2506527288539069,118244247546703351); (8105802256963998,764774828520394313,2506527288539069,236488495093406702)]);
    (558, [(8692022648310789,82008417176056852,12532636442695345,118244247546703351); (8692022648310789,164016834352113704,10612329545503067,200252664722760203); (9652176096906928,364269499074873907,10612329545503067,400505329445520406); (4826088048453464,364269499074873907,10612329545503067,801010658891040812)]);
    (561, [(6771715751118511,51112401592586882,11572482994099206,87348231963233381); (12557957248168114,189573035148407145,5786241497049603,87348231963233381); (17851461618183263,538965963001340669,5786241497049603,174696463926466762); (6032610060566830,364269499074873907,11818851557616433,713662426927807431); (3016305030283415,364269499074873907,5786241497049603,698785855705867048)]);
    (564, [(6278978624084057,37914607029681429,16373250237079901,98867249867103904); (6278978624084057,75829214059362858,17605093054666036,212611070956148191); (15081525151417075,364269499074873907,8802546527333018,212611070956148191); (15081525151417075,728538998149747814,4401273263666509,212611070956148191); (9741399207541792,941150069105896005,4401273263666509,425222141912296382)]);
    (568, [(16959230511834623,163848956686210211,2523567903248961,24381057134968990); (9741399207541792,188230013821179201,12264967110790753,236992128091117181); (4870699603770896,188230013821179201,17135666714561649,662214270003413563); (2435349801885448,188230013821179201,12264967110790753,947968512364468724)]);
    (571, [(16782794309107597,129715476697253625,2523567903248961,19504845707975192); (12176749009427240,188230013821179201,14700316912676201,227239705237129585); (6088374504713620,188230013821179201,14700316912676201,454479410474259170); (3044187252356810,188230013821179201,14700316912676201,908958820948518340); (1522093626178405,188230013821179201,7089848781784176,876767572791140675)]);
    (574, [(15741555610891899,97334131726327367,14700316912676201,90895882094851834); (15220936261784050,188230013821179201,14700316912676201,181791764189703668); (7610468130892025,188230013821179201,14700316912676201,363583528379407336); (7610468130892025,376460027642358402,11155392521784113,551813542200586537); (7610468130892025,752920055284716804,9382930326338069,928273569842944939)]);
    (577, [(16782794309107597,83017905086242320,7089848781784176,35070702911645627); (16782794309107597,166035810172484640,3544924390892088,35070702911645627); (16782794309107597,332071620344969280,1772462195446044,35070702911645627); (17669025406830619,699213943601584187,886231097723022,35070702911645627); (12351638820492487,977579452263420850,443115548861511,35070702911645627)]);
    (581, [(16782794309107597,132828648137987712,4431155488615110,35070702911645627); (16782794309107597,265657296275975424,2215577744307555,35070702911645627); (16145919259630241,511152216657494813,2215577744307555,70141405823291254); (9180748501968898,581293622480786067,11396326246276453,721576434127368575)]);
    (584, [(11714763771015131,74173881002182461,11077888721537775,70141405823291254); (11714763771015131,148347762004364922,11396326246276453,144315286825473715); (11555545008645792,292663048829838637,11396326246276453,288630573650947430); (17174098750599349,869924196131733497,11396326246276453,577261147301894860); (2888886252161448,292663048829838637,8507439994115005,861859245773951083)]);
    (587, [(12192420058123148,61758589909080693,11396326246276453,57726114730189486); (17492536275338027,177210819369459665,11396326246276453,115452229460378972); (14444431260807240,292663048829838637,11396326246276453,230904458920757944); (7222215630403620,292663048829838637,11396326246276453,461808917841515888); (3611107815201810,292663048829838637,11396326246276453,923617835683031776)]);
    (591, [(17492536275338027,141768655495567732,1126005601342046,9125737838703173); (17492536275338027,283537310991135464,563002800671023,9125737838703173); (9027769538004525,292663048829838637,9590772338675548,310914524507244983); (13823155707342299,896240622166922257,4795386169337774,310914524507244983)]);
    (594, [(7901763936662479,51232019495005189,10716777940017594,69483495172411535); (13260152906671276,171947534162421913,5358388970008797,69483495172411535); (6630076453335638,171947534162421913,11988465423344435,310914524507244983); (15303503650012254,793776583176911879,11988465423344435,621829049014489966); (7651751825006127,793776583176911879,4336713598338308,449881514852068053)]);
    (597, [(17075215356651799,88567339955528071,5358388970008797,27793398068964614); (16575191133339095,171947534162421913,5358388970008797,55586796137929228); (10966790051673946,227534330300351141,16325179021682743,338707922576209597); (5483395025836973,227534330300351141,16325179021682743,677415845152419194); (5483395025836973,455068660600702282,10904287023759858,904950175452770335)]);
    (601, [(5608401081665149,46544295209797074,16200172965854567,134445739880756993); (16512688105425007,274078625510148215,10904287023759858,180990035090554067); (16512688105425007,548157251020296430,5452143511879929,180990035090554067); (10982415808652468,729147286110850497,5452143511879929,361980070181108134)]);
    (604, [(16512688105425007,109631450204059286,10748029453974638,71358584886494781); (16512688105425007,219262900408118572,5374014726987319,71358584886494781); (10943351416206163,290621485294613353,16317366143193482,433338655067602915); (10943351416206163,581242970589226706,8158683071596741,433338655067602915); (1392334172304711,147904315521623791,8158683071596741,866677310135205830)]);
    (607, [(5764658651450369,30618292254051604,16317366143193482,86667731013520583); (13923341723047110,147904315521623791,8158683071596741,86667731013520583); (15120353933120296,321239777548664957,8158683071596741,173335462027041166); (15718860038156889,667910701602747289,8158683071596741,346670924054082332); (3780088483280074,321239777548664957,8158683071596741,693341848108164664)]);
    (611, [(17451677261556578,148307981311826807,598506105036593,5086229301083475); (17703430206327184,300894860344331057,598506105036593,10172458602166950); (9450221208200185,321239777548664957,10048727313236778,341584694752998857); (14474584864818574,984064249850328771,5024363656618389,341584694752998857)]);
    (614, [(17924306894207868,121859588946192737,598506105036593,4068983440866780); (17939745022652829,243929092172196137,598506105036593,8137966881733560); (12261656089027676,333446727871265297,12860162194064269,349722661634732417); (6130828044513838,333446727871265297,12860162194064269,699445323269464834); (3065414022256919,333446727871265297,6729334149550431,731997190796399074)]);
    (617, [(17617334777467091,95818094924645345,598506105036593,3255186752693424); (17487005911764144,190218510752754641,598506105036593,6510373505386848); (15327070111284595,333446727871265297,15925576216321188,346467474882038993); (15327070111284595,666893455742530594,7962788108160594,346467474882038993); (11345676057204298,987319436603022195,3981394054080297,346467474882038993)]);
    (621, [(14130057901211409,122962093539887162,8561294213197187,74501793780717277); (11345676057204298,197463887320604439,8561294213197187,149003587561434554); (5672838028602149,197463887320604439,14234132241799336,495471062443473547); (5672838028602149,394927774641208878,12789904149501817,890398837084682425)]);
    (624, [(2784381844007111,19384119903667954,17226662766982301,119927407705932623); (15574285993508928,216848007224272393,12789904149501817,178079767416936485); (7787142996754464,216848007224272393,12789904149501817,356159534833872970); (16683475647879049,929167076892018333,12789904149501817,712319069667745940); (1946785749188616,216848007224272393,8896332651124585,990942124886947094)]);
    (627, [(13355906684768686,74384193290723205,12789904149501817,71231906966774594); (6677953342384343,74384193290723205,12789904149501817,142463813933549188); (9733928745943080,216848007224272393,12789904149501817,284927627867098376); (17656868522473357,786703262958469145,12789904149501817,569855255734196752); (2433482186485770,216848007224272393,10356421963016047,922862504244121111)]);
    (631, [(17656868522473357,157340652591693829,10978915180089014,97833297959115265); (17656868522473357,314681305183387658,5489457590044507,97833297959115265); (17656868522473357,629362610366775316,11573163056258932,412514603142502923); (11870286994343891,846210617591047709,5786581528129466,412514603142502923)]);
    (634, [(13950154560938604,99448049673334075,5489457590044507,39133319183646106); (17953992460558316,255981326407918499,5489457590044507,78266638367292212); (8976996230279158,255981326407918499,14466453820323665,412514603142502923); (4488498115139579,255981326407918499,14466453820323665,825029206285005846); (4488498115139579,511962652815836998,4988977852592043,569047879877087347)]);
    (637, [(3487538640234651,19889609934666815,16984672029518582,96864446930583979); (3487538640234651,39779219869333630,15467413295228593,176422886669251239); (12965014607966273,295760546277252129,9477475967731622,216202106538584869); (17703752591832084,807723199093089127,4738737983865811,216202106538584869); (8851876295916042,807723199093089127,4738737983865811,432404213077169738)]);
    (641, [(3487538640234651,31823375895466904,16718612638859753,152555354747651061); (13590614279781853,248025482434051773,10103075639547202,184378730643117965); (13590614279781853,496050964868103546,5051537819773601,184378730643117965); (9321076049777727,680429695511221511,5051537819773601,368757461286235930)]);
    (644, [(17437693201173255,127293503581867616,5051537819773601,36875746128623593); (16296153330247029,237920741967738395,5051537819773601,73751492257247186); (15725383394783916,459175218739479953,5051537819773601,147502984514494372); (7862691697391958,459175218739479953,12914229517165559,754181187768468697); (3931345848695979,459175218739479953,5051537819773601,590011938057977488)]);
    (647, [(16296153330247029,95168296787095358,4480767884310488,26167343863699507); (16296153330247029,190336593574190716,2240383942155244,26167343863699507); (17416345301324651,406840531012080939,1120191971077622,26167343863699507); (17976441286863462,839848405887861385,560095985538811,26167343863699507); (10108412614509353,944517781342659413,10668508600048164,996852469070058427)]);
    (651, [(17976441286863462,167969681177572277,2800479927694055,26167343863699507); (8988220643431731,167969681177572277,11788700571125786,220304368904971291); (14882570928994624,556243731260115845,5894350285562893,220304368904971291); (7441285464497312,556243731260115845,13335635750060205,996852469070058427)]);
    (654, [(14882570928994624,111248746252023169,14589180498819841,109055622652948122); (7441285464497312,111248746252023169,14589180498819841,218111245305896244); (3720642732248656,111248746252023169,14589180498819841,436222490611792488); (1860321366124328,111248746252023169,16449501864944169,983693727475608145); (930160683062164,111248746252023169,8078055717384693,966148738683007769)]);
    (657, [(11455318626920751,68503746630473939,7147895034322529,42744999621549230); (9301606830621640,111248746252023169,16449501864944169,196738745495121629); (4650803415310820,111248746252023169,16449501864944169,393477490990243258); (2325401707655410,111248746252023169,16449501864944169,786954981980486516); (1162700853827705,111248746252023169,9473296741977939,906417486448834018)]);
    (661, [(11627008538277050,111248746252023169,7147895034322529,68391999394478768); (5813504269138525,111248746252023169,12961399303461054,248032745040980705); (5813504269138525,222497492504046338,12294203920869052,470530237545027043); (5813504269138525,444994985008092676,11960606229573051,915525222553119719)]);
    (664, [(16106122042231571,123284394487654056,6480699651730527,49606549008196141); (11293410846981049,172890943495850197,17774110498711576,272104041512242479); (11293410846981049,345781886991700394,8887055249355788,272104041512242479); (15736938471658943,963667815495643267,4443527624677894,272104041512242479); (6849883222303155,838919464942316618,2221763812338947,272104041512242479)]);
    (667, [(2406355597625261,14735569095891583,17965364672901069,110012781457435066); (2406355597625261,29471138191783166,17404926928138948,213161765128676147); (13515174659319996,331046317895808811,11108819061694735,272104041512242479); (17866406391354733,875254400920293769,11108819061694735,544208083024484958); (3378793664829999,331046317895808811,7730025396864736,757369848153161105)]);
    (670, [(12031777988126305,58942276383566332,6296107866444213,30843897749021963); (9163942927285259,89786174132588295,15460050793729472,151473969630632221); (16893968324149995,331046317895808811,7730025396864736,151473969630632221); (16893968324149995,662092635791617622,3865012698432368,151473969630632221); (11096449276501443,869763362691338581,1932506349216184,151473969630632221)]);
    (674, [(9163942927285259,71828939306070636,10161120564876581,79645030324561585); (9163942927285259,143657878612141272,9662531746080920,151473969630632221); (13995208800325719,438789726854914765,4831265873040460,151473969630632221); (13995208800325719,877579453709829530,2415632936520230,151473969630632221)]);
    (677, [(13995208800325719,87757945370982953,10161120564876581,63716024259649268); (13995208800325719,175515890741965906,12078164682601150,151473969630632221); (13995208800325719,351031781483931812,6039082341300575,151473969630632221); (16056227912113722,805453690375828475,6039082341300575,302947939261264442); (8028113956056861,805453690375828475,6039082341300575,605895878522528884)]);
    (680, [(1917044117724569,9616768444533474,16776102882430892,84156590518897903); (16056227912113722,161090738075165695,14139183794389153,141857201186098747); (8028113956056861,161090738075165695,14139183794389153,283714402372197494); (8028113956056861,322181476150331390,11083648875223007,444805140447363189); (8028113956056861,644362952300662780,9555881415639934,766986616597694579)]);
    (684, [(8028113956056861,64436295230066278,15277674595830730,122623664297031799); (8028113956056861,128872590460132556,15666951253972226,251496254757164355); (8028113956056861,257745180920265112,15861589583042974,509241435677429467); (8028113956056861,515490361840530224,7930794791521487,509241435677429467)]);
    (687, [(16640142899325966,106847428065966499,7833475626986113,50299250951432871); (16153547076649096,207445929968832241,7833475626986113,100598501902865742); (8076773538324548,207445929968832241,15910249165310661,408642933774563725); (4038386769162274,207445929968832241,15910249165310661,817285867549127450); (2019193384581137,207445929968832241,7833475626986113,804788015222925936)]);
    (690, [(8563369361001418,43988756459006751,15910249165310661,81728586754912745); (4281684680500709,43988756459006751,15910249165310661,163457173509825490); (10095966922905685,207445929968832241,15910249165310661,326914347019650980); (13003108044108173,534360276988483221,15910249165310661,653828694039301960); (11549537483506929,949252136926147703,1453570560601244,119468417050818739)]);
    (694, [(17284792724608882,142063060564902045,15910249165310661,130765738807860392); (8642396362304441,142063060564902045,15910249165310661,261531477615720784); (12276322763807551,403594538180622829,15910249165310661,523062955231441568); (12276322763807551,807189076361245658,14093285964559106,926657493412064397)]);
    (697, [(8642396362304441,56825224225960818,9527235645211109,62643192824857921); (8642396362304441,113650448451921636,17727212366062216,233118865502740375); (17506002545335549,460419762406583647,8863606183031108,233118865502740375); (17506002545335549,920839524813167294,4431803091515554,233118865502740375); (8642396362304441,909203587615373088,2215901545757777,233118865502740375)]);
    (700, [(16621163262428881,87429577602199047,8863606183031108,46623773100548075); (16621163262428881,174859155204398094,4431803091515554,46623773100548075); (16621163262428881,349718310408796188,2215901545757777,46623773100548075); (16066237041366660,676084722112632713,2215901545757777,93247546201096150); (10249020066441107,862579814514825013,2215901545757777,186495092402192300)]);
    (704, [(16070040379857767,135248954146275043,2215901545757777,18649509240219230); (18006577145838880,303094537308248113,2215901545757777,37299018480438460); (17866894755950548,601486685151755793,2215901545757777,74598036960876920); (13365250469490828,899878832995263473,2215901545757777,149196073921753840)]);
    (707, [(16209722769746099,109139641209968121,2215901545757777,14919607392175384); (15860516795025269,213576892955195809,2215901545757777,29839214784350768); (17901815353422631,482129826014352721,2215901545757777,59678429568701536); (16706563086863535,899878832995263473,2215901545757777,119356859137403072); (7245330770552879,780521973857860401,2215901545757777,238713718274806144)]);
    (710, [(15685913807664854,84490279289130237,11079507728788885,59678429568701536); (7842956903832427,84490279289130237,11079507728788885,119356859137403072); (9461232316310656,203847138426533309,11079507728788885,238713718274806144); (4730616158155328,203847138426533309,15810123886944213,681274574976145597); (2365308079077664,203847138426533309,11079507728788885,954854873099224576)]);
    (714, [(17179979140863724,148060610669296773,1618275412478229,13946631939309134); (11826540395388320,203847138426533309,13444815807866549,231740402305151577); (5913270197694160,203847138426533309,13444815807866549,463480804610303154); (2956635098847080,203847138426533309,13444815807866549,926961609220606308)]);
    (717, [(14503259768126022,99993671953025371,7531545610172389,51926733236753969); (14783175494235400,203847138426533309,7531545610172389,103853466473507938); (7391587747117700,203847138426533309,14923133357290089,411554071373549185); (3695793873558850,203847138426533309,14923133357290089,823108142747098370); (1847896936779425,203847138426533309,7531545610172389,830827731788063504)]);
    (720, [(7111672021008322,39225509877113635,14923133357290089,82310814274709837); (3555836010504161,39225509877113635,14923133357290089,164621628549419674); (9239484683897125,203847138426533309,14923133357290089,329243257098839348); (12081309020593607,533090395525372657,14923133357290089,658486514197678696); (10660396852245366,940784672378439275,1420912168348241,125396118672306039)]);
    (724, [(3555836010504161,31380407901690908,17764957693986571,156776526573996947); (10660396852245366,188156934475687855,17764957693986571,313553053147993894); (5330198426122683,188156934475687855,17764957693986571,627106106295987788); (5330198426122683,376313868951375710,11547578060054627,815263040771675643)]);
    (727, [(5330198426122683,37631386895137571,14202010504215293,100266689764061794); (5330198426122683,75262773790275142,15096302891291671,213160850449474507); (5330198426122683,150525547580550284,15543449084829860,438949171820299933); (5330198426122683,301051095161100568,13101922968537613,740000266981400501); (5330198426122683,602102190322201136,3885862271207465,438949171820299933)]);
    (730, [(16884887665444427,95366316916870538,4883052232584494,27579615331839873); (16884887665444427,190732633833741076,2441526116292247,27579615331839873); (14546259123452831,328630710492940441,16987785239745078,383789941156620187); (14546259123452831,657261420985880882,8493892619872539,383789941156620187); (3026183251790146,273471479829260695,8493892619872539,767579882313240374)]);
    (734, [(6052366503580292,54694295965852139,12207630581461235,110318461327359492); (3026183251790146,54694295965852139,15233813833251381,275331218620571123); (1513091625895073,54694295965852139,16746905459146454,605356733206994385); (1513091625895073,109388591931704278,12912727607258446,933522509002107219)]);
    (737, [(7565458129475365,54694295965852139,16746905459146454,121071346641398877); (7565458129475365,109388591931704278,15938910859048592,230459938573103155); (15534913558999661,449237122436511711,7969455429524296,230459938573103155); (15534913558999661,898474244873023422,3984727714762148,230459938573103155); (7565458129475365,875108735453634224,1992363857381074,230459938573103155)]);
    (740, [(13918924358803937,80501220719546663,7969455429524296,46091987714620631); (17903652073566085,207094429153713957,3984727714762148,46091987714620631); (17903652073566085,414188858307427914,1992363857381074,46091987714620631); (17903652073566085,828377716614855828,996181928690537,46091987714620631); (10446098929818848,966653679758717721,996181928690537,92183975429241262)]);
    (744, [(14915106287494474,138020350694198787,4980909643452685,46091987714620631); (17419372430652607,322388301552681311,4980909643452685,92183975429241262); (16181050680505331,598940227840405097,4980909643452685,184367950858482524); (5600070518526323,414572276981922573,10580980161979008,783308178698887621)]);
    (747, [(1238321750147276,9167275052991505,17474617716379769,129364300540533494); (619160875073638,9167275052991505,17474617716379769,258728601081066988); (309580437536819,9167275052991505,17784198153916588,526624477215125481); (13535805640010579,801642728804870631,13226225202473760,783308178698887621); (6922693038773699,819977278910853641,6613112601236880,783308178698887621)]);
    (750, [(309580437536819,1833455010598301,17717490136114570,104929824777516251); (309580437536819,3666910021196602,17836577756625036,211270215392217709); (309580437536819,7333820042393204,17896121566880269,423950996621620625); (16842361940629019,797975818783674029,16532781503092200,783308178698887621); (8575971189082919,812643458868460437,8266390751546100,783308178698887621)]);
    (754, [(17461522815702657,165462219790649369,15913620628018562,150794579705862961); (17461522815702657,330924439581298738,7956810314009281,150794579705862961); (12709166564855969,481719019287161699,7956810314009281,301589159411725922); (12709166564855969,963438038574323398,10332988439432625,783308178698887621)]);
    (757, [(17352873127908254,131546140060919719,3204454063162593,24291859907258029); (15085344690279313,228713579689951835,3204454063162593,48583719814516058); (15085344690279313,457427159379903670,9144899376720953,277297299504467893); (12115122033500133,734724458884371563,9144899376720953,554594599008935786); (1485111328389590,180129859875435777,7659788048331363,929059338142435795)]);
    (760, [(15085344690279313,91485431875980734,15553807503046139,94326435752506425); (15085344690279313,182970863751961468,15319576096662726,185811867628487159); (15085344690279313,365941727503922936,7659788048331363,185811867628487159); (11372566369305338,551753595132410095,7659788048331363,371623735256974318); (5686283184652669,551753595132410095,7659788048331363,743247470513948636)]);
    (764, [(11372566369305338,110350719026482019,15553807503046139,150922297204010280); (5686283184652669,110350719026482019,15553807503046139,301844594408020560); (5686283184652669,220701438052964038,16306328528502073,632896751487466617); (5686283184652669,441402876105928076,10996305856577371,853598189540430655)]);
    (767, [(6438804210108603,49981800144877907,15553807503046139,120737837763208224); (17435110066685974,270683238197841945,10996305856577371,170719637908086131); (8717555033342987,270683238197841945,10996305856577371,341439275816172262); (8717555033342987,541366476395683890,9856930444960179,612122514014014207); (7578179621725795,941220877554707146,569687705808596,70756037618330317)]);
    (770, [(8717555033342987,54136647639568389,11393754116171920,70756037618330317); (8717555033342987,108273295279136778,14414432091428947,179029332897467095); (8717555033342987,216546590558273556,11565993562385967,287302628176603873); (8717555033342987,433093181116547112,10141774297864477,503849218734877429); (9429664665603732,936942399851424541,712109632260745,70756037618330317)]);
    (773, [(14586671537642994,72467428699643359,14414432091428947,71611733158986838); (7293335768821497,72467428699643359,14414432091428947,143223466317973676); (7293335768821497,144934857399286718,10853883930125222,215690895017617035); (12720277733884108,505560609816190471,5426941965062611,215690895017617035); (11787080832004665,936942399851424541,5426941965062611,431381790035234070)]);
    (777, [(14758910983857041,117316998784479808,5426941965062611,43138179003523407); (15519868439522437,246731535795050029,5426941965062611,86276358007046814); (15900347167355135,505560609816190471,5426941965062611,172552716014093628); (10663644566208873,678113325830284099,5426941965062611,345105432028187256)]);
    (780, [(5046463237229913,32091035557600643,17041783350853229,108370644898892342); (16090586531271484,204643751571694271,11044123294041571,140461680456492985); (8045293265635742,204643751571694271,11044123294041571,280923360912985970); (4022646632817871,204643751571694271,15066769926859442,766490473397666211); (4022646632817871,409287503143388542,7533384963429721,766490473397666211)]);
    (783, [(7094096446053997,36089735023902689,11044123294041571,56184672182597194); (9069109870047784,92274407206499883,11044123294041571,112369344365194388); (4534554935023892,92274407206499883,15578678229065463,317013095936888659); (2267277467511946,92274407206499883,17845955696577409,726300599080277201); (1133638733755973,92274407206499883,12177762027797544,991229162128054987)]);
    (787, [(11336387337559730,92274407206499883,13311400761553517,108350356933455487); (5668193668779865,92274407206499883,13311400761553517,216700713866910974); (9489797215166691,308975121073410857,13311400761553517,433401427733821948); (9489797215166691,617950242146821714,11400598988360104,742376548807232805)]);
    (790, [(1846590122393039,12024501550517735,17261427609541091,112401805109893356); (13247189110753143,172524312862482031,11400598988360104,148475309761446561); (13247189110753143,345048625724964062,5700299494180052,148475309761446561); (16097338857843169,838572561211374685,2850149747090026,148475309761446561); (8971964490118104,934768573615516565,1425074873545013,148475309761446561)]);
    (793, [(1846590122393039,9619601240414188,17421956736542026,90757702318961433); (16097338857843169,167714512242274937,14250748735450130,148475309761446561); (16097338857843169,335429024484549874,7125374367725065,148475309761446561); (11611356612784117,483904334245996435,7125374367725065,296950619522893122); (9368365490254591,780854953768889557,7125374367725065,593901239045786244)]);
    (797, [(11611356612784117,96780866849199287,12404158613057091,103388885824494548); (11611356612784117,193561733698398574,12007757612920604,200169752673693835); (17615235419244419,587293220070490983,6003878806460302,200169752673693835); (14613296016014268,974416687467288131,3001939403230151,200169752673693835)]);
    (800, [(16029631418698471,106885813653625779,6003878806460302,40033950534738767); (16029631418698471,213771627307251558,3001939403230151,40033950534738767); (15519664217424613,413941379980945393,3001939403230151,80067901069477534); (15264680616787684,814280885328333063,3001939403230151,160135802138955068); (7632340308393842,814280885328333063,3001939403230151,320271604277910136)]);
    (803, [(9515785410964311,50761115568398065,15009697016150755,80067901069477534); (12262741213557533,130829016637875599,15009697016150755,160135802138955068); (12262741213557533,261658033275751198,13636219114854144,290964818776830667); (12262741213557533,523316066551502396,6818109557427072,290964818776830667); (8853686434843997,755667314326174125,3409054778713536,290964818776830667)]);
    (807, [(17707372869687994,151133462865234825,8191587458723683,69915677955797921); (8853686434843997,151133462865234825,17045273893567680,290964818776830667); (17376323381627837,593231744507300317,8522636946783840,290964818776830667); (13115004908235917,895498670237769967,4261318473391920,290964818776830667)]);
    (810, [(8853686434843997,60453385146093930,16052125429387209,109604663338548877); (8853686434843997,120906770292187860,12452905932115603,170058048484642807); (8853686434843997,241813540584375720,10653296183479800,290964818776830667); (14180334526583897,774591899945582107,5326648091739900,290964818776830667); (8853686434843997,967254162337502880,2663324045869950,290964818776830667)]);
    (813, [(8853686434843997,48362708116875144,17851735178023012,97513986309330091); (8853686434843997,96725416233750288,17779554023855503,194239402543080379); (8853686434843997,193450832467500576,13316620229349750,290964818776830667); (15511996549518872,677866483711831819,6658310114674875,290964818776830667); (7755998274759436,677866483711831819,6658310114674875,581929637553661334)]);
    (817, [(2195376320169122,19187369231634097,17923916332190521,156653234155391988); (1097688160084561,19187369231634097,17923916332190521,313306468310783976); (17194619366729468,601117006785295431,16096931206644907,562742268322027237); (8597309683364734,601117006785295431,7499621523280173,524367529858759043)]);
    (820, [(5488440800422805,38374738463268194,12803866726391224,89523610586444531); (11890374163618417,166273087512980919,6401933363195612,89523610586444531); (15091340845216223,422069785612406369,3200966681597806,89523610586444531); (16691824186015126,933663181811257269,1600483340798903,89523610586444531); (8345912093007563,933663181811257269,1600483340798903,179047221172889062)]);
    (823, [(2287474118824999,12795068653325649,16004833407989030,89523610586444531); (10289890822819514,115113747893095829,8002416703994515,89523610586444531); (5144945411409757,115113747893095829,13147362115404272,294160969065984891); (11718626469111893,524388464852176549,6573681057702136,294160969065984891); (8431785940260825,754615960638368207,3286840528851068,294160969065984891)]);
    (827, [(3716209765117378,33258804501279685,14576097761696651,130451082282352603); (1858104882558689,33258804501279685,16434202644255340,294160969065984891); (10075206204686359,360678578068544261,8217101322127670,294160969065984891); (10075206204686359,721357156137088522,4108550661063835,294160969065984891)]);
    (830, [(1858104882558689,13303521800511874,16930143137375393,121215185659330529); (1858104882558689,26607043601023748,16826543540201797,240946881863937395); (11200429093938932,320768012667008639,9342324211380243,267553925464961143); (5600214546969466,320768012667008639,14942538758349709,855875863596930925); (2800107273484733,320768012667008639,6542216937895510,749447689192835933)]);
    (833, [(13058533976497621,74796419973811227,16826543540201797,96378752745574958); (13058533976497621,149592839947622454,14942538758349709,171175172719386185); (14000536367423665,320768012667008639,14942538758349709,342350345438772370); (14000536367423665,641536025334017278,14471537562886687,663118358105781009); (10703527999182511,980919391863342322,235500597731511,21582332771763731)]);
    (837, [(12587532781034599,115357805403745217,14942538758349709,136940138175508948); (13765035769692154,252297943579254165,14942538758349709,273880276351017896); (6882517884846077,252297943579254165,14942538758349709,547760552702035792); (6882517884846077,504595887158508330,10912528321597893,800058496281289957)]);
    (840, [(6882517884846077,50459588715850833,12770032828133852,93624254259378295); (6882517884846077,100919177431701666,13267534298913003,194543431691079961); (6882517884846077,201838354863403332,16957543976725617,497300963986184959); (6882517884846077,403676709726806664,11920030930785847,699139318849588291); (6882517884846077,807353419453613328,2518756522969885,295462609122781627)]);
    (843, [(15257540182029607,89489249752149378,3192508207033463,18724850851875659); (15610040608598461,183113504011527673,3192508207033463,37449701703751318); (15610040608598461,366227008023055346,9401274407815962,220563205715278991); (15610040608598461,732454016046110692,4700637203907981,220563205715278991); (10155338906253221,953017221761389683,4700637203907981,441126411430557982)]);
    (847, [(6208766200782499,58265520923110542,17294419818757406,162297684792168449); (14855976110161202,278828726638389533,8647209909378703,162297684792168449); (7427988055080601,278828726638389533,16075197964459304,603424096222726431); (7427988055080601,557657453276779066,8037598982229652,603424096222726431)]);
    (850, [(17632390606633373,132375469211357965,1219221854298102,9153328589189473); (17632390606633373,264750938422715930,609610927149051,9153328589189473); (17655553746977926,530197467509210647,609610927149051,18306657178378946); (9437387800638014,566810781865968539,10046998727787065,603424096222726431); (4718693900319007,566810781865968539,5328304827468058,640037410579484323)]);
    (853, [(16436331892679824,98716830630490551,3048054635745255,18306657178378946); (8218165946339912,98716830630490551,11266220582085167,135330144987248443); (4109082973169956,98716830630490551,15375303555255123,369377120604987437); (2054541486584978,98716830630490551,17429845041840101,837471071840465425); (1027270743292489,98716830630490551,10238949838792678,983924329267496993)]);
    (857, [(10272707432924890,98716830630490551,17429845041840101,167494214368093085); (5136353716462445,98716830630490551,17429845041840101,334988428736186170); (11283099379151273,433705259366676721,17429845041840101,669976857472372340); (11283099379151273,867410518733353442,3073372831344414,236271598105695619)]);
    (860, [(4125961770236062,31719144883253317,17429845041840101,133995371494474468); (2062980885118031,31719144883253317,17429845041840101,267990742988948936); (9746412963479066,299709887872202253,17429845041840101,535981485977897872); (4873206481739533,299709887872202253,12556638560100568,772253084083593491); (4873206481739533,599419775744404506,6278319280050284,772253084083593491)]);
    (863, [(15935355618833159,98004951434344431,5620451193243004,34566661667837797); (15935355618833159,196009902868688862,2810225596621502,34566661667837797); (17340468417143910,426586467405215521,1405112798310751,34566661667837797); (12885572603504208,633986437412242303,14290685401814959,703119760747917897); (6442786301752104,633986437412242303,7847899100062855,772253084083593491)]);
    (866, [(13125130022211657,64577296480340426,7025563991553755,34566661667837797); (10075347006882706,99143958148178223,17100910998436461,168277281483853817); (5037673503441353,99143958148178223,17100910998436461,336554562967707634); (16106965754380260,633986437412242303,11069292250938907,435698521115885857); (8053482877190130,633986437412242303,11069292250938907,871397042231771714)]);
    (870, [(17236805564757157,135691614659279702,993945244056201,7824537704634593); (13091156380631483,206112454000991039,14085101624687684,221761529410260225); (13091156380631483,412224908001982078,7042550812343842,221761529410260225); (13091156380631483,824449816003964156,3521275406171921,221761529410260225)]);
    (873, [(16157926216750521,101758766827617763,7042550812343842,44352305882052045); (16157926216750521,203517533655235526,3521275406171921,44352305882052045); (16882151623805063,425279063065495751,3521275406171921,88704611764104090); (17244264327332334,868802121886016201,3521275406171921,177409223528208180); (8622132163666167,868802121886016201,3521275406171921,354818447056416360)]);
    (876, [(17506525401758816,88201538361900209,3521275406171921,17740922352820818); (15795813513223250,159165227773183481,3521275406171921,35481844705641636); (14940457568955467,301092606595750025,3521275406171921,70963689411283272); (16273417299907536,655911053652166385,3521275406171921,141927378822566544); (11657984056125689,939765811297299473,3521275406171921,283854757645133088)]);
    (880, [(16273417299907536,131182210730433277,17606377030859605,141927378822566544); (8136708649953768,131182210730433277,17606377030859605,283854757645133088); (4068354324976884,131182210730433277,17606377030859605,567709515290266176); (2034177162488442,131182210730433277,13538022705882721,873054609119665798)]);
    (883, [(14940457568955467,96349634110640008,5401314055928953,34832576619793269); (10170885812442210,131182210730433277,15572199868371163,200847363970019815); (5085442906221105,131182210730433277,15572199868371163,401694727940039630); (15414264293517239,795241360131339461,10328821387296134,532876938670472907); (5085442906221105,524728842921733108,5164410693648067,532876938670472907)]);
    (886, [(9855014662734362,50843265142425351,15572199868371163,80338945588007926); (4927507331367181,50843265142425351,15572199868371163,160677891176015852); (10249853599869172,211521156318441203,15572199868371163,321355782352031704); (5124926799934586,211521156318441203,15572199868371163,642711564704063408); (2562463399967293,211521156318441203,10447273068436577,862380816771244410)]);
    (890, [(15177360931236353,125283074641316762,10447273068436577,86238081677124441); (12812316999836465,211521156318441203,10447273068436577,172476163354248882); (12812316999836465,423042312636882406,11629795034136521,383997319672690085); (12812316999836465,846084625273764812,12221056016986493,807039632309572491)]);
    (893, [(17542404862636241,115844456898730338,11629795034136521,76799463934538017); (14586099948386381,192643920833268355,11629795034136521,153598927869076034); (13107947491261451,346242848702344389,11629795034136521,307197855738152068); (12368871262698986,653440704440496457,11629795034136521,614395711476304136); (6184435631349493,653440704440496457,5445359402787028,575350718512111815)]);
    (896, [(14586099948386381,77057568333307342,7195337662761731,38012575369115021); (14586099948386381,154115136666614684,10890718805574056,115070143702422363); (14586099948386381,308230273333229368,5445359402787028,115070143702422363); (17308779649779895,731530690368881099,2722679701393514,115070143702422363); (10502080396296110,887710662225650383,1361339850696757,115070143702422363)]);
    (900, [(9140740545599353,77264051852322802,13613398506967570,115070143702422363); (15947439799083138,269598247407067967,6806699253483785,115070143702422363); (14780419153025354,499738534811912693,6806699253483785,230140287404844726); (7390209576512677,499738534811912693,14196908829996462,960019109621602145)]);
    (903, [(17114460445140922,115730890963271835,5639678607426001,38136465480524297); (8557230222570461,115730890963271835,14196908829996462,192003821924320429); (15655684637568692,423465603850864099,7098454414998231,192003821924320429); (14926296733782577,807473247699504957,7098454414998231,384007643848640858); (3913921159392173,423465603850864099,7098454414998231,768015287697281716)]);
    (906, [(8557230222570461,46292356385308734,9820581407279772,53126752768394227); (8557230222570461,92584712770617468,13467520926210347,145711465539011695); (11012375574390404,238296178309629163,13467520926210347,291422931078023390); (5506187787195202,238296178309629163,13467520926210347,582845862156046780); (2753093893597601,238296178309629163,10714427032612746,927395546002464397)]);
    (910, [(14063418009765663,121727005878419807,13467520926210347,116569172431209356); (13765469467988005,238296178309629163,13467520926210347,233138344862418712); (13765469467988005,476592356619258326,13616495197099176,471434523172047875); (13765469467988005,953184713238516652,6808247598549588,471434523172047875)]);
    (913, [(14361366551543321,99444738081620026,13616495197099176,94286904634409575); (14361366551543321,198889476163240052,6808247598549588,94286904634409575); (17765490350818115,492065856960889679,3404123799274794,94286904634409575); (17765490350818115,984131713921779358,1702061899637397,94286904634409575); (8031714225590359,889844809287369783,1702061899637397,188573809268819150)]);
    (916, [(17340851969319901,96060857496369464,3404123799274794,18857380926881915); (17340851969319901,192121714992738928,1702061899637397,18857380926881915); (16329704533028237,361838143334676163,1702061899637397,37714761853763830); (17526192714519802,776700523726078293,1702061899637397,75429523707527660); (10465158256897298,927559571141133613,1702061899637397,150859047415055320)]);
    (920, [(17846425687465733,158178429324351481,1702061899637397,15085904741505532); (16582491392101153,293951571997901269,1702061899637397,30171809483011064); (17652586144056260,625841476311022973,1702061899637397,60343618966022128); (13932478770940321,987903190107155741,1702061899637397,120687237932044256)]);
    (923, [(15950524244418863,113099571469000169,8510309498186985,60343618966022128); (12230416871302924,173443190435022297,8510309498186985,120687237932044256); (14625517933838447,414817666299110809,8510309498186985,241374475864088512); (11567913716012716,656192142163199321,8510309498186985,482748951728177024); (5783956858006358,656192142163199321,8510309498186985,965497903456354048)]);
    (926, [(16205435803044172,91925647920142839,2395101062535523,13586257085813243); (17683122151664178,200615704606648783,2395101062535523,27172514171626486); (8841561075832089,200615704606648783,11236662138367612,254960732949901755); (14459892145015895,656192142163199321,5618331069183806,254960732949901755); (8841561075832089,802462818426595132,2809165534591903,254960732949901755)]);
    (930, [(16116150033241415,146270676263395811,5618331069183806,50992146589980351); (16116150033241415,292541352526791622,2809165534591903,50992146589980351); (17890154387692368,649486378656654079,2809165534591903,101984293179960702); (11754242728438087,853454965016575483,2809165534591903,203968586359921404)]);
    (933, [(12271823318508562,89103558459346535,14045827672959515,101984293179960702); (6135911659254281,89103558459346535,14045827672959515,203968586359921404); (10090869666106898,293072144819267939,14045827672959515,407937172719842808); (5045434833053449,293072144819267939,14045827672959515,815874345439685616); (5045434833053449,586144289638535878,4500196419953033,522802200620417677)]);
    (936, [(6135911659254281,35641423383738614,13638878375008804,79223604516836255); (6135911659254281,71282846767477228,12955350846758683,150506451284313483); (15681542912260763,364354991586745167,9545631253006482,221789298051790711); (15681542912260763,728709983173490334,4772815626503241,221789298051790711); (10227179269382002,950499281225281045,4772815626503241,443578596103581422)]);
    (940, [(17044638945011803,158410414438321707,3409719593752201,31689441806734502); (10227179269382002,190099856245056209,13636898863134203,253478739858525213); (5113589634691001,190099856245056209,13636898863134203,506957479717050426); (5113589634691001,380199712490112418,9375244248912602,697057335962106635)]);
    (943, [(6817459675629801,50688389052634882,11933028822195403,88723078139786445); (16192703924542403,240788245297691091,9375244248912602,139411467192421327); (16192703924542403,481576490595382182,4687622124456301,139411467192421327); (15127785148955653,899810892172646163,4687622124456301,278822934384842654); (5220081512249676,620987957787803509,4687622124456301,557645868769685308)]);
    (946, [(11505081800086102,68433004680592171,11933028822195403,70978462511829156); (5752540900043051,68433004680592171,17685569722238454,210389929704250483); (5752540900043051,136866009361184342,14595325761162278,347255939065434825); (13050203780624190,620987957787803509,7297662880581139,347255939065434825); (6525101890312095,620987957787803509,7297662880581139,694511878130869650)]);
    (950, [(14167378739052977,134829643096194754,7297662880581139,69451187813086965); (10732520809817058,204280830909281719,7297662880581139,138902375626173930); (12663923285489668,482085582161629579,7297662880581139,277804751252347860); (6331961642744834,482085582161629579,7297662880581139,555609502504695720)]);
    (953, [(12235976263380367,93158930408342575,7297662880581139,55560950250469572); (17064482452561892,259841781159751291,7297662880581139,111121900500939144); (15829904106862085,482085582161629579,7297662880581139,222243801001878288); (11563783493721612,704329383163507867,7297662880581139,444487602003756576); (5781891746860806,704329383163507867,7297662880581139,888975204007513152)]);
    (956, [(12235976263380367,74527144326674060,6063084534881332,36929164168801057); (15267518530821033,185983452822149177,3031542267440666,36929164168801057); (16783289664541366,408896069813099411,1515771133720333,36929164168801057); (14454729367152015,704329383163507867,15970500500872348,778187711501109981); (6469479116715841,630471054825905753,7985250250436174,778187711501109981)]);
    (959, [(12235976263380367,59621715461339248,7578855668601665,36929164168801057); (9907415965991016,96550879630140305,17486271634592681,170409207967742419); (4953707982995508,96550879630140305,17486271634592681,340818415935484838); (2476853991497754,96550879630140305,17486271634592681,681636831870969676); (1238426995748877,96550879630140305,12532563651597173,977070145221378132)]);
    (963, [(2476853991497754,19310175926028061,15602592419528539,121641730016155907); (1238426995748877,19310175926028061,16841019415277416,262593635958339875); (1238426995748877,38620351852056122,17089498677880847,532936098922732729); (1238426995748877,77240703704112244,15356097815559247,957759969295350071); (1238426995748877,154481407408224488,7058835409905185,880519265591237827)]);
    (966, [(6192134978744385,38620351852056122,14612644686383093,91139079043724097); (6192134978744385,77240703704112244,16594524811308124,207000134599892463); (14489397384398447,361481542008116951,8297262405654062,207000134599892463); (14489397384398447,722963084016233902,4148631202827031,207000134599892463); (5170383090785708,515962949416341439,9319014293612739,929963218616126365)]);
    (969, [(16224782905354186,80955189339889323,2105127426909677,10503745438333595); (16532901160315801,164985152846558083,2105127426909677,21007490876667190); (16532901160315801,329970305693116166,9319014293612739,185992643723225273); (12925957726964270,515962949416341439,9319014293612739,371985287446450546); (6462978863482135,515962949416341439,9319014293612739,743970574892901092)]) ].
