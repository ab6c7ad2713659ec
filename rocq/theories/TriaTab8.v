(** Points and weights of lib/lf/quad/quad_rules_tria.cc, rules 49 to 50: for every
    column (points(0, i), points(1, i), weights(i)) times 10^25.  The decimal literals
    are taken exactly as written; their rounding to double is not modelled. *)
From Coq Require Import List ZArith.
Import ListNotations.
Local Open Scope Z_scope.

(** quad_rules_tria.cc:21966-23278 *)
Definition tab_49 : list (Z * Z * Z) := [
  (1747098543071730902800000, 400081550569362995320000, 7589746913754114986800);
  (7852819906358906587600000, 1747098543071730902800000, 7589746913754114986800);
  (400081550569363342260000, 7852819906358907697800000, 7589746913754114986800);
  (7852819906358906587600000, 400081550569362995320000, 7589746913754114986800);
  (1747098543071731735500000, 7852819906358906587600000, 7589746913754114986800);
  (400081550569360983040000, 1747098543071733678400000, 7589746913754114986800);
  (3869650571638261760100000, 86624172314518459170000, 4820181544435112215600);
  (6043725256047220995000000, 3869650571638262315200000, 4820181544435112215600);
  (86624172314517799975000, 6043725256047222105200000, 4820181544435112215600);
  (6043725256047219884800000, 86624172314518459170000, 4820181544435112215600);
  (3869650571638262315200000, 6043725256047220995000000, 4820181544435112215600);
  (86624172314517244864000, 3869650571638264535700000, 4820181544435112215600);
  (1260609334354053923100000, 13011091483538530199000, 1406751832660999587800);
  (8726379574162407282100000, 1260609334354053923100000, 1406751832660999587800);
  (13011091483540182523000, 8726379574162408392400000, 1406751832660999587800);
  (8726379574162407282100000, 13011091483538530199000, 1406751832660999587800);
  (1260609334354054755800000, 8726379574162408392400000, 1406751832660999587800);
  (13011091483536157964000, 1260609334354057253800000, 1406751832660999587800);
  (1783730162296315313600000, 1783730162296317534000000, 16149388372262440689000);
  (6432539675407367152400000, 1783730162296315868700000, 16149388372262440689000);
  (1783730162296318644300000, 6432539675407367152400000, 16149388372262440689000);
  (2839249520005004967500000, 2456285053783458516300000, 23431106687325608910000);
  (4704465426211536516200000, 2839249520005006077700000, 23431106687325608910000);
  (2456285053783457961200000, 4704465426211538181500000, 23431106687325608910000);
  (4704465426211537071300000, 2456285053783458516300000, 23431106687325608910000);
  (2839249520005004412400000, 4704465426211538181500000, 23431106687325608910000);
  (2456285053783457128500000, 2839249520005006632900000, 23431106687325608910000);
  (3302482693344622743900000, 2507416361736092835800000, 22589494991916104702000);
  (4190100944919283865200000, 3302482693344624409300000, 22589494991916104702000);
  (2507416361736092280700000, 4190100944919285530500000, 22589494991916104702000);
  (4190100944919284975400000, 2507416361736092835800000, 22589494991916104702000);
  (3302482693344622743900000, 4190100944919285530500000, 22589494991916104702000);
  (2507416361736091170400000, 3302482693344624964400000, 22589494991916104702000);
  (728406536060113435350000, 728406536060116349680000, 7895458930091910120300);
  (8543186927879770076200000, 728406536060113435350000, 7895458930091910120300);
  (728406536060116627240000, 8543186927879771186400000, 7895458930091910120300);
  (2560459410681578118500000, 15097374938804343069000, 2132067406496095595600);
  (7424443214379616851100000, 2560459410681578118500000, 2132067406496095595600);
  (15097374938804475342000, 7424443214379620181700000, 2132067406496095595600);
  (7424443214379617961300000, 15097374938804343069000, 2132067406496095595600);
  (2560459410681577563400000, 7424443214379620181700000, 2132067406496095595600);
  (15097374938801977340000, 2560459410681580894000000, 2132067406496095595600);
  (2603953161344761957400000, 1089833802129251960600000, 16234183150526104722000);
  (6306213036525984971800000, 2603953161344762512500000, 16234183150526104722000);
  (1089833802129251960600000, 6306213036525987192200000, 16234183150526104722000);
  (6306213036525986082000000, 1089833802129251960600000, 16234183150526104722000);
  (2603953161344762512500000, 6306213036525986082000000, 16234183150526104722000);
  (1089833802129250572800000, 2603953161344764732900000, 16234183150526104722000);
  (4289883556394070152100000, 1420232887211859973400000, 19654527394101198486000);
  (4289883556394070152100000, 4289883556394070707200000, 19654527394101198486000);
  (1420232887211859140700000, 4289883556394071817400000, 19654527394101198486000);
  (1707126963793420271200000, 1019687169087761247100000, 13556749468707231764000);
  (7273185867118818759300000, 1707126963793420548800000, 13556749468707231764000);
  (1019687169087761247100000, 7273185867118820979700000, 13556749468707231764000);
  (7273185867118818759300000, 1019687169087761247100000, 13556749468707231764000);
  (1707126963793419438500000, 7273185867118820979700000, 13556749468707231764000);
  (1019687169087759581700000, 1707126963793422769200000, 13556749468707231764000);
  (3746440580951249099700000, 197722885748598982410000, 8163791134712301313100);
  (6055836533300152924000000, 3746440580951249654800000, 8163791134712301313100);
  (197722885748598531390000, 6055836533300155144500000, 8163791134712301313100);
  (6055836533300151813800000, 197722885748598982410000, 8163791134712301313100);
  (3746440580951250209900000, 6055836533300151813800000, 8163791134712301313100);
  (197722885748597976270000, 3746440580951251320100000, 8163791134712301313100);
  (4351684572939830686300000, 13541852880936801427000, 2395150880895178711000);
  (5634773574179232635800000, 4351684572939831796600000, 2395150880895178711000);
  (13541852880936122716000, 5634773574179234856300000, 2395150880895178711000);
  (5634773574179232635800000, 13541852880936801427000, 2395150880895178711000);
  (4351684572939831241500000, 5634773574179232635800000, 2395150880895178711000);
  (13541852880936122716000, 4351684572939833461900000, 2395150880895178711000);
  (1390923912291039399300000, 876428525159974741720000, 13001359147194163201000);
  (7732647562548985442600000, 1390923912291039399300000, 13001359147194163201000);
  (876428525159975158050000, 7732647562548987663100000, 13001359147194163201000);
  (7732647562548985442600000, 876428525159974741720000, 13001359147194163201000);
  (1390923912291040509500000, 7732647562548987663100000, 13001359147194163201000);
  (876428525159972798830000, 1390923912291042452400000, 13001359147194163201000);
  (2801506543012279304400000, 784155789651995310810000, 15369038310028759406000);
  (6414337667335724413300000, 2801506543012280414700000, 15369038310028759406000);
  (784155789651994616920000, 6414337667335727744000000, 15369038310028759406000);
  (6414337667335725523500000, 784155789651995310810000, 15369038310028759406000);
  (2801506543012280414700000, 6414337667335726633800000, 15369038310028759406000);
  (784155789651993506690000, 2801506543012282080000000, 15369038310028759406000);
  (3463311874275595281200000, 627477726380917394390000, 14939099251136487428000);
  (5909210399343486352900000, 3463311874275595836400000, 14939099251136487428000);
  (627477726380917810720000, 5909210399343488573400000, 14939099251136487428000);
  (5909210399343486352900000, 627477726380917394390000, 14939099251136487428000);
  (3463311874275595836400000, 5909210399343488573400000, 14939099251136487428000);
  (627477726380915867830000, 3463311874275598056800000, 14939099251136487428000);
  (3811688378455702630500000, 2376623243088594461500000, 24979296124830832095000);
  (3811688378455702075300000, 3811688378455703740700000, 24979296124830832095000);
  (2376623243088593628900000, 3811688378455704295800000, 24979296124830832095000);
  (1142447933587817932000000, 71057304538391123302000, 3462956748392793373700);
  (8786494761873790970700000, 1142447933587817793200000, 3462956748392793373700);
  (71057304538392207505000, 8786494761873792080900000, 3462956748392793373700);
  (8786494761873790970700000, 71057304538391123302000, 3462956748392793373700);
  (1142447933587818487100000, 8786494761873792080900000, 3462956748392793373700);
  (71057304538388876836000, 1142447933587821262700000, 3462956748392793373700);
  (2601477827144039189900000, 408904742282701419430000, 11320947479482943842000);
  (6989617430573259460000000, 2601477827144039189900000, 11320947479482943842000);
  (408904742282701350040000, 6989617430573261680500000, 11320947479482943842000);
  (6989617430573259460000000, 408904742282701419430000, 11320947479482943842000);
  (2601477827144039189900000, 6989617430573261680500000, 11320947479482943842000);
  (408904742282699684710000, 2601477827144041965500000, 11320947479482943842000);
  (3385954503697221063000000, 324948830275603520180000, 10841809686356963013000);
  (6289096666027175208700000, 3385954503697221618100000, 10841809686356963013000);
  (324948830275603173230000, 6289096666027178539300000, 10841809686356963013000);
  (6289096666027175208700000, 324948830275603520180000, 10841809686356963013000);
  (3385954503697222173200000, 6289096666027175208700000, 10841809686356963013000);
  (324948830275602063010000, 3385954503697223838500000, 10841809686356963013000);
  (4405249471606920708100000, 87290442899361896795000, 6301672412378120065700);
  (5507460085493718349200000, 4405249471606921263200000, 6301672412378120065700);
  (87290442899361497808000, 5507460085493719459400000, 6301672412378120065700);
  (5507460085493717238900000, 87290442899361896795000, 6301672412378120065700);
  (4405249471606921263200000, 5507460085493718349200000, 6301672412378120065700);
  (87290442899360942697000, 4405249471606923483700000, 6301672412378120065700);
  (857234837407636202090000, 15747586640191973701000, 1509640027210191700600);
  (9127017575952171002400000, 857234837407636340870000, 1509640027210191700600);
  (15747586640192379193000, 9127017575952174333100000, 1509640027210191700600);
  (9127017575952172112600000, 15747586640191973701000, 1509640027210191700600);
  (857234837407636618420000, 9127017575952174333100000, 1509640027210191700600);
  (15747586640189256690000, 857234837407639532760000, 1509640027210191700600);
  (2007383675971185499300000, 2007383675971187442200000, 20389594514398654349000);
  (5985232648057626780900000, 2007383675971185776900000, 20389594514398654349000);
  (2007383675971186609600000, 5985232648057629001300000, 20389594514398654349000);
  (2859840866397785341700000, 2015322055357084141100000, 22808115137281583136000);
  (5124837078245130239700000, 2859840866397785896800000, 22808115137281583136000);
  (2015322055357083308500000, 5124837078245132460100000, 22808115137281583136000);
  (5124837078245130239700000, 2015322055357084141100000, 22808115137281583136000);
  (2859840866397784786600000, 5124837078245132460100000, 22808115137281583136000);
  (2015322055357082753300000, 2859840866397787007000000, 22808115137281583136000);
  (3022430648527079655200000, 514181635143590096140000, 13215713819515362715000);
  (6463387716329329624200000, 3022430648527080210300000, 13215713819515362715000);
  (514181635143590165530000, 6463387716329331844600000, 13215713819515362715000);
  (6463387716329330734400000, 514181635143590096140000, 13215713819515362715000);
  (3022430648527080765400000, 6463387716329330734400000, 13215713819515362715000);
  (514181635143588777750000, 3022430648527082985800000, 13215713819515362715000);
  (1145574257288858310800000, 190287488235584209550000, 5657299646417223533100);
  (8664138254475557410200000, 1145574257288858310800000, 5657299646417223533100);
  (190287488235585944270000, 8664138254475557410200000, 5657299646417223533100);
  (8664138254475557410200000, 190287488235584209550000, 5657299646417223533100);
  (1145574257288858310800000, 8664138254475559630700000, 5657299646417223533100);
  (190287488235581572770000, 1145574257288861502700000, 5657299646417223533100);
  (2122964300195307185700000, 407880592078401632560000, 10544365941909401158000);
  (7469155107726291875600000, 2122964300195307463200000, 10544365941909401158000);
  (407880592078401771340000, 7469155107726292985900000, 10544365941909401158000);
  (7469155107726290765400000, 407880592078401632560000, 10544365941909401158000);
  (2122964300195308573500000, 7469155107726291875600000, 10544365941909401158000);
  (407880592078400106000000, 2122964300195310238800000, 10544365941909401158000);
  (462782231758690904000000, 462782231758694165280000, 5858932741372461974100);
  (9074435536482614583800000, 462782231758690626440000, 5858932741372461974100);
  (462782231758694928560000, 9074435536482616804200000, 5858932741372461974100);
  (2971430888632479172500000, 2971430888632480837900000, 25420268789960241522000);
  (4057138222735040544700000, 2971430888632480282800000, 25420268789960241522000);
  (2971430888632479172500000, 4057138222735041654900000, 25420268789960241522000);
  (1465284297099019861200000, 285146118965765860140000, 7804093505606637514600);
  (8249569583935214556200000, 1465284297099019583700000, 7804093505606637514600);
  (285146118965767247920000, 8249569583935215666400000, 7804093505606637514600);
  (8249569583935213446000000, 285146118965765860140000, 7804093505606637514600);
  (1465284297099020416300000, 8249569583935215666400000, 7804093505606637514600);
  (285146118965763500920000, 1465284297099022914300000, 7804093505606637514600);
  (3740816461088269928600000, 1537086586116402919800000, 23154255562051811665000);
  (4722096952795328261800000, 3740816461088270483700000, 23154255562051811665000);
  (1537086586116402087100000, 4722096952795328817000000, 23154255562051811665000);
  (4722096952795327151600000, 1537086586116402919800000, 23154255562051811665000);
  (3740816461088270483700000, 4722096952795328261800000, 23154255562051811665000);
  (1537086586116401809600000, 3740816461088272149000000, 23154255562051811665000);
  (817068303997550704490000, 246053203840888995440000, 5824189122616983856100);
  (8936878492161560716400000, 817068303997550565710000, 5824189122616983856100);
  (246053203840890244440000, 8936878492161561826600000, 5824189122616983856100);
  (8936878492161560716400000, 246053203840888995440000, 5824189122616983856100);
  (817068303997551259600000, 8936878492161561826600000, 5824189122616983856100);
  (246053203840886636210000, 817068303997554035160000, 5824189122616983856100);
  (108421217690070140200000, 108421217690073280050000, 1454967198956266761700);
  (9783157564619855417500000, 108421217690070070820000, 1454967198956266761700);
  (108421217690074511710000, 9783157564619857637900000, 1454967198956266761700);
  (2941474788808446927400000, 235355019299825565790000, 9539237935564041492200);
  (6823170191891727576200000, 2941474788808446927400000, 9539237935564041492200);
  (235355019299825496400000, 6823170191891729796700000, 9539237935564041492200);
  (6823170191891727576200000, 235355019299825565790000, 9539237935564041492200);
  (2941474788808447482500000, 6823170191891728686400000, 9539237935564041492200);
  (235355019299824108630000, 2941474788808449702900000, 9539237935564041492200);
  (1750703694826515333100000, 1377167212601208001700000, 18103679665177228528000);
  (6872129092572275554900000, 1750703694826515610700000, 18103679665177228528000);
  (1377167212601208001700000, 6872129092572278885600000, 18103679665177228528000);
  (6872129092572276665200000, 1377167212601208001700000, 18103679665177228528000);
  (1750703694826515333100000, 6872129092572278885600000, 18103679665177228528000);
  (1377167212601206336400000, 1750703694826517831100000, 18103679665177228528000);
  (1028533816631290315200000, 1028533816631292674400000, 12339913193696132581000);
  (7942932366737417426700000, 1028533816631290454000000, 12339913193696132581000);
  (1028533816631292952000000, 7942932366737418536900000, 12339913193696132581000);
  (476205378057730083220000, 109753100892318270630000, 3023529583056674941400);
  (9414041521049950622700000, 476205378057730083220000, 3023529583056674941400);
  (109753100892319710450000, 9414041521049952843100000, 3023529583056674941400);
  (9414041521049951732900000, 109753100892318270630000, 3023529583056674941400);
  (476205378057730777110000, 9414041521049952843100000, 3023529583056674941400);
  (109753100892315408330000, 476205378057733275110000, 3023529583056674941400);
  (3175724815133268985600000, 1604656572027248484500000, 22357890144112865793000);
  (5219618612839482807400000, 3175724815133269540700000, 22357890144112865793000);
  (1604656572027247651800000, 5219618612839485027900000, 22357890144112865793000);
  (5219618612839482807400000, 1604656572027248484500000, 22357890144112865793000);
  (3175724815133268985600000, 5219618612839483917700000, 22357890144112865793000);
  (1604656572027247096700000, 3175724815133270650900000, 22357890144112865793000);
  (2881380539950774144500000, 1329492677376998000000000, 21608932779722824467000);
  (5789126782672228133100000, 2881380539950774699600000, 21608932779722824467000);
  (1329492677376997167300000, 5789126782672230353600000, 21608932779722824467000);
  (5789126782672228133100000, 1329492677376998000000000, 21608932779722824467000);
  (2881380539950774699600000, 5789126782672228133100000, 21608932779722824467000);
  (1329492677376996334600000, 2881380539950776920000000, 21608932779722824467000);
  (2679708893032961558600000, 87549512313114218054000, 5917229840014332159900);
  (7232741594653924188700000, 2679708893032961558600000, 5917229840014332159900);
  (87549512313114252748000, 7232741594653926409100000, 5917229840014332159900);
  (7232741594653924188700000, 87549512313114218054000, 5917229840014332159900);
  (2679708893032961558600000, 7232741594653926409100000, 5917229840014332159900);
  (87549512313112864970000, 2679708893032964334100000, 5917229840014332159900);
  (4841735634166948743000000, 316528731666102514100000, 12237774459375782080000);
  (4841735634166948743000000, 4841735634166949298100000, 12237774459375782080000);
  (316528731666102236540000, 4841735634166950963400000, 12237774459375782080000);
  (2393790592030268782300000, 207437619833565727030000, 8549230596295638194200);
  (7398771788136164762100000, 2393790592030269059900000, 8549230596295638194200);
  (207437619833566455620000, 7398771788136166982500000, 8549230596295638194200);
  (7398771788136165872300000, 207437619833565727030000, 8549230596295638194200);
  (2393790592030269337400000, 7398771788136166982500000, 8549230596295638194200);
  (207437619833564235170000, 2393790592030271557900000, 8549230596295638194200);
  (1918532715697030821600000, 197602896840749810150000, 7630333887659846662400);
  (7883864387462218292800000, 1918532715697031099100000, 7630333887659846662400);
  (197602896840750608120000, 7883864387462220513200000, 7630333887659846662400);
  (7883864387462219403000000, 197602896840749810150000, 7630333887659846662400);
  (1918532715697031099100000, 7883864387462220513200000, 7630333887659846662400);
  (197602896840747555010000, 1918532715697033874700000, 7630333887659846662400);
  (3873242425341849593000000, 429392857768670643810000, 13764510347317954544000);
  (5697364716889479208100000, 3873242425341850703200000, 13764510347317954544000);
  (429392857768670088700000, 5697364716889481428600000, 13764510347317954544000);
  (5697364716889479208100000, 429392857768670643810000, 13764510347317954544000);
  (3873242425341850148100000, 5697364716889480318300000, 13764510347317954544000);
  (429392857768669811150000, 3873242425341852368500000, 13764510347317954544000);
  (3535324158284108286800000, 1178924181582904490200000, 21816136183956239859000);
  (5285751660132986806700000, 3535324158284108842000000, 21816136183956239859000);
  (1178924181582904351400000, 5285751660132989027100000, 21816136183956239859000);
  (5285751660132986806700000, 1178924181582904490200000, 21816136183956239859000);
  (3535324158284107731700000, 5285751660132989027100000, 21816136183956239859000);
  (1178924181582902963600000, 3535324158284110507300000, 21816136183956239859000);
  (521774890148561099060000, 253747294625837269130000, 4831426781162767168800);
  (9224477815225601284900000, 521774890148560752110000, 4831426781162767168800);
  (253747294625839003860000, 9224477815225602395100000, 4831426781162767168800);
  (9224477815225601284900000, 253747294625837269130000, 4831426781162767168800);
  (521774890148561931720000, 9224477815225602395100000, 4831426781162767168800);
  (253747294625834909910000, 521774890148564568500000, 4831426781162767168800);
  (3237021161513139455600000, 935293820848460272230000, 18907763340343234672000);
  (5827685017638399855900000, 3237021161513140010700000, 18907763340343234672000);
  (935293820848460133450000, 5827685017638402076300000, 18907763340343234672000);
  (5827685017638400966100000, 935293820848460272230000, 18907763340343234672000);
  (3237021161513140010700000, 5827685017638400966100000, 18907763340343234672000);
  (935293820848458745680000, 3237021161513142231100000, 18907763340343234672000);
  (3720593606748486270600000, 19871034880731218951000, 3017846563734654361800);
  (6259535358370783564300000, 3720593606748486270600000, 3017846563734654361800);
  (19871034880730165106000, 6259535358370785784700000, 3017846563734654361800);
  (6259535358370782454100000, 19871034880731218951000, 3017846563734654361800);
  (3720593606748486270600000, 6259535358370783564300000, 3017846563734654361800);
  (19871034880730442662000, 3720593606748488491000000, 3017846563734654361800);
  (4136925346071049225400000, 1086901962935059168200000, 21275819804194820613000);
  (4776172690993891745100000, 4136925346071049780500000, 21275819804194820613000);
  (1086901962935059029500000, 4776172690993892855400000, 21275819804194820613000);
  (4776172690993891190000000, 1086901962935059168200000, 21275819804194820613000);
  (4136925346071049780500000, 4776172690993892300200000, 21275819804194820613000);
  (1086901962935058474400000, 4136925346071050890700000, 21275819804194820613000);
  (2508654436414371469200000, 1749023341509636231300000, 24245266612045804355000);
  (5742322222075991744500000, 2508654436414372024300000, 24245266612045804355000);
  (1749023341509636231300000, 5742322222075993964900000, 24245266612045804355000);
  (5742322222075991744500000, 1749023341509636231300000, 24245266612045804355000);
  (2508654436414372024300000, 5742322222075993964900000, 24245266612045804355000);
  (1749023341509634565900000, 2508654436414373689600000, 24245266612045804355000);
  (2368477035387835938400000, 669659133716484916700000, 15127459076675808716000);
  (6961863830895678173500000, 2368477035387835938400000, 15127459076675808716000);
  (669659133716485888140000, 6961863830895680394000000, 15127459076675808716000);
  (6961863830895679283700000, 669659133716484916700000, 15127459076675808716000);
  (2368477035387835938400000, 6961863830895680394000000, 15127459076675808716000);
  (669659133716482973810000, 2368477035387838436400000, 15127459076675808716000);
  (1099576830426482188000000, 409791337707322012030000, 9151329554746004055200);
  (8490631831866195522500000, 1099576830426482049200000, 9151329554746004055200);
  (409791337707323122250000, 8490631831866196632700000, 9151329554746004055200);
  (8490631831866196632700000, 409791337707322012030000, 9151329554746004055200);
  (1099576830426483575700000, 8490631831866196632700000, 9151329554746004055200);
  (409791337707319791580000, 1099576830426485241100000, 9151329554746004055200);
  (4297319028951815389500000, 244664150758457620010000, 11556455726362425268000);
  (5458016820289727233400000, 4297319028951816499700000, 11556455726362425268000);
  (244664150758457377140000, 5458016820289728343600000, 11556455726362425268000);
  (5458016820289727233400000, 244664150758457620010000, 11556455726362425268000);
  (4297319028951816499700000, 5458016820289727233400000, 11556455726362425268000);
  (244664150758456822030000, 4297319028951818165000000, 11556455726362425268000);
  (1437680374333724919700000, 566880883410084066010000, 11488090641465537219000);
  (7995438742256191222400000, 1437680374333724919700000, 11488090641465537219000);
  (566880883410085245620000, 7995438742256192332600000, 11488090641465537219000);
  (7995438742256191222400000, 566880883410084066010000, 11488090641465537219000);
  (1437680374333725752400000, 7995438742256192332600000, 11488090641465537219000);
  (566880883410082053730000, 1437680374333728250400000, 11488090641465537219000);
  (774106779986907661550000, 96524833615463691283000, 3868713007276602792500);
  (9129368386397628265500000, 774106779986907800330000, 3868713007276602792500);
  (96524833615465599479000, 9129368386397629375800000, 3868713007276602792500);
  (9129368386397629375800000, 96524833615463691283000, 3868713007276602792500);
  (774106779986908355440000, 9129368386397629375800000, 3868713007276602792500);
  (96524833615461505532000, 774106779986910992220000, 3868713007276602792500);
  (1557060056653468971300000, 110995676273211840020000, 5545553953316353533100);
  (8331944267073317922400000, 1557060056653469248800000, 5545553953316353533100);
  (110995676273212273700000, 8331944267073321253000000, 5545553953316353533100);
  (8331944267073320142800000, 110995676273211840020000, 5545553953316353533100);
  (1557060056653468693700000, 8331944267073321253000000, 5545553953316353533100);
  (110995676273209498140000, 1557060056653472024400000, 5545553953316353533100);
  (3128533024496512049400000, 19740717879364734315000, 2958640035393750224900);
  (6851726257624122240500000, 3128533024496512604500000, 2958640035393750224900);
  (19740717879365154985000, 6851726257624124460900000, 2958640035393750224900);
  (6851726257624123350700000, 19740717879364734315000, 2958640035393750224900);
  (3128533024496512604500000, 6851726257624124460900000, 2958640035393750224900);
  (19740717879363212095000, 3128533024496515380100000, 2958640035393750224900);
  (260902661381798156580000, 110588672805732885630000, 2331645391699127968100);
  (9628508665812467448600000, 260902661381797809640000, 2331645391699127968100);
  (110588672805734256070000, 9628508665812470779200000, 2331645391699127968100);
  (9628508665812468558800000, 110588672805732885630000, 2331645391699127968100);
  (260902661381799405580000, 9628508665812470779200000, 2331645391699127968100);
  (110588672805729849870000, 260902661381801001530000, 2331645391699127968100);
  (1656728608179915684900000, 24625444223661933398000, 2530272571070865043700);
  (8318645947596422507400000, 1656728608179915684900000, 2530272571070865043700);
  (24625444223662640297000, 8318645947596423617700000, 2530272571070865043700);
  (8318645947596421397200000, 24625444223661933398000, 2530272571070865043700);
  (1656728608179915962500000, 8318645947596423617700000, 2530272571070865043700);
  (24625444223659864740000, 1656728608179919293200000, 2530272571070865043700);
  (4932611955660526903400000, 134776088678945776820000, 8417355883929228486200);
  (4932611955660527458500000, 4932611955660528013600000, 8417355883929228486200);
  (134776088678945360490000, 4932611955660529123900000, 8417355883929228486200);
  (742257546763113590370000, 463950129826373944280000, 7731026217951237570300);
  (8793792323410511979600000, 742257546763113729150000, 7731026217951237570300);
  (463950129826374846330000, 8793792323410514200100000, 7731026217951237570300);
  (8793792323410513089900000, 463950129826373944280000, 7731026217951237570300);
  (742257546763114284260000, 8793792323410514200100000, 7731026217951237570300);
  (463950129826371307500000, 742257546763116921040000, 7731026217951237570300);
  (288339172370140305050000, 20785999248741984791000, 1119083862635312918300);
  (9690874828381117467300000, 288339172370140513210000, 1119083862635312918300);
  (20785999248743025625000, 9690874828381118577500000, 1119083862635312918300);
  (9690874828381117467300000, 20785999248741984791000, 1119083862635312918300);
  (288339172370141727520000, 9690874828381118577500000, 1119083862635312918300);
  (20785999248738983719000, 288339172370143705100000, 1119083862635312918300);
  (1868226606723150662300000, 683532967983220413060000, 14780925919469867311000);
  (7448240425293628508300000, 1868226606723150662300000, 14780925919469867311000);
  (683532967983221384500000, 7448240425293629618500000, 14780925919469867311000);
  (7448240425293628508300000, 683532967983220413060000, 14780925919469867311000);
  (1868226606723151772500000, 7448240425293629618500000, 14780925919469867311000);
  (683532967983218192610000, 1868226606723153160300000, 14780925919469867311000);
  (3270839281856873226300000, 106763043029804560040000, 7145209245851085171800);
  (6622397675113321780000000, 3270839281856874336500000, 7145209245851085171800);
  (106763043029804993720000, 6622397675113322890200000, 7145209245851085171800);
  (6622397675113321780000000, 106763043029804560040000, 7145209245851085171800);
  (3270839281856874891700000, 6622397675113321780000000, 7145209245851085171800);
  (106763043029802773280000, 3270839281856876557000000, 7145209245851085171800);
  (1038911034338267785900000, 691692834636133124790000, 10729346742087936088000);
  (8269396131025599228100000, 1038911034338268063500000, 10729346742087936088000);
  (691692834636133957460000, 8269396131025600338300000, 10729346742087936088000);
  (8269396131025599228100000, 691692834636133124790000, 10729346742087936088000);
  (1038911034338268479800000, 8269396131025600338300000, 10729346742087936088000);
  (691692834636130904350000, 1038911034338270700200000, 10729346742087936088000);
  (2155342882429546191900000, 1006688094346437217800000, 17923837097284971501000);
  (6837969023224015341400000, 2155342882429546469400000, 17923837097284971501000);
  (1006688094346437356600000, 6837969023224018672000000, 17923837097284971501000);
  (6837969023224016451600000, 1006688094346437217800000, 17923837097284971501000);
  (2155342882429545636700000, 6837969023224018672000000, 17923837097284971501000);
  (1006688094346435274900000, 2155342882429548134700000, 17923837097284971501000);
  (4057324719755224240500000, 1885350560489550964000000, 26827112703014031718000);
  (4057324719755224240500000, 4057324719755225905800000, 26827112703014031718000);
  (1885350560489549853700000, 4057324719755226460900000, 26827112703014031718000);
  (3431516130273899456400000, 2012179375284442739400000, 27263678891136160047000);
  (4556304494441658636800000, 3431516130273900011500000, 27263678891136160047000);
  (2012179375284441906800000, 4556304494441659747000000, 27263678891136160047000);
  (4556304494441658081700000, 2012179375284442739400000, 27263678891136160047000);
  (3431516130273899456400000, 4556304494441658636800000, 27263678891136160047000);
  (2012179375284441351600000, 3431516130273901676900000, 27263678891136160047000);
  (2224087587233254392800000, 1434532484926368811600000, 21908328878285812484000);
  (6341379927840377073200000, 2224087587233254670300000, 21908328878285812484000);
  (1434532484926368534100000, 6341379927840379293600000, 21908328878285812484000);
  (6341379927840377073200000, 1434532484926368811600000, 21908328878285812484000);
  (2224087587233253837700000, 6341379927840379293600000, 21908328878285812484000);
  (1434532484926366868700000, 2224087587233256335700000, 21908328878285812484000);
  (534809769143942265180000, 21251605376943244648000, 1535872679822280204600);
  (9443938625479113557800000, 534809769143942057010000, 1535872679822280204600);
  (21251605376945703618000, 9443938625479114668000000, 1535872679822280204600);
  (9443938625479114668000000, 21251605376943244648000, 1535872679822280204600);
  (534809769143944069290000, 9443938625479114668000000, 1535872679822280204600);
  (21251605376940638226000, 534809769143945873400000, 1535872679822280204600);
  (1304216449251314469100000, 1304216449251316967100000, 17496340158808336689000);
  (7391567101497368286200000, 1304216449251314469100000, 17496340158808336689000);
  (1304216449251317522200000, 7391567101497369396400000, 17496340158808336689000);
  (4387889688450269387600000, 514225024494020452330000, 16190885082294590325000);
  (5097885287055710090700000, 4387889688450269942700000, 16190885082294590325000);
  (514225024494019966600000, 5097885287055712311100000, 16190885082294590325000);
  (5097885287055710090700000, 514225024494020452330000, 16190885082294590325000);
  (4387889688450270497800000, 5097885287055710090700000, 16190885082294590325000);
  (514225024494019689050000, 4387889688450272163100000, 16190885082294590325000);
  (4614348056302962630700000, 771303887394075154970000, 19800098957543778126000);
  (4614348056302962630700000, 4614348056302963185800000, 19800098957543778126000);
  (771303887394074461080000, 4614348056302964296000000, 19800098957543778126000);
  (275739602431112201810000, 275739602431115116140000, 4159754444519079088500);
  (9448520795137772543300000, 275739602431111889560000, 4159754444519079088500);
  (275739602431115948810000, 9448520795137774763700000, 4159754444519079088500);
  (2318424453754739378300000, 2318424453754741321200000, 26822045354474625088000);
  (5363151092490520133200000, 2318424453754739933400000, 26822045354474625088000);
  (2318424453754740488500000, 5363151092490521243400000, 26822045354474625088000);
  (3517217766277714319200000, 2965564467444571361600000, 30633868037770310179000);
  (3517217766277713764100000, 3517217766277715429400000, 30633868037770310179000);
  (2965564467444570251300000, 3517217766277715984600000, 30633868037770310179000);
  (22124213099817542465000, 22124213099820608588000, 323057149542252543910);
  (9955751573800362130800000, 22124213099817403687000, 323057149542252543910);
  (22124213099821710138000, 9955751573800363241100000, 323057149542252543910);
  (3919321013755558413800000, 781526329255782525870000, 20526914294637763243000);
  (5299152656988659337900000, 3919321013755559524000000, 20526914294637763243000);
  (781526329255781693210000, 5299152656988661558300000, 20526914294637763243000);
  (5299152656988659337900000, 781526329255782525870000, 20526914294637763243000);
  (3919321013755558413800000, 5299152656988660448100000, 20526914294637763243000);
  (781526329255781415650000, 3919321013755560634300000, 20526914294637763243000);
  (2110821798970345664100000, 64969244459217980261000, 5341793661710525411400);
  (7824208956570436468400000, 2110821798970345941600000, 5341793661710525411400);
  (64969244459218700172000, 7824208956570437578600000, 5341793661710525411400);
  (7824208956570435358200000, 64969244459217980261000, 5341793661710525411400);
  (2110821798970345941600000, 7824208956570437578600000, 5341793661710525411400);
  (64969244459216202170000, 2110821798970348717200000, 5341793661710525411400);
  (117098573109517579970000, 20903064191528592311000, 711599458074916257040);
  (9861998362698953801700000, 117098573109517510580000, 711599458074916257040);
  (20903064191530318361000, 9861998362698954911900000, 711599458074916257040);
  (9861998362698953801700000, 20903064191528592311000, 711599458074916257040);
  (117098573109518100390000, 9861998362698954911900000, 711599458074916257040);
  (20903064191525955531000, 117098573109520719820000, 711599458074916257040);
  (4987895646915128100600000, 24208706169743300120000, 3942775827266348015100);
  (4987895646915128655700000, 4987895646915129210800000, 3942775827266348015100);
  (24208706169742411074000, 4987895646915130876100000, 3942775827266348015100);
  (2063833537599898404500000, 1398635181475325016700, 802792352761153981280);
  (7934767827218625058100000, 2063833537599898682000000, 802792352761153981280);
  (1398635181475427202700, 7934767827218628388800000, 802792352761153981280);
  (7934767827218626168300000, 1398635181475325016700, 802792352761153981280);
  (2063833537599897849400000, 7934767827218628388800000, 802792352761153981280);
  (1398635181473484312400, 2063833537599901180000000, 802792352761153981280)].

(** quad_rules_tria.cc:23281-24647 *)
Definition tab_50 : list (Z * Z * Z) := [
  (2563558633847908274600000, 2563558633847909940000000, 16643475873566143490000);
  (4872882732304182340500000, 2563558633847909384900000, 16643475873566143490000);
  (2563558633847909384900000, 4872882732304183450700000, 16643475873566143490000);
  (4433230868583420414300000, 9224561060704703245200, 1736640797462386072100);
  (5557544570355874569100000, 4433230868583420969400000, 1736640797462386072100);
  (9224561060703906356700, 5557544570355877899800000, 1736640797462386072100);
  (5557544570355874569100000, 9224561060704703245200, 1736640797462386072100);
  (4433230868583420414300000, 5557544570355875679400000, 1736640797462386072100);
  (9224561060703906356700, 4433230868583423189800000, 1736640797462386072100);
  (259368938757903871870000, 224379912623130783890000, 1500250509549538803700);
  (9516251148618964927900000, 259368938757903004510000, 1500250509549538803700);
  (224379912623132726780000, 9516251148618966038100000, 1500250509549538803700);
  (9516251148618964927900000, 224379912623130783890000, 1500250509549538803700);
  (259368938757905675980000, 9516251148618966038100000, 1500250509549538803700);
  (224379912623127938940000, 259368938757907480100000, 1500250509549538803700);
  (2401441052632694583800000, 2227907282937328925500000, 13652010296148933514000);
  (5370651664429976213100000, 2401441052632695416500000, 13652010296148933514000);
  (2227907282937328092800000, 5370651664429978433500000, 13652010296148933514000);
  (5370651664429976213100000, 2227907282937328925500000, 13652010296148933514000);
  (2401441052632695138900000, 5370651664429978433500000, 13652010296148933514000);
  (2227907282937326982600000, 2401441052632696804300000, 13652010296148933514000);
  (1345526180266427007700000, 231202139702463074780000, 5664857258923125483600);
  (8423271680031109154300000, 1345526180266426730100000, 5664857258923125483600);
  (231202139702463838060000, 8423271680031111374700000, 5664857258923125483600);
  (8423271680031110264500000, 231202139702463074780000, 5664857258923125483600);
  (1345526180266427007700000, 8423271680031111374700000, 5664857258923125483600);
  (231202139702460784940000, 1345526180266430338300000, 5664857258923125483600);
  (450355724673314194990000, 8567797950089722867200, 682609204983525633130);
  (9541076477376595477200000, 450355724673314125610000, 682609204983525633130);
  (8567797950091438075000, 9541076477376596587400000, 682609204983525633130);
  (9541076477376596587400000, 8567797950089722867200, 682609204983525633130);
  (450355724673315305220000, 9541076477376596587400000, 682609204983525633130);
  (8567797950087066571900, 450355724673317942000000, 682609204983525633130);
  (4087145665677718864300000, 48086376608720057119000, 3846880333921613237900);
  (5864767957713561408200000, 4087145665677718864300000, 3846880333921613237900);
  (48086376608720282633000, 5864767957713562518400000, 3846880333921613237900);
  (5864767957713561408200000, 48086376608720057119000, 3846880333921613237900);
  (4087145665677719419400000, 5864767957713561408200000, 3846880333921613237900);
  (48086376608718617298000, 4087145665677721639900000, 3846880333921613237900);
  (1714634577399832271500000, 234930123594385593940000, 6484865973060679805400);
  (8050435299005781475400000, 1714634577399832271500000, 6484865973060679805400);
  (234930123594386253140000, 8050435299005783695800000, 6484865973060679805400);
  (8050435299005782585600000, 234930123594385593940000, 6484865973060679805400);
  (1714634577399832271500000, 8050435299005783695800000, 6484865973060679805400);
  (234930123594383755140000, 1714634577399835602100000, 6484865973060679805400);
  (16305781421460426982000, 16305781421463356497000, 182966121231848855990);
  (9967388437157076452900000, 16305781421460151595000, 182966121231848855990);
  (16305781421465104231000, 9967388437157076452900000, 182966121231848855990);
  (2101059247050331424400000, 933966471293635747130000, 14029275810552158717000);
  (6964974281656032273300000, 2101059247050331979500000, 14029275810552158717000);
  (933966471293635747130000, 6964974281656034493800000, 14029275810552158717000);
  (6964974281656033383600000, 933966471293635747130000, 14029275810552158717000);
  (2101059247050331424400000, 6964974281656034493800000, 14029275810552158717000);
  (933966471293633526680000, 2101059247050334200000000, 14029275810552158717000);
  (1392968201185850463100000, 417966366511481543510000, 8544121114967038284000);
  (8189065432302667924000000, 1392968201185850740700000, 8544121114967038284000);
  (417966366511482445570000, 8189065432302669034200000, 8544121114967038284000);
  (8189065432302667924000000, 417966366511481543510000, 8544121114967038284000);
  (1392968201185851295800000, 8189065432302669034200000, 8544121114967038284000);
  (417966366511479531230000, 1392968201185853793800000, 8544121114967038284000);
  (703820539127592015300000, 493573118928612927790000, 7417634716093389219600);
  (8802606341943794987500000, 703820539127591598970000, 7417634716093389219600);
  (493573118928615217630000, 8802606341943794987500000, 7417634716093389219600);
  (8802606341943796097700000, 493573118928612927790000, 7417634716093389219600);
  (703820539127592570420000, 8802606341943796097700000, 7417634716093389219600);
  (493573118928610915510000, 703820539127595068420000, 7417634716093389219600);
  (4903268692484512025800000, 193462615030975601530000, 8256981786395692097400);
  (4903268692484512580900000, 4903268692484513136000000, 8256981786395692097400);
  (193462615030975115800000, 4903268692484514246200000, 8256981786395692097400);
  (3726064881564939979000000, 1528141070121611377900000, 21270972166203003587000);
  (4745794048313448643100000, 3726064881564940534100000, 21270972166203003587000);
  (1528141070121610545200000, 4745794048313450308500000, 21270972166203003587000);
  (4745794048313448643100000, 1528141070121611377900000, 21270972166203003587000);
  (3726064881564939979000000, 4745794048313449198200000, 21270972166203003587000);
  (1528141070121610267700000, 3726064881564942199400000, 21270972166203003587000);
  (1479157172776440765100000, 651154299306215683660000, 10988997933591897280000);
  (7869688527917342302200000, 1479157172776441042700000, 10988997933591897280000);
  (651154299306216377550000, 7869688527917344522700000, 10988997933591897280000);
  (7869688527917343412500000, 651154299306215683660000, 10988997933591897280000);
  (1479157172776441875300000, 7869688527917344522700000, 10988997933591897280000);
  (651154299306213185660000, 1479157172776443818200000, 10988997933591897280000);
  (2140246435816436920700000, 234621431760208033760000, 7742909739458190285600);
  (7625132132423354525100000, 2140246435816436920700000, 7742909739458190285600);
  (234621431760209109290000, 7625132132423355635400000, 7742909739458190285600);
  (7625132132423354525100000, 234621431760208033760000, 7742909739458190285600);
  (2140246435816437475800000, 7625132132423355635400000, 7742909739458190285600);
  (234621431760205778620000, 2140246435816439696300000, 7742909739458190285600);
  (3302674030581440045600000, 520322782344110751350000, 13016402650767849164000);
  (6177003187074449064300000, 3302674030581440045600000, 13016402650767849164000);
  (520322782344110890130000, 6177003187074451284700000, 13016402650767849164000);
  (6177003187074449064300000, 520322782344110751350000, 13016402650767849164000);
  (3302674030581440600700000, 6177003187074450174500000, 13016402650767849164000);
  (520322782344109502350000, 3302674030581442266000000, 13016402650767849164000);
  (3699848635444039080000000, 14945191055323262929000, 2330851320516272372000);
  (6285206173500637039100000, 3699848635444039635100000, 2330851320516272372000);
  (14945191055323325813000, 6285206173500639259500000, 2330851320516272372000);
  (6285206173500638149300000, 14945191055323262929000, 2330851320516272372000);
  (3699848635444039080000000, 6285206173500638149300000, 2330851320516272372000);
  (14945191055321938034000, 3699848635444041300400000, 2330851320516272372000);
  (675115690433361337330000, 120437469347925395210000, 3287885781867563362600);
  (9204446840218712955200000, 675115690433360921000000, 3287885781867563362600);
  (120437469347927095240000, 9204446840218714065400000, 3287885781867563362600);
  (9204446840218714065400000, 120437469347925395210000, 3287885781867563362600);
  (675115690433362170000000, 9204446840218714065400000, 3287885781867563362600);
  (120437469347922654350000, 675115690433364390440000, 3287885781867563362600);
  (4370988411800967310400000, 566847855434612496460000, 13932327047496862338000);
  (5062163732764419776800000, 4370988411800967865500000, 13932327047496862338000);
  (566847855434612357680000, 5062163732764421997200000, 13932327047496862338000);
  (5062163732764419776800000, 566847855434612496460000, 13932327047496862338000);
  (4370988411800968420600000, 5062163732764420887000000, 13932327047496862338000);
  (566847855434611247460000, 4370988411800970086000000, 13932327047496862338000);
  (4225871685075206496400000, 1548256629849587562300000, 21295483390957352030000);
  (4225871685075206496400000, 4225871685075207051500000, 21295483390957352030000);
  (1548256629849586174500000, 4225871685075208161700000, 21295483390957352030000);
  (4145122211577852988600000, 1148601420448157051100000, 20648284765708430077000);
  (4706276367973990515400000, 4145122211577854098900000, 20648284765708430077000);
  (1148601420448156496000000, 4706276367973991625600000, 20648284765708430077000);
  (4706276367973990515400000, 1148601420448157051100000, 20648284765708430077000);
  (4145122211577852988600000, 4706276367973991070500000, 20648284765708430077000);
  (1148601420448155940900000, 4145122211577855209100000, 20648284765708430077000);
  (3623805122689274238500000, 312648361867088886430000, 10771414586637324210000);
  (6063546515443636320000000, 3623805122689275348700000, 10771414586637324210000);
  (312648361867088331320000, 6063546515443638540400000, 10771414586637324210000);
  (6063546515443636320000000, 312648361867088886430000, 10771414586637324210000);
  (3623805122689274793600000, 6063546515443637430200000, 10771414586637324210000);
  (312648361867088053770000, 3623805122689277014000000, 10771414586637324210000);
  (3122512855112035135000000, 1022466401455417589500000, 17379761008355447925000);
  (5855020743432547414300000, 3122512855112035690100000, 17379761008355447925000);
  (1022466401455416895600000, 5855020743432549634700000, 17379761008355447925000);
  (5855020743432547414300000, 1022466401455417589500000, 17379761008355447925000);
  (3122512855112035135000000, 5855020743432548524500000, 17379761008355447925000);
  (1022466401455416340500000, 3122512855112037355500000, 17379761008355447925000);
  (4805756764340300413200000, 388486471319398965480000, 12121399787049466114000);
  (4805756764340300968300000, 4805756764340300968300000, 12121399787049466114000);
  (388486471319398340980000, 4805756764340302633600000, 12121399787049466114000);
  (3926893217036878658300000, 483493018730729307020000, 13533071271985476925000);
  (5589613764232391757100000, 3926893217036879768500000, 13533071271985476925000);
  (483493018730729029460000, 5589613764232393977600000, 13533071271985476925000);
  (5589613764232391757100000, 483493018730729307020000, 13533071271985476925000);
  (3926893217036879768500000, 5589613764232392867400000, 13533071271985476925000);
  (483493018730728196800000, 3926893217036881433800000, 13533071271985476925000);
  (260638541622880276490000, 99795769296426584116000, 1928896434910634563400);
  (9639565689080692445500000, 260638541622880241800000, 1928896434910634563400);
  (99795769296427416784000, 9639565689080694665900000, 1928896434910634563400);
  (9639565689080693555700000, 99795769296426584116000, 1928896434910634563400);
  (260638541622881247940000, 9639565689080694665900000, 1928896434910634563400);
  (99795769296423808559000, 260638541622883468380000, 1928896434910634563400);
  (3983909958449554089600000, 839129407699283902390000, 17198332146128097672000);
  (5176960633851162008100000, 3983909958449555199800000, 17198332146128097672000);
  (839129407699283347280000, 5176960633851163118300000, 17198332146128097672000);
  (5176960633851162008100000, 839129407699283902390000, 17198332146128097672000);
  (3983909958449554644700000, 5176960633851163118300000, 17198332146128097672000);
  (839129407699282792170000, 3983909958449556310000000, 17198332146128097672000);
  (458803913209149261120000, 67281317012842720149000, 2190134685451855045900);
  (9473914769778007949300000, 458803913209149399900000, 2190134685451855045900);
  (67281317012843899761000, 9473914769778009059600000, 2190134685451855045900);
  (9473914769778007949300000, 67281317012842720149000, 2190134685451855045900);
  (458803913209150371340000, 9473914769778009059600000, 2190134685451855045900);
  (67281317012839840508000, 458803913209152938730000, 2190134685451855045900);
  (2510983078651668476400000, 1773080248323684604600000, 22030072639051346065000);
  (5715936673024646363900000, 2510983078651669031500000, 22030072639051346065000);
  (1773080248323684604600000, 5715936673024648584400000, 22030072639051346065000);
  (5715936673024647474200000, 1773080248323684604600000, 22030072639051346065000);
  (2510983078651668476400000, 5715936673024648584400000, 22030072639051346065000);
  (1773080248323682384100000, 2510983078651670696900000, 22030072639051346065000);
  (1831369339346112235000000, 426840877350856129360000, 10087504042276889630000);
  (7741789783303032468400000, 1831369339346112512500000, 10087504042276889630000);
  (426840877350856406910000, 7741789783303033578600000, 10087504042276889630000);
  (7741789783303031358100000, 426840877350856129360000, 10087504042276889630000);
  (1831369339346113345200000, 7741789783303031358100000, 10087504042276889630000);
  (426840877350854602800000, 1831369339346115288100000, 10087504042276889630000);
  (3540463032783623398300000, 743927680400381513560000, 16191393022748274723000);
  (5715609286815994671800000, 3540463032783623953400000, 16191393022748274723000);
  (743927680400380819670000, 5715609286815998002500000, 16191393022748274723000);
  (5715609286815994671800000, 743927680400381513560000, 16191393022748274723000);
  (3540463032783622843200000, 5715609286815996892300000, 16191393022748274723000);
  (743927680400380264560000, 3540463032783625063600000, 16191393022748274723000);
  (2992109871101671370000000, 2435689477970363059400000, 23331053995969863908000);
  (4572200650927965015500000, 2992109871101672480300000, 23331053995969863908000);
  (2435689477970362504200000, 4572200650927966680800000, 23331053995969863908000);
  (4572200650927966125700000, 2435689477970363059400000, 23331053995969863908000);
  (2992109871101671370000000, 4572200650927966680800000, 23331053995969863908000);
  (2435689477970361671600000, 2992109871101673035400000, 23331053995969863908000);
  (2908392329854116442600000, 763915697459878195730000, 15796129088774364061000);
  (6327691972686005916800000, 2908392329854116997700000, 15796129088774364061000);
  (763915697459878195730000, 6327691972686007027000000, 15796129088774364061000);
  (6327691972686004806500000, 763915697459878195730000, 15796129088774364061000);
  (2908392329854117552800000, 6327691972686005916800000, 15796129088774364061000);
  (763915697459876807950000, 2908392329854118663100000, 15796129088774364061000);
  (1861461318533069730900000, 1242245896688861372900000, 17367922592231238924000);
  (6896292784778068618600000, 1861461318533070286000000, 17367922592231238924000);
  (1242245896688861650500000, 6896292784778069728800000, 17367922592231238924000);
  (6896292784778068618600000, 1242245896688861372900000, 17367922592231238924000);
  (1861461318533070286000000, 6896292784778069728800000, 17367922592231238924000);
  (1242245896688859568800000, 1861461318533072784000000, 17367922592231238924000);
  (1336271749712246159600000, 97790083705655301421000, 4476964402048990939800);
  (8565938166582098833900000, 1336271749712245882100000, 4476964402048990939800);
  (97790083705656116742000, 8565938166582099944100000, 4476964402048990939800);
  (8565938166582098833900000, 97790083705655301421000, 4476964402048990939800);
  (1336271749712247825000000, 8565938166582098833900000, 4476964402048990939800);
  (97790083705652369739000, 1336271749712249767800000, 4476964402048990939800);
  (689763351482116093830000, 279432020481641396610000, 5402392418126887715600);
  (9030804628036241954400000, 689763351482116093830000, 5402392418126887715600);
  (279432020481642506840000, 9030804628036244174900000, 5402392418126887715600);
  (9030804628036241954400000, 279432020481641396610000, 5402392418126887715600);
  (689763351482116648940000, 9030804628036244174900000, 5402392418126887715600);
  (279432020481638829220000, 689763351482119563270000, 5402392418126887715600);
  (2614910192698080004800000, 248082685108521189270000, 9064872245549718222600);
  (7137007122193398389600000, 2614910192698080559900000, 9064872245549718222600);
  (248082685108521605600000, 7137007122193399499800000, 9064872245549718222600);
  (7137007122193398389600000, 248082685108521189270000, 9064872245549718222600);
  (2614910192698081115000000, 7137007122193399499800000, 9064872245549718222600);
  (248082685108519940260000, 2614910192698083335500000, 9064872245549718222600);
  (439794560591167671420000, 211260004278838765810000, 3825785652431659212100);
  (9348945435129992764800000, 439794560591167324470000, 3825785652431659212100);
  (211260004278840396450000, 9348945435129994985200000, 3825785652431659212100);
  (9348945435129992764800000, 211260004278838765810000, 3825785652431659212100);
  (439794560591168504080000, 9348945435129994985200000, 3825785652431659212100);
  (211260004278835782090000, 439794560591170516360000, 3825785652431659212100);
  (2469572317073107647900000, 681498702540452999670000, 14288408521395195520000);
  (6848928980386439491200000, 2469572317073107370300000, 14288408521395195520000);
  (681498702540452860890000, 6848928980386441711700000, 14288408521395195520000);
  (6848928980386439491200000, 681498702540452999670000, 14288408521395195520000);
  (2469572317073108203000000, 6848928980386440601400000, 14288408521395195520000);
  (681498702540451750660000, 2469572317073109868300000, 14288408521395195520000);
  (1916073029798411320200000, 687953069004346856600000, 13279060452758455809000);
  (7395973901197242517100000, 1916073029798411320200000, 13279060452758455809000);
  (687953069004346717820000, 7395973901197243627300000, 13279060452758455809000);
  (7395973901197241406900000, 687953069004346856600000, 13279060452758455809000);
  (1916073029798412430400000, 7395973901197242517100000, 13279060452758455809000);
  (687953069004344774930000, 1916073029798414650800000, 13279060452758455809000);
  (3173959823085312770300000, 1563534771200214557000000, 22387188105532284874000);
  (5262505405714472672700000, 3173959823085313325400000, 22387188105532284874000);
  (1563534771200214001900000, 5262505405714474893100000, 22387188105532284874000);
  (5262505405714472672700000, 1563534771200214557000000, 22387188105532284874000);
  (3173959823085312215200000, 5262505405714473782900000, 22387188105532284874000);
  (1563534771200213446800000, 3173959823085314990700000, 22387188105532284874000);
  (3938393062998427063300000, 157887711356747735550000, 8267586306367168125200);
  (5903719225644824542000000, 3938393062998428173500000, 8267586306367168125200);
  (157887711356747284520000, 5903719225644826762400000, 8267586306367168125200);
  (5903719225644824542000000, 157887711356747735550000, 8267586306367168125200);
  (3938393062998427618400000, 5903719225644825652200000, 8267586306367168125200);
  (157887711356746729410000, 3938393062998429838800000, 8267586306367168125200);
  (3181446682127856973000000, 234464079672303087050000, 9724948178572703685200);
  (6584089238199839488900000, 3181446682127857528100000, 9724948178572703685200);
  (234464079672302982970000, 6584089238199841709300000, 9724948178572703685200);
  (6584089238199840599100000, 234464079672303087050000, 9724948178572703685200);
  (3181446682127858083300000, 6584089238199840599100000, 9724948178572703685200);
  (234464079672301872750000, 3181446682127859748600000, 9724948178572703685200);
  (2803644875579968109800000, 1359298134713861905300000, 20272587903587685476000);
  (5837056989706169707300000, 2803644875579968665000000, 20272587903587685476000);
  (1359298134713861627700000, 5837056989706171927800000, 20272587903587685476000);
  (5837056989706169707300000, 1359298134713861905300000, 20272587903587685476000);
  (2803644875579967554700000, 5837056989706171927800000, 20272587903587685476000);
  (1359298134713860517500000, 2803644875579970330300000, 20272587903587685476000);
  (2299757300841566709500000, 446955970130420640610000, 11735985049339679905000);
  (7253286729028012302900000, 2299757300841566709500000, 11735985049339679905000);
  (446955970130421542660000, 7253286729028013413200000, 11735985049339679905000);
  (7253286729028012302900000, 446955970130420640610000, 11735985049339679905000);
  (2299757300841566709500000, 7253286729028013413200000, 11735985049339679905000);
  (446955970130419322220000, 2299757300841569485100000, 11735985049339679905000);
  (3494881250371350556200000, 2460562506891596223900000, 27098983409457647574000);
  (4044556242737054052600000, 3494881250371351111300000, 27098983409457647574000);
  (2460562506891594836100000, 4044556242737055162800000, 27098983409457647574000);
  (4044556242737053497500000, 2460562506891596223900000, 27098983409457647574000);
  (3494881250371350556200000, 4044556242737055162800000, 27098983409457647574000);
  (2460562506891595113700000, 3494881250371351666400000, 27098983409457647574000);
  (964083579062224721450000, 107634727377168594450000, 4107095577780862385100);
  (8928281693560605747400000, 964083579062224860220000, 4107095577780862385100);
  (107634727377169392430000, 8928281693560609078000000, 4107095577780862385100);
  (8928281693560606857600000, 107634727377168594450000, 4107095577780862385100);
  (964083579062224860220000, 8928281693560609078000000, 4107095577780862385100);
  (107634727377166131150000, 964083579062228052110000, 4107095577780862385100);
  (1003380079665995849900000, 267977697259694711000000, 6665615373909821676100);
  (8728642223074308814600000, 1003380079665995711100000, 6665615373909821676100);
  (267977697259695890610000, 8728642223074309924900000, 6665615373909821676100);
  (8728642223074309924900000, 267977697259694711000000, 6665615373909821676100);
  (1003380079665996405000000, 8728642223074309924900000, 6665615373909821676100);
  (267977697259692282380000, 1003380079665999180500000, 6665615373909821676100);
  (2894378430839789073700000, 1999016566395392935400000, 23363011519203407199000);
  (5106605002764817991000000, 2894378430839789628800000, 23363011519203407199000);
  (1999016566395392935400000, 5106605002764819101200000, 23363011519203407199000);
  (5106605002764817991000000, 1999016566395392935400000, 23363011519203407199000);
  (2894378430839789073700000, 5106605002764819101200000, 23363011519203407199000);
  (1999016566395391547600000, 2894378430839790739000000, 23363011519203407199000);
  (4595867718244118771400000, 808264563511763012290000, 17913556055310531512000);
  (4595867718244118771400000, 4595867718244119326500000, 17913556055310531512000);
  (808264563511762179630000, 4595867718244120436700000, 17913556055310531512000);
  (1786164539550919028200000, 96597928476049692292000, 5236746221755124051600);
  (8117237531973030551000000, 1786164539550919028200000, 5236746221755124051600);
  (96597928476050420876000, 8117237531973032771400000, 5236746221755124051600);
  (8117237531973031661200000, 96597928476049692292000, 5236746221755124051600);
  (1786164539550919028200000, 8117237531973032771400000, 5236746221755124051600);
  (96597928476047506541000, 1786164539550922081300000, 5236746221755124051600);
  (1133332341350742483700000, 1133332341350745398100000, 13897994002223313433000);
  (7733335317298510869200000, 1133332341350742761300000, 13897994002223313433000);
  (1133332341350745675600000, 7733335317298513089700000, 13897994002223313433000);
  (2861539226312519446100000, 436162890256223956250000, 12785064104470678266000);
  (6702297883431256320100000, 2861539226312520001200000, 12785064104470678266000);
  (436162890256224788920000, 6702297883431257430300000, 12785064104470678266000);
  (6702297883431256320100000, 436162890256223956250000, 12785064104470678266000);
  (2861539226312520556300000, 6702297883431256320100000, 12785064104470678266000);
  (436162890256222013360000, 2861539226312522776800000, 12785064104470678266000);
  (2293288959608979216100000, 96337955497693660012000, 5768829640657227846700);
  (7610373084893327089200000, 2293288959608979216100000, 5768829640657227846700);
  (96337955497693972262000, 7610373084893329309600000, 5768829640657227846700);
  (7610373084893327089200000, 96337955497693660012000, 5768829640657227846700);
  (2293288959608978938600000, 7610373084893329309600000, 5768829640657227846700);
  (96337955497691751816000, 2293288959608982269200000, 5768829640657227846700);
  (3542128961664715580700000, 1164570021517526005100000, 21118787915445271647000);
  (5293301016817758553000000, 3542128961664716690900000, 21118787915445271647000);
  (1164570021517525311200000, 5293301016817760773500000, 21118787915445271647000);
  (5293301016817758553000000, 1164570021517526005100000, 21118787915445271647000);
  (3542128961664715580700000, 5293301016817759663300000, 21118787915445271647000);
  (1164570021517524478500000, 3542128961664718356200000, 21118787915445271647000);
  (3449444915449853543700000, 94768771491044508787000, 6687087572515483134200);
  (6455786313059101999600000, 3449444915449854098800000, 6687087572515483134200);
  (94768771491044456745000, 6455786313059104220000000, 6687087572515483134200);
  (6455786313059100889300000, 94768771491044508787000, 6687087572515483134200);
  (3449444915449854098800000, 6455786313059101999600000, 6687087572515483134200);
  (94768771491043068966000, 3449444915449856874400000, 6687087572515483134200);
  (4316732308235538551100000, 279666162959972923460000, 11907116522871035672000);
  (5403601528804488074400000, 4316732308235539661300000, 11907116522871035672000);
  (279666162959971709160000, 5403601528804491405100000, 11907116522871035672000);
  (5403601528804488074400000, 279666162959972923460000, 11907116522871035672000);
  (4316732308235539106200000, 5403601528804489184700000, 11907116522871035672000);
  (279666162959971709160000, 4316732308235541326600000, 11907116522871035672000);
  (2207972237518396052500000, 1472658441967969467100000, 21414262260095202201000);
  (6319369320513634757900000, 2207972237518396607700000, 21414262260095202201000);
  (1472658441967969467100000, 6319369320513635868200000, 21414262260095202201000);
  (6319369320513634757900000, 1472658441967969467100000, 21414262260095202201000);
  (2207972237518396885200000, 6319369320513635868200000, 21414262260095202201000);
  (1472658441967967246600000, 2207972237518398273000000, 21414262260095202201000);
  (109390130646629217540000, 109390130646631958400000, 1499760934574033443600);
  (9781219738706737887300000, 109390130646628749160000, 1499760934574033443600);
  (109390130646633831900000, 9781219738706741218000000, 1499760934574033443600);
  (1531728350976843122700000, 18705669110342494979000, 2203469792688208530500);
  (8449565979912814217600000, 1531728350976843122700000, 2203469792688208530500);
  (18705669110343214889000, 8449565979912816438000000, 2203469792688208530500);
  (8449565979912815327800000, 18705669110342494979000, 2203469792688208530500);
  (1531728350976843122700000, 8449565979912816438000000, 2203469792688208530500);
  (18705669110340022998000, 1531728350976846175800000, 2203469792688208530500);
  (786463619513996653470000, 786463619513999845360000, 10339358335398870017000);
  (8427072760972003084800000, 786463619513997069800000, 10339358335398870017000);
  (786463619513999567800000, 8427072760972005305300000, 10339358335398870017000);
  (91986167658109178891000, 20671401785266950261000, 578226288753999189420);
  (9887342430556622652200000, 91986167658108242140000, 578226288753999189420);
  (20671401785268828100000, 9887342430556625982900000, 578226288753999189420);
  (9887342430556623762400000, 20671401785266950261000, 578226288753999189420);
  (91986167658109629919000, 9887342430556625982900000, 578226288753999189420);
  (20671401785264222409000, 91986167658112735074000, 578226288753999189420);
  (235452342574103377910000, 20063808420237683010000, 912125509019910923720);
  (9744483849005658449000000, 235452342574102892190000, 912125509019910923720);
  (20063808420239248598000, 9744483849005660669500000, 912125509019910923720);
  (9744483849005658449000000, 20063808420237683010000, 912125509019910923720);
  (235452342574103967720000, 9744483849005660669500000, 912125509019910923720);
  (20063808420234773011000, 235452342574107367780000, 912125509019910923720);
  (3457284797184661528900000, 1965919922795323904200000, 25675579236343845126000);
  (4576795280020014566900000, 3457284797184662084000000, 25675579236343845126000);
  (1965919922795323071500000, 4576795280020015677100000, 25675579236343845126000);
  (4576795280020014566900000, 1965919922795323904200000, 25675579236343845126000);
  (3457284797184662084000000, 4576795280020015677100000, 25675579236343845126000);
  (1965919922795322516400000, 3457284797184663749400000, 25675579236343845126000);
  (2501693088121573205200000, 1074788661022306607300000, 19525278550773259110000);
  (6423518250856120603800000, 2501693088121573205200000, 19525278550773259110000);
  (1074788661022306746100000, 6423518250856121714100000, 19525278550773259110000);
  (6423518250856120603800000, 1074788661022306607300000, 19525278550773259110000);
  (2501693088121574315400000, 6423518250856120603800000, 19525278550773259110000);
  (1074788661022305358300000, 2501693088121575425700000, 19525278550773259110000);
  (2555498626016329266600000, 18618093532656791560000, 2641087799169534880800);
  (7425883280451013313000000, 2555498626016329266600000, 2641087799169534880800);
  (18618093532657420397000, 7425883280451015533400000, 2641087799169534880800);
  (7425883280451014423200000, 18618093532656791560000, 2641087799169534880800);
  (2555498626016329266600000, 7425883280451015533400000, 2641087799169534880800);
  (18618093532654922395000, 2555498626016332042200000, 2641087799169534880800);
  (1032934352626249940900000, 502072925915596976480000, 9495317379235290169600);
  (8464992721458153290800000, 1032934352626250079600000, 9495317379235290169600);
  (502072925915597600980000, 8464992721458154401000000, 9495317379235290169600);
  (8464992721458153290800000, 502072925915596976480000, 9495317379235290169600);
  (1032934352626250773500000, 8464992721458154401000000, 9495317379235290169600);
  (502072925915594756030000, 1032934352626253687900000, 9495317379235290169600);
  (1702588823641313364700000, 1702588823641315585200000, 20138554942591554639000);
  (6594822352717371050100000, 1702588823641313919800000, 20138554942591554639000);
  (1702588823641316140300000, 6594822352717372160300000, 20138554942591554639000);
  (1134827791905402005800000, 790987667568746055660000, 11670296560818487711000);
  (8074184540525851661000000, 1134827791905402144500000, 11670296560818487711000);
  (790987667568747165880000, 8074184540525852771300000, 11670296560818487711000);
  (8074184540525852771300000, 790987667568746055660000, 11670296560818487711000);
  (1134827791905402838400000, 8074184540525852771300000, 11670296560818487711000);
  (790987667568743835210000, 1134827791905404920100000, 11670296560818487711000);
  (2020015191395728437800000, 18288696800151126899000, 2413353389898448405800);
  (7961696111804120734600000, 2020015191395728437800000, 2413353389898448405800);
  (18288696800152215438000, 7961696111804120734600000, 2413353389898448405800);
  (7961696111804120734600000, 18288696800151126899000, 2413353389898448405800);
  (2020015191395729270400000, 7961696111804120734600000, 2413353389898448405800);
  (18288696800149439881000, 2020015191395730935800000, 2413353389898448405800);
  (1996334593368171150800000, 1996334593368173648800000, 22853369445630898615000);
  (6007330813263654922800000, 1996334593368171983500000, 22853369445630898615000);
  (1996334593368173093700000, 6007330813263656033000000, 22853369445630898615000);
  (1554072933416661417300000, 974984606749395160690000, 16245097246606987444000);
  (7470942459833943560800000, 1554072933416661972400000, 16245097246606987444000);
  (974984606749395577020000, 7470942459833944671000000, 16245097246606987444000);
  (7470942459833943560800000, 974984606749395160690000, 16245097246606987444000);
  (1554072933416662527500000, 7470942459833944671000000, 16245097246606987444000);
  (974984606749393079020000, 1554072933416664192800000, 16245097246606987444000);
  (2837331258499087849300000, 102710427379365670800000, 6598834583838261193300);
  (7059958314121547173800000, 2837331258499087849300000, 6598834583838261193300);
  (102710427379365532020000, 7059958314121549394200000, 6598834583838261193300);
  (7059958314121546063500000, 102710427379365670800000, 6598834583838261193300);
  (2837331258499087294200000, 7059958314121548284000000, 6598834583838261193300);
  (102710427379363866680000, 2837331258499090624900000, 6598834583838261193300);
  (4006689325488300146300000, 1986621349023399707400000, 25826779637269365979000);
  (4006689325488299591200000, 4006689325488301256500000, 25826779637269365979000);
  (1986621349023398597200000, 4006689325488301811600000, 25826779637269365979000);
  (1406138740563841471600000, 1406138740563843969600000, 17426316767263280976000);
  (7187722518872314836400000, 1406138740563842026700000, 17426316767263280976000);
  (1406138740563844247200000, 7187722518872315946600000, 17426316767263280976000);
  (1101376107119610980900000, 19450667745236705289000, 1983646305222064678600);
  (8879173225135151836800000, 1101376107119610703300000, 1983646305222064678600);
  (19450667745238292561000, 8879173225135152947000000, 1983646305222064678600);
  (8879173225135151836800000, 19450667745236705289000, 1983646305222064678600);
  (1101376107119611536000000, 8879173225135152947000000, 1983646305222064678600);
  (19450667745234198613000, 1101376107119614172800000, 1983646305222064678600);
  (3511903644454155148900000, 2976192711091689702100000, 29284072269592262110000);
  (3511903644454155148900000, 3511903644454156814300000, 29284072269592262110000);
  (2976192711091688591900000, 3511903644454156814300000, 29284072269592262110000);
  (422503625151379735850000, 422503625151382580790000, 5994743919192241929700);
  (9154992749697237197600000, 422503625151379388900000, 5994743919192241929700);
  (422503625151383621630000, 9154992749697239418100000, 5994743919192241929700);
  (3116269863962923825100000, 20127149292621213279000, 2927967205105672316200);
  (6863602986744454792500000, 3116269863962923825100000, 2927967205105672316200);
  (20127149292621937526000, 6863602986744455902700000, 2927967205105672316200);
  (6863602986744454792500000, 20127149292621213279000, 2927967205105672316200);
  (3116269863962924380200000, 6863602986744455902700000, 2927967205105672316200);
  (20127149292620272192000, 3116269863962926045500000, 2927967205105672316200);
  (4986838983120579493800000, 26322033758841506881000, 3746610270526053100700);
  (4986838983120579493800000, 4986838983120580048900000, 3746610270526053100700);
  (26322033758840457374000, 4986838983120581714200000, 3746610270526053100700);
  (4560656275499565537300000, 98798242146206152747000, 7003874423755923357000);
  (5340545482354228656900000, 4560656275499566647500000, 7003874423755923357000);
  (98798242146205250691000, 5340545482354230877300000, 7003874423755923357000);
  (5340545482354228656900000, 98798242146206152747000, 7003874423755923357000);
  (4560656275499565537300000, 5340545482354229767100000, 7003874423755923357000);
  (98798242146205528247000, 4560656275499567757800000, 7003874423755923357000);
  (2964798675129708960300000, 2964798675129710625600000, 28868194517961544114000);
  (4070402649740580969300000, 2964798675129710070500000, 28868194517961544114000);
  (2964798675129709515400000, 4070402649740581524400000, 28868194517961544114000);
  (740590746798509141910000, 22261525470100560799000, 1852527744070860723600);
  (9237147727731390700600000, 740590746798509141910000, 1852527744070860723600);
  (22261525470101961588000, 9237147727731390700600000, 1852527744070860723600);
  (9237147727731390700600000, 22261525470100560799000, 1852527744070860723600);
  (740590746798510113360000, 9237147727731390700600000, 1852527744070860723600);
  (22261525470098145196000, 740590746798512750140000, 1852527744070860723600)].
