(** Points and weights of lib/lf/quad/quad_rules_tria.cc, rules 1 to 25: for every
    column (points(0, i), points(1, i), weights(i)) times 10^25.  The decimal literals
    are taken exactly as written; their rounding to double is not modelled. *)
From Coq Require Import List ZArith.
Import ListNotations.
Local Open Scope Z_scope.

(** quad_rules_tria.cc:22-32 *)
Definition tab_1 : list (Z * Z * Z) := [
  (3333333333333332593200000, 3333333333333334258500000, 5000000000000000000000000)].

(** quad_rules_tria.cc:35-51 *)
Definition tab_2 : list (Z * Z * Z) := [
  (1666666666666666019000000, 1666666666666667961900000, 1666666666666666574100000);
  (6666666666666665186400000, 1666666666666666574100000, 1666666666666666574100000);
  (1666666666666668517000000, 6666666666666667406800000, 1666666666666666574100000)].

(** quad_rules_tria.cc:54-79 *)
Definition tab_4 : list (Z * Z * Z) := [
  (4459484909159648347000000, 1081030181680702889600000, 1116907948390057497800000);
  (4459484909159648902100000, 4459484909159649457200000, 1116907948390057497800000);
  (1081030181680701918200000, 4459484909159650567500000, 1116907948390057497800000);
  (915762135097706597710000, 915762135097709095710000, 549758718276609423260000);
  (8168475729804584029000000, 915762135097707152820000, 549758718276609423260000);
  (915762135097709650820000, 8168475729804585139200000, 549758718276609423260000)].

(** quad_rules_tria.cc:82-110 *)
Definition tab_5 : list (Z * Z * Z) := [
  (1012865073234562596200000, 1012865073234564955400000, 629695902724135836430000);
  (7974269853530872032000000, 1012865073234562457400000, 629695902724135836430000);
  (1012865073234565094200000, 7974269853530874252500000, 629695902724135836430000);
  (4701420641051150539600000, 597158717897698851360000, 661970763942530959770000);
  (4701420641051150539600000, 4701420641051151094700000, 661970763942530959770000);
  (597158717897697810530000, 4701420641051152760100000, 661970763942530959770000);
  (3333333333333332593200000, 3333333333333334258500000, 1125000000000000166500000)].

(** quad_rules_tria.cc:113-156 *)
Definition tab_6 : list (Z * Z * Z) := [
  (2194299825497829092800000, 2194299825497831035700000, 856665620764904961470000);
  (5611400349004339593900000, 2194299825497829648000000, 856665620764904961470000);
  (2194299825497830203100000, 5611400349004341814300000, 856665620764904961470000);
  (4801379641122150432300000, 397240717755699621060000, 403655447965154817740000);
  (4801379641122150987400000, 4801379641122150432300000, 403655447965154817740000);
  (397240717755698857780000, 4801379641122152652800000, 403655447965154817740000);
  (1416190159239681389800000, 193717243612408114570000, 203172798968303258690000);
  (8390092597147910114000000, 1416190159239681112300000, 203172798968303258690000);
  (193717243612409606430000, 8390092597147911224200000, 203172798968303258690000);
  (8390092597147911224200000, 193717243612408114570000, 203172798968303258690000);
  (1416190159239681389800000, 8390092597147912334400000, 203172798968303258690000);
  (193717243612405581880000, 1416190159239684442900000, 203172798968303258690000)].

(** quad_rules_tria.cc:159-211 *)
Definition tab_7 : list (Z * Z * Z) := [
  (4731956536892510389900000, 536086926214979359040000, 265904166483802266440000);
  (4731956536892510389900000, 4731956536892510945000000, 265904166483802266440000);
  (536086926214978110040000, 4731956536892513165400000, 265904166483802266440000);
  (577976400545063204170000, 577976400545066187900000, 204590851970284336170000);
  (8844047198909870122200000, 577976400545063342950000, 204590851970284336170000);
  (577976400545066049120000, 8844047198909872342700000, 204590851970284336170000);
  (2593390118657856735500000, 469712061300855548970000, 278772702703455436960000);
  (6936897820041287854300000, 2593390118657856735500000, 278772702703455436960000);
  (469712061300855965310000, 6936897820041288964500000, 278772702703455436960000);
  (6936897820041287854300000, 469712061300855548970000, 278772702703455436960000);
  (2593390118657857290600000, 6936897820041288964500000, 278772702703455436960000);
  (469712061300854299970000, 2593390118657858955900000, 278772702703455436960000);
  (2416636063972473491600000, 2416636063972475434400000, 638626242805669236400000);
  (5166727872055051351600000, 2416636063972474046700000, 638626242805669236400000);
  (2416636063972474879300000, 5166727872055052461800000, 638626242805669236400000)].

(** quad_rules_tria.cc:214-269 *)
Definition tab_8 : list (Z * Z * Z) := [
  (1705693077517601019500000, 1705693077517603517500000, 516086852673591223170000);
  (6588613844964794630200000, 1705693077517601852200000, 516086852673591223170000);
  (1705693077517604350200000, 6588613844964795740500000, 516086852673591223170000);
  (4592925882927231251400000, 814148234145537358360000, 475458171336423096600000);
  (4592925882927231251400000, 4592925882927231806500000, 475458171336423096600000);
  (814148234145536664470000, 4592925882927232916800000, 475458171336423096600000);
  (3333333333333332593200000, 3333333333333334258500000, 721578038388935860680000);
  (505472283170308595010000, 505472283170311578740000, 162292488115990396480000);
  (8989055433659378646600000, 505472283170308733790000, 162292488115990396480000);
  (505472283170312897130000, 8989055433659380867100000, 162292488115990396480000);
  (2631128296346380568400000, 83947774099576780160000, 136151570872174963730000);
  (7284923929554042443300000, 2631128296346380568400000, 136151570872174963730000);
  (83947774099576988327000, 7284923929554044663700000, 136151570872174963730000);
  (7284923929554042443300000, 83947774099576780160000, 136151570872174963730000);
  (2631128296346381123500000, 7284923929554043553500000, 136151570872174963730000);
  (83947774099575322992000, 2631128296346383344000000, 136151570872174963730000)].

(** quad_rules_tria.cc:272-336 *)
Definition tab_9 : list (Z * Z * Z) := [
  (4896825191987376202400000, 206349616025247838140000, 156673501135695392160000);
  (4896825191987376202400000, 4896825191987377312600000, 156673501135695392160000);
  (206349616025247040160000, 4896825191987378422800000, 156673501135695392160000);
  (3333333333333332593200000, 3333333333333334258500000, 485678981413994251270000);
  (1882035356190326358400000, 1882035356190328856400000, 398238694636051382410000);
  (6235929287619343952500000, 1882035356190327191100000, 398238694636051382410000);
  (1882035356190329134000000, 6235929287619346173000000, 398238694636051382410000);
  (2219629891607657057300000, 368384120547363136390000, 216417696886446880860000);
  (7411985987844980083800000, 2219629891607657334900000, 216417696886446880860000);
  (368384120547363691500000, 7411985987844981194100000, 216417696886446880860000);
  (7411985987844980083800000, 368384120547363136390000, 216417696886446880860000);
  (2219629891607657890000000, 7411985987844981194100000, 216417696886446880860000);
  (368384120547361332280000, 2219629891607659832900000, 216417696886446880860000);
  (4370895914929365799800000, 1258208170141267845400000, 389137705023871391390000);
  (4370895914929365799800000, 4370895914929366910000000, 389137705023871391390000);
  (1258208170141266735200000, 4370895914929368020200000, 389137705023871391390000);
  (447295133944525663550000, 447295133944528786050000, 127888378293490173610000);
  (9105409732110945064700000, 447295133944525316600000, 127888378293490173610000);
  (447295133944530243220000, 9105409732110946174900000, 127888378293490173610000)].

(** quad_rules_tria.cc:339-421 *)
Definition tab_10 : list (Z * Z * Z) := [
  (4951734598011704457900000, 96530803976590546372000, 48962952492091517398000);
  (4951734598011704457900000, 4951734598011705568200000, 48962952492091517398000);
  (96530803976589696358000, 4951734598011707233500000, 48962952492091517398000);
  (191394152428411012950000, 191394152428414100750000, 31926796150593276039000);
  (9617211695143175198600000, 191394152428410908860000, 31926796150593276039000);
  (191394152428415731390000, 9617211695143175198600000, 31926796150593276039000);
  (1337347551008691293200000, 347236204823274940970000, 144811407316281712250000);
  (8315416244168033488300000, 1337347551008691293200000, 144811407316281712250000);
  (347236204823274663410000, 8315416244168036819000000, 144811407316281712250000);
  (8315416244168033488300000, 347236204823274940970000, 144811407316281712250000);
  (1337347551008691848300000, 8315416244168034598500000, 144811407316281712250000);
  (347236204823272859300000, 1337347551008694346300000, 144811407316281712250000);
  (3333333333333332593200000, 3333333333333334258500000, 418074371869869634840000);
  (3266931362813368933100000, 375827273411917031630000, 193695245430094524500000);
  (6357241363774714937300000, 3266931362813368933100000, 193695245430094524500000);
  (375827273411917239800000, 6357241363774714937300000, 193695245430094524500000);
  (6357241363774713827100000, 375827273411917031630000, 193695245430094524500000);
  (3266931362813368933100000, 6357241363774714937300000, 193695245430094524500000);
  (375827273411915852020000, 3266931362813371708700000, 193695245430094524500000);
  (1844850126852464189400000, 1844850126852466409800000, 393168848731886427790000);
  (6310299746295069400800000, 1844850126852464744500000, 393168848731886427790000);
  (1844850126852466409800000, 6310299746295071621200000, 393168848731886427790000);
  (4282348209437188413200000, 1435303581125623451100000, 376236639842719988720000);
  (4282348209437188413200000, 4282348209437188968400000, 376236639842719988720000);
  (1435303581125622618400000, 4282348209437190078600000, 376236639842719988720000)].

(** quad_rules_tria.cc:424-515 *)
Definition tab_11 : list (Z * Z * Z) := [
  (308468956355878905220000, 308468956355881993030000, 61246484753539817691000);
  (9383062087288238650700000, 308468956355878801130000, 61246484753539817691000);
  (308468956355882895080000, 9383062087288240871200000, 61246484753539817691000);
  (4987801651784607437400000, 24396696430785042888000, 62327459369406913031000);
  (4987801651784607437400000, 4987801651784607992500000, 62327459369406913031000);
  (24396696430784292620000, 4987801651784609657800000, 62327459369406913031000);
  (1593036198376934775600000, 143666625695556288840000, 72788116689046240132000);
  (8263297175927508675400000, 1593036198376935053100000, 72788116689046240132000);
  (143666625695556549050000, 8263297175927510895800000, 72788116689046240132000);
  (8263297175927508675400000, 143666625695556288840000, 72788116689046240132000);
  (1593036198376934775600000, 8263297175927510895800000, 72788116689046240132000);
  (143666625695553773490000, 1593036198376938106200000, 72788116689046240132000);
  (3333333333333332593200000, 3333333333333334258500000, 407225673546756442020000);
  (1132078272866938739600000, 1132078272866941098800000, 200646211906541568900000);
  (7735843454266120300400000, 1132078272866938600800000, 200646211906541568900000);
  (1132078272866940960000000, 7735843454266122520800000, 200646211906541568900000);
  (4366550163931760542000000, 1266899672136478360900000, 315474360799493439010000);
  (4366550163931760542000000, 4366550163931761097100000, 315474360799493439010000);
  (1266899672136477250600000, 4366550163931762762500000, 315474360799493439010000);
  (2144834586192692627000000, 2144834586192694292400000, 339225538718475744250000);
  (5710330827614612525500000, 2144834586192693459700000, 339225538718475744250000);
  (2144834586192693737200000, 5710330827614614746000000, 339225538718475744250000);
  (3106312163134631321200000, 476640669721508022930000, 203214243279432361930000);
  (6417047167143861141600000, 3106312163134631321200000, 203214243279432361930000);
  (476640669721507537200000, 6417047167143863362100000, 203214243279432361930000);
  (6417047167143860031400000, 476640669721508022930000, 203214243279432361930000);
  (3106312163134631321200000, 6417047167143861141600000, 203214243279432361930000);
  (476640669721506704540000, 3106312163134634096700000, 203214243279432361930000)].

(** quad_rules_tria.cc:518-624 *)
Definition tab_12 : list (Z * Z * Z) := [
  (2714625070149260244200000, 2714625070149261909500000, 312706065979513683770000);
  (4570749859701477291200000, 2714625070149261354400000, 312706065979513683770000);
  (2714625070149261354400000, 4570749859701478956500000, 312706065979513683770000);
  (1092578276593541980500000, 1092578276593544617200000, 142430260344387667190000);
  (7814843446812912430800000, 1092578276593542396800000, 142430260344387667190000);
  (1092578276593544894800000, 7814843446812914651300000, 142430260344387667190000);
  (4401116486585930909200000, 1197767026828138459100000, 249591674640304642120000);
  (4401116486585930909200000, 4401116486585931464300000, 249591674640304642120000);
  (1197767026828137904000000, 4401116486585932574500000, 249591674640304642120000);
  (2554542286385173000000000, 1162960196779266458500000, 216136818297070938680000);
  (6282497516835561235400000, 2554542286385173555100000, 216136818297070938680000);
  (1162960196779266319700000, 6282497516835562345600000, 216136818297070938680000);
  (6282497516835561235400000, 1162960196779266458500000, 216136818297070938680000);
  (2554542286385173555100000, 6282497516835562345600000, 216136818297070938680000);
  (1162960196779264932000000, 2554542286385175775500000, 216136818297070938680000);
  (1272797172335893567400000, 213824902561706338410000, 75418387882557171367000);
  (8513377925102399990100000, 1272797172335893289800000, 75418387882557171367000);
  (213824902561707275160000, 8513377925102402210600000, 75418387882557171367000);
  (8513377925102399990100000, 213824902561706338410000, 75418387882557171367000);
  (1272797172335893845000000, 8513377925102402210600000, 75418387882557171367000);
  (213824902561703944490000, 1272797172335896620500000, 75418387882557171367000);
  (2916556797383409449500000, 230341563552671768630000, 108917925193037726930000);
  (6853101639063918781900000, 2916556797383410004600000, 108917925193037726930000);
  (230341563552671768630000, 6853101639063921002300000, 108917925193037726930000);
  (6853101639063918781900000, 230341563552671768630000, 108917925193037726930000);
  (2916556797383410004600000, 6853101639063919892100000, 108917925193037726930000);
  (230341563552670380850000, 2916556797383412225100000, 108917925193037726930000);
  (4882037509455415258400000, 235924981089169136240000, 121334190407260122950000);
  (4882037509455414703300000, 4882037509455416368600000, 121334190407260122950000);
  (235924981089168650520000, 4882037509455417478900000, 121334190407260122950000);
  (246463634363354618110000, 246463634363357705910000, 39658212549868177010000);
  (9507072731273287225000000, 246463634363354514020000, 39658212549868177010000);
  (246463634363359163080000, 9507072731273288335200000, 39658212549868177010000)].

(** quad_rules_tria.cc:627-745 *)
Definition tab_13 : list (Z * Z * Z) := [
  (4961358947410460795700000, 77282105179078816257000, 49707381805362930993000);
  (4961358947410460240600000, 4961358947410461350800000, 49707381805362930993000);
  (77282105179078408597000, 4961358947410462461000000, 49707381805362930993000);
  (4696086896534918953000000, 607826206930162371570000, 163906208018614815700000);
  (4696086896534918397900000, 4696086896534920063200000, 163906208018614815700000);
  (607826206930161538900000, 4696086896534921173400000, 163906208018614815700000);
  (2311102849490822008800000, 2311102849490823674100000, 230312047963891174120000);
  (5377794301018354872200000, 2311102849490822563900000, 230312047963891174120000);
  (2311102849490823119000000, 5377794301018355982400000, 230312047963891174120000);
  (2920786885766363805100000, 189880043837590481440000, 90627493231004389168000);
  (6889333070396045366500000, 2920786885766364360300000, 90627493231004389168000);
  (189880043837590828380000, 6889333070396047586900000, 90627493231004389168000);
  (6889333070396045366500000, 189880043837590481440000, 90627493231004389168000);
  (2920786885766364360300000, 6889333070396046476700000, 90627493231004389168000);
  (189880043837588885490000, 2920786885766367135800000, 90627493231004389168000);
  (3333333333333332593200000, 3333333333333334258500000, 258113233321454020600000);
  (2667452533103511491700000, 977360310660165543250000, 186059802286307612860000);
  (6355187156236323797700000, 2667452533103512046800000, 186059802286307612860000);
  (977360310660164710580000, 6355187156236326018200000, 186059802286307612860000);
  (6355187156236322687500000, 977360310660165543250000, 186059802286307612860000);
  (2667452533103513157000000, 6355187156236322687500000, 186059802286307612860000);
  (977360310660163877920000, 2667452533103514267200000, 186059802286307612860000);
  (4144775702790545191000000, 1710448594418909062900000, 234735477710775880530000);
  (4144775702790545191000000, 4144775702790546301200000, 234735477710775880530000);
  (1710448594418908230300000, 4144775702790546856300000, 234735477710775880530000);
  (1135599125721330759900000, 1135599125721333257900000, 154515489878798931850000);
  (7728801748557335704600000, 1135599125721330759900000, 154515489878798931850000);
  (1135599125721333813000000, 7728801748557336814800000, 154515489878798931850000);
  (1267997757838373040800000, 219663442065292507930000, 76965363418910861040000);
  (8512338800096334035000000, 1267997757838372763200000, 76965363418910861040000);
  (219663442065294312040000, 8512338800096335145200000, 76965363418910861040000);
  (8512338800096334035000000, 219663442065292507930000, 76965363418910861040000);
  (1267997757838373873400000, 8512338800096335145200000, 76965363418910861040000);
  (219663442065290148710000, 1267997757838376649000000, 76965363418910861040000);
  (248959314912162443800000, 248959314912165496910000, 40146998976292097225000);
  (9502081370175671226600000, 248959314912162305020000, 40146998976292097225000);
  (248959314912166607140000, 9502081370175673447100000, 40146998976292097225000)].

(** quad_rules_tria.cc:748-881 *)
Definition tab_14 : list (Z * Z * Z) := [
  (4176447193404538849000000, 1647105613190922024400000, 163941767720626845050000);
  (4176447193404538849000000, 4176447193404540514400000, 163941767720626845050000);
  (1647105613190920636600000, 4176447193404541069500000, 163941767720626845050000);
  (2983728821362576777400000, 146469500556544764140000, 72181540567669236902000);
  (6869801678080877938000000, 2983728821362577887700000, 72181540567669236902000);
  (146469500556545284550000, 6869801678080880158500000, 72181540567669236902000);
  (6869801678080877938000000, 146469500556544764140000, 72181540567669236902000);
  (2983728821362576777400000, 6869801678080880158500000, 72181540567669236902000);
  (146469500556543064110000, 2983728821362580108100000, 72181540567669236902000);
  (617998830908724830490000, 617998830908727952990000, 72168498348883372909000);
  (8764002338182547147100000, 617998830908724414160000, 72168498348883372909000);
  (617998830908729201990000, 8764002338182548257400000, 72168498348883372909000);
  (3368614597963450196800000, 929162493569718889170000, 192857553935303488450000);
  (5702222908466830775300000, 3368614597963450751900000, 192857553935303488450000);
  (929162493569718472840000, 5702222908466832995700000, 192857553935303488450000);
  (5702222908466830775300000, 929162493569718889170000, 192857553935303488450000);
  (3368614597963450196800000, 5702222908466832995700000, 192857553935303488450000);
  (929162493569717917730000, 3368614597963451862100000, 192857553935303488450000);
  (2734775283088385911000000, 2734775283088387576300000, 258870522536458064210000);
  (4530449433823227067800000, 2734775283088387021200000, 258870522536458064210000);
  (2734775283088387576300000, 4530449433823227622900000, 258870522536458064210000);
  (1772055324125433872800000, 1772055324125435815700000, 210812943684965219130000);
  (6455889351749130034000000, 1772055324125434150300000, 210812943684965219130000);
  (1772055324125436648300000, 6455889351749131144200000, 210812943684965219130000);
  (193909612487008810310000, 193909612487012036900000, 24617018012000422417000);
  (9612180775025979118100000, 193909612487008810310000, 24617018012000422417000);
  (193909612487013771620000, 9612180775025979118100000, 24617018012000422417000);
  (4889639103621786220300000, 220721792756427871720000, 109417906847144516540000);
  (4889639103621786775400000, 4889639103621786220300000, 109417906847144516540000);
  (220721792756427281910000, 4889639103621788440700000, 109417906847144516540000);
  (1722666878213555408100000, 571247574036480090800000, 123328766062818454690000);
  (7706085547749963460300000, 1722666878213555685700000, 123328766062818454690000);
  (571247574036480298960000, 7706085547749966790900000, 123328766062818454690000);
  (7706085547749964570500000, 571247574036480090800000, 123328766062818454690000);
  (1722666878213555685700000, 7706085547749965680700000, 123328766062818454690000);
  (571247574036478356070000, 1722666878213558461200000, 123328766062818454690000);
  (1189744976969568240900000, 12683309328720767002000, 25051144192503372633000);
  (8797571713701710649500000, 1189744976969568379700000, 25051144192503372633000);
  (12683309328722081055000, 8797571713701711759700000, 25051144192503372633000);
  (8797571713701711759700000, 12683309328720767002000, 25051144192503372633000);
  (1189744976969569489900000, 8797571713701711759700000, 25051144192503372633000);
  (12683309328719027942000, 1189744976969571710300000, 25051144192503372633000)].

(** quad_rules_tria.cc:884-1038 *)
Definition tab_15 : list (Z * Z * Z) := [
  (1299782299330777546300000, 1299782299330780044300000, 36987520335230493831000);
  (7400435401338442131800000, 1299782299330777823900000, 36987520335230493831000);
  (1299782299330779489200000, 7400435401338445462500000, 36987520335230493831000);
  (3333333333333332593200000, 3333333333333334258500000, 148652098740356588410000);
  (4600769492970596674700000, 798461014058806095580000, 107970439682192245050000);
  (4600769492970596674700000, 4600769492970597784900000, 107970439682192245050000);
  (798461014058805262920000, 4600769492970599450200000, 107970439682192245050000);
  (1823217834071912957200000, 845942214821918392340000, 121150043915628034120000);
  (7330839951106168372900000, 1823217834071913234800000, 121150043915628034120000);
  (845942214821919225010000, 7330839951106169483100000, 121150043915628034120000);
  (7330839951106169483100000, 845942214821918392340000, 121150043915628034120000);
  (1823217834071913512300000, 7330839951106170593300000, 121150043915628034120000);
  (845942214821915616780000, 1823217834071915732800000, 121150043915628034120000);
  (1502003840652387234300000, 160270897863454761520000, 56142521494390289910000);
  (8337725261484156824600000, 1502003840652387234300000, 56142521494390289910000);
  (160270897863455941130000, 8337725261484159045000000, 56142521494390289910000);
  (8337725261484157934800000, 160270897863454761520000, 56142521494390289910000);
  (1502003840652388344500000, 8337725261484159045000000, 56142521494390289910000);
  (160270897863452610470000, 1502003840652390565000000, 56142521494390289910000);
  (3231113151637126645900000, 976504424302423873480000, 155376102352554733980000);
  (5792382424060449341900000, 3231113151637127201000000, 155376102352554733980000);
  (976504424302423457150000, 5792382424060451562300000, 155376102352554733980000);
  (5792382424060449341900000, 976504424302423873480000, 155376102352554733980000);
  (3231113151637126645900000, 5792382424060450452100000, 155376102352554733980000);
  (976504424302422624480000, 3231113151637128866300000, 155376102352554733980000);
  (4916858166302972010800000, 166283667394055909020000, 79161381750108977817000);
  (4916858166302972010800000, 4916858166302972565900000, 79161381750108977817000);
  (166283667394055145740000, 4916858166302974786400000, 79161381750108977817000);
  (2215323407951419187900000, 2215323407951421130800000, 231436430525990381730000);
  (5569353184097159958900000, 2215323407951420020500000, 231436430525990381730000);
  (2215323407951420575700000, 5569353184097161069100000, 231436430525990381730000);
  (3969337374090605719000000, 2061325251818789117100000, 231680206956036138790000);
  (3969337374090605719000000, 3969337374090606274100000, 231680206956036138790000);
  (2061325251818787729400000, 3969337374090607384300000, 231680206956036138790000);
  (3079476814836729081600000, 184542519046331753020000, 82183810464139459007000);
  (6735980666116938575500000, 3079476814836729081600000, 82183810464139459007000);
  (184542519046331787710000, 6735980666116941906200000, 82183810464139459007000);
  (6735980666116939685800000, 184542519046331753020000, 82183810464139459007000);
  (3079476814836729081600000, 6735980666116940796000000, 82183810464139459007000);
  (184542519046330677490000, 3079476814836731302100000, 82183810464139459007000);
  (563419176960999884550000, 563419176961002868280000, 75422371237985333034000);
  (8873161646077997177800000, 563419176960999329440000, 75422371237985333034000);
  (563419176961004186670000, 8873161646077998288000000, 75422371237985333034000);
  (380352293011092870700000, 11135352740137421674000, 12376330072789577374000);
  (9608512354248769371500000, 380352293011092940090000, 12376330072789577374000);
  (11135352740138659833000, 9608512354248771592000000, 12376330072789577374000);
  (9608512354248770481700000, 11135352740137421674000, 12376330072789577374000);
  (380352293011093078870000, 9608512354248771592000000, 12376330072789577374000);
  (11135352740134635274000, 380352293011096131980000, 12376330072789577374000)].

(** quad_rules_tria.cc:1041-1213 *)
Definition tab_16 : list (Z * Z * Z) := [
  (4137694858270851705500000, 96649544036602579034000, 40911052766110693815000);
  (5765655597692547207300000, 4137694858270851705500000, 40911052766110693815000);
  (96649544036602752506000, 5765655597692547207300000, 40911052766110693815000);
  (5765655597692546097100000, 96649544036602579034000, 40911052766110693815000);
  (4137694858270851705500000, 5765655597692547207300000, 40911052766110693815000);
  (96649544036601642283000, 4137694858270853925900000, 40911052766110693815000);
  (3041794482294797319400000, 303059433551863786900000, 69918035623267836554000);
  (6655146084153339414200000, 3041794482294797319400000, 69918035623267836554000);
  (303059433551863821600000, 6655146084153341634600000, 69918035623267836554000);
  (6655146084153339414200000, 303059433551863786900000, 69918035623267836554000);
  (3041794482294797874500000, 6655146084153339414200000, 69918035623267836554000);
  (303059433551862711380000, 3041794482294799539800000, 69918035623267836554000);
  (666744722402381612140000, 666744722402384526470000, 62127127977805052944000);
  (8666510555195233722600000, 666744722402381334580000, 62127127977805052944000);
  (666744722402385359140000, 8666510555195235943100000, 62127127977805052944000);
  (896090890227058400890000, 108129727761037564700000, 28759349852485798990000);
  (8995779382011903635400000, 896090890227058262110000, 28759349852485798990000);
  (108129727761038241240000, 8995779382011905855900000, 28759349852485798990000);
  (8995779382011903635400000, 108129727761037564700000, 28759349852485798990000);
  (896090890227059233550000, 8995779382011905855900000, 28759349852485798990000);
  (108129727761034702400000, 896090890227061870330000, 28759349852485798990000);
  (2966153724003829372800000, 1066531605361484835700000, 158230308409916253790000);
  (5967314670634684681300000, 2966153724003829927900000, 158230308409916253790000);
  (1066531605361484835700000, 5967314670634686901700000, 158230308409916253790000);
  (5967314670634685791500000, 1066531605361484835700000, 158230308409916253790000);
  (2966153724003829927900000, 5967314670634685791500000, 158230308409916253790000);
  (1066531605361482892800000, 2966153724003832148300000, 158230308409916253790000);
  (2413216807013782716500000, 2413216807013784659400000, 205920205348962756520000);
  (5173566385972432346600000, 2413216807013783826700000, 205920205348962756520000);
  (2413216807013784381800000, 5173566385972433456800000, 205920205348962756520000);
  (4127980959552236539500000, 1744038080895526921000000, 204926098934076865440000);
  (4127980959552236539500000, 4127980959552237649700000, 204926098934076865440000);
  (1744038080895526088300000, 4127980959552238204900000, 204926098934076865440000);
  (1697633551502897297800000, 513543153440131280860000, 88265405235516437854000);
  (7788823295056971352000000, 1697633551502897575300000, 88265405235516437854000);
  (513543153440131905360000, 7788823295056972462200000, 88265405235516437854000);
  (7788823295056972462200000, 513543153440131280860000, 88265405235516437854000);
  (1697633551502897852900000, 7788823295056971352000000, 88265405235516437854000);
  (513543153440129823690000, 1697633551502900350900000, 88265405235516437854000);
  (1500637365870349793100000, 1500637365870352846200000, 143917483513744566550000);
  (6998725268259297083200000, 1500637365870350070600000, 143917483513744566550000);
  (1500637365870353123800000, 6998725268259298193400000, 143917483513744566550000);
  (2140487799258472823000000, 36969427073556136894000, 23073453198645672672000);
  (7822542773667970905600000, 2140487799258472823000000, 23073453198645672672000);
  (36969427073555993779000, 7822542773667974236300000, 23073453198645672672000);
  (7822542773667970905600000, 36969427073556136894000, 23073453198645672672000);
  (2140487799258473100600000, 7822542773667972015900000, 23073453198645672672000);
  (36969427073553912111000, 2140487799258475598600000, 23073453198645672672000);
  (4695480309966849619100000, 609039380066300969910000, 135468347338552272400000);
  (4695480309966849619100000, 4695480309966850174200000, 135468347338552272400000);
  (609039380066300206630000, 4695480309966851839600000, 135468347338552272400000);
  (3333333333333332593200000, 3333333333333334258500000, 231139551570956752750000);
  (170416294057182740600000, 170416294057185550850000, 18945676191321112435000);
  (9659167411885630771800000, 170416294057182358960000, 18945676191321112435000);
  (170416294057186834540000, 9659167411885632992300000, 18945676191321112435000)].

(** quad_rules_tria.cc:1216-1403 *)
Definition tab_17 : list (Z * Z * Z) := [
  (4171034443615991849100000, 1657931112768016856900000, 136554632640510532210000);
  (4171034443615991849100000, 4171034443615992959300000, 136554632640510532210000);
  (1657931112768016024300000, 4171034443615993514400000, 136554632640510532210000);
  (725054707990023805660000, 115751759031806882720000, 22921742008679335187000);
  (9159193532978169294300000, 725054707990023666890000, 22921742008679335187000);
  (115751759031808565400000, 9159193532978170404500000, 22921742008679335187000);
  (9159193532978169294300000, 115751759031806882720000, 22921742008679335187000);
  (725054707990024360780000, 9159193532978170404500000, 22921742008679335187000);
  (115751759031804263290000, 725054707990026858780000, 22921742008679335187000);
  (1803581162663705495000000, 1803581162663707437900000, 131563152940089925220000);
  (6392837674672586789600000, 1803581162663705772500000, 131563152940089925220000);
  (1803581162663708270500000, 6392837674672587899800000, 131563152940089925220000);
  (4154754592952290548300000, 132296727600869565290000, 51992199779197683165000);
  (5712948679446840927200000, 4154754592952290548300000, 51992199779197683165000);
  (132296727600868524450000, 5712948679446843147600000, 51992199779197683165000);
  (5712948679446840927200000, 132296727600869565290000, 51992199779197683165000);
  (4154754592952289993200000, 5712948679446840927200000, 51992199779197683165000);
  (132296727600868246900000, 4154754592952292768800000, 51992199779197683165000);
  (2717918700553547672900000, 131358708340027583590000, 43461072505005951885000);
  (7150722591106424275200000, 2717918700553548783100000, 43461072505005951885000);
  (131358708340028607080000, 7150722591106425385400000, 43461072505005951885000);
  (7150722591106424275200000, 131358708340027583590000, 43461072505005951885000);
  (2717918700553549893300000, 7150722591106424275200000, 43461072505005951885000);
  (131358708340025553960000, 2717918700553551558700000, 43461072505005951885000);
  (2992189424769702843500000, 1575054779268699745000000, 130858129676684926960000);
  (5432755795961596856400000, 2992189424769703398600000, 130858129676684926960000);
  (1575054779268699189900000, 5432755795961599076800000, 130858129676684926960000);
  (5432755795961596856400000, 1575054779268699745000000, 130858129676684926960000);
  (2992189424769702288400000, 5432755795961599076800000, 130858129676684926960000);
  (1575054779268698357300000, 2992189424769705063900000, 130858129676684926960000);
  (2857065024365865735200000, 2857065024365867400600000, 188581185763976415250000);
  (4285869951268266864200000, 2857065024365866845500000, 188581185763976415250000);
  (2857065024365866845500000, 4285869951268268529500000, 188581185763976415250000);
  (3062815917461865211600000, 673493778673612542020000, 112438862733455335190000);
  (6263690303864521968800000, 3062815917461865211600000, 112438862733455335190000);
  (673493778673612819570000, 6263690303864524189200000, 112438862733455335190000);
  (6263690303864521968800000, 673493778673612542020000, 112438862733455335190000);
  (3062815917461865211600000, 6263690303864524189200000, 112438862733455335190000);
  (673493778673611709350000, 3062815917461867432100000, 112438862733455335190000);
  (1687225134952594352000000, 780423405682824783410000, 102789491602272575750000);
  (7532351459364581280900000, 1687225134952594074500000, 102789491602272575750000);
  (780423405682825199750000, 7532351459364583501400000, 102789491602272575750000);
  (7532351459364581280900000, 780423405682824783410000, 102789491602272575750000);
  (1687225134952594074500000, 7532351459364582391100000, 102789491602272575750000);
  (780423405682822701750000, 1687225134952597405100000, 102789491602272575750000);
  (666540634795968062190000, 666540634795970976520000, 62295004011527210785000);
  (8666918730408059712300000, 666540634795968062190000, 62295004011527210785000);
  (666540634795971254080000, 8666918730408061932700000, 62295004011527210785000);
  (1591922874727926817700000, 160176423621193435300000, 39891501029647967458000);
  (8247900701650879851100000, 1591922874727926817700000, 39891501029647967458000);
  (160176423621193886330000, 8247900701650882071500000, 39891501029647967458000);
  (8247900701650879851100000, 160176423621193435300000, 39891501029647967458000);
  (1591922874727927372800000, 8247900701650882071500000, 39891501029647967458000);
  (160176423621191665880000, 1591922874727930148400000, 39891501029647967458000);
  (147554916607538222360000, 147554916607541275480000, 13869437888188210998000);
  (9704890166784919669500000, 147554916607538066240000, 13869437888188210998000);
  (147554916607542385700000, 9704890166784921889900000, 13869437888188210998000);
  (4655978716188902688500000, 688042567622194484180000, 125097254752486782700000);
  (4655978716188902133400000, 4655978716188903798700000, 125097254752486782700000);
  (688042567622193790290000, 4655978716188904909000000, 125097254752486782700000)].

(** quad_rules_tria.cc:1406-1614 *)
Definition tab_18 : list (Z * Z * Z) := [
  (3850440344131636494200000, 904270403543406542380000, 76641290972765622330000);
  (5245289252324958351200000, 3850440344131637049300000, 76641290972765622330000);
  (904270403543405709710000, 5245289252324959461400000, 76641290972765622330000);
  (5245289252324957241000000, 904270403543406542380000, 76641290972765622330000);
  (3850440344131637049300000, 5245289252324958351200000, 76641290972765622330000);
  (904270403543405432160000, 3850440344131638714700000, 76641290972765622330000);
  (4749182113240457137100000, 501635773519085795270000, 65535137458693718676000);
  (4749182113240457692200000, 4749182113240457692200000, 65535137458693718676000);
  (501635773519084893210000, 4749182113240459357500000, 65535137458693718676000);
  (1516385069726047252200000, 1516385069726050305300000, 101591694227291893390000);
  (6967229860547902164900000, 1516385069726047807300000, 101591694227291893390000);
  (1516385069726050027800000, 6967229860547904385400000, 101591694227291893390000);
  (472761418326517468550000, 124989324834954822900000, 21087583873722194443000);
  (9402249256838527413600000, 472761418326517537940000, 21087583873722194443000);
  (124989324834956505580000, 9402249256838528523900000, 21087583873722194443000);
  (9402249256838527413600000, 124989324834954822900000, 21087583873722194443000);
  (472761418326518301210000, 9402249256838528523900000, 21087583873722194443000);
  (124989324834951925910000, 472761418326520799220000, 21087583873722194443000);
  (3333333333333332593200000, 3333333333333334258500000, 153742606195579126220000);
  (3020619577128707544700000, 540117353390242999070000, 81829542069932741793000);
  (6439263069481050427700000, 3020619577128707544700000, 81829542069932741793000);
  (540117353390242582730000, 6439263069481051537900000, 81829542069932741793000);
  (6439263069481049317500000, 540117353390242999070000, 81829542069932741793000);
  (3020619577128708099800000, 6439263069481049317500000, 81829542069932741793000);
  (540117353390241472510000, 3020619577128710320200000, 81829542069932741793000);
  (2565061597742415155900000, 105050188192419655800000, 38649176400031098021000);
  (7329888214065164442300000, 2565061597742415155900000, 38649176400031098021000);
  (105050188192419846620000, 7329888214065167773000000, 38649176400031098021000);
  (7329888214065165552600000, 105050188192419655800000, 38649176400031098021000);
  (2565061597742415155900000, 7329888214065167773000000, 38649176400031098021000);
  (105050188192417626180000, 2565061597742418486600000, 38649176400031098021000);
  (4110671018759194383900000, 1778657962481610677100000, 167359970299239303740000);
  (4110671018759194383900000, 4110671018759195494100000, 167359970299239303740000);
  (1778657962481609566800000, 4110671018759196604400000, 167359970299239303740000);
  (1784791255658876307800000, 661224580284034413320000, 84558269587400296946000);
  (7553984164057089278900000, 1784791255658876030200000, 84558269587400296946000);
  (661224580284035523550000, 7553984164057090389100000, 84558269587400296946000);
  (7553984164057089278900000, 661224580284034413320000, 84558269587400296946000);
  (1784791255658877418000000, 7553984164057090389100000, 84558269587400296946000);
  (661224580284032331660000, 1784791255658879360900000, 84558269587400296946000);
  (2656146099053741660400000, 2656146099053743325800000, 155581983010030493880000);
  (4687707801892515568900000, 2656146099053742215500000, 155581983010030493880000);
  (2656146099053742770700000, 4687707801892516679100000, 155581983010030493880000);
  (37589443410682042354000, 37589443410685160520000, 2660028084738900403700);
  (9924821113178632359100000, 37589443410681955618000, 2660028084738900403700);
  (37589443410686596003000, 9924821113178633469300000, 2660028084738900403700);
  (2685733063960137889700000, 1490669101257739159700000, 137964432442897241140000);
  (5823597834782122673000000, 2685733063960138444800000, 137964432442897241140000);
  (1490669101257738882200000, 5823597834782124893500000, 137964432442897241140000);
  (5823597834782122673000000, 1490669101257739159700000, 137964432442897241140000);
  (2685733063960137889700000, 5823597834782124893500000, 137964432442897241140000);
  (1490669101257737494400000, 2685733063960140110100000, 137964432442897241140000);
  (4110656686746183563500000, 116918246746671606470000, 47930622371807471080000);
  (5772425066507145263700000, 4110656686746183563500000, 47930622371807471080000);
  (116918246746671172790000, 5772425066507147484200000, 47930622371807471080000);
  (5772425066507145263700000, 116918246746671606470000, 47930622371807471080000);
  (4110656686746184673700000, 5772425066507145263700000, 47930622371807471080000);
  (116918246746670617680000, 4110656686746185783900000, 47930622371807471080000);
  (1327788302713892865100000, 143315247789419925040000, 38208524863598139834000);
  (8528896449496686793500000, 1327788302713892587500000, 38208524863598139834000);
  (143315247789422284260000, 8528896449496686793500000, 38208524863598139834000);
  (8528896449496687903700000, 143315247789419925040000, 38208524863598139834000);
  (1327788302713892587500000, 8528896449496690124200000, 38208524863598139834000);
  (143315247789417149480000, 1327788302713896195800000, 38208524863598139834000);
  (724387055673327562300000, 724387055673330476640000, 68951433023834631658000);
  (8551225888653340989600000, 724387055673327284740000, 68951433023834631658000);
  (724387055673331725640000, 8551225888653343210100000, 68951433023834631658000)].

(** quad_rules_tria.cc:1617-1843 *)
Definition tab_19 : list (Z * Z * Z) := [
  (1424222825711269069200000, 50051423523504350380000, 14628462439400353404000);
  (8525725750765226207400000, 1424222825711269346800000, 14628462439400353404000);
  (50051423523504445789000, 8525725750765228427900000, 14628462439400353404000);
  (8525725750765226207400000, 50051423523504350380000, 14628462439400353404000);
  (1424222825711269346800000, 8525725750765228427900000, 14628462439400353404000);
  (50051423523501947788000, 1424222825711272677500000, 14628462439400353404000);
  (525262798541034220400000, 525262798541037134740000, 35546968113974726326000);
  (8949474402917928506100000, 525262798541034220400000, 35546968113974726326000);
  (525262798541038522520000, 8949474402917929616300000, 35546968113974726326000);
  (600838999627023515050000, 97770614386768570775000, 16636944202969520396000);
  (9301390385986207931500000, 600838999627023376270000, 16636944202969520396000);
  (97770614386770704485000, 9301390385986207931500000, 16636944202969520396000);
  (9301390385986207931500000, 97770614386768570775000, 16636944202969520396000);
  (600838999627024694660000, 9301390385986207931500000, 16636944202969520396000);
  (97770614386766679926000, 600838999627027192660000, 16636944202969520396000);
  (1307006699605345323400000, 391424494346088655550000, 48477595408120991924000);
  (8301568806048564841400000, 1307006699605345601000000, 48477595408120991924000);
  (391424494346089835160000, 8301568806048567061900000, 48477595408120991924000);
  (8301568806048565951600000, 391424494346088655550000, 48477595408120991924000);
  (1307006699605346433700000, 8301568806048567061900000, 48477595408120991924000);
  (391424494346086643270000, 1307006699605348376500000, 48477595408120991924000);
  (3113183832239868609200000, 1293128097679790422500000, 131731323537226784750000);
  (5593688070080341523400000, 3113183832239869164300000, 131731323537226784750000);
  (1293128097679790422500000, 5593688070080342633600000, 131731323537226784750000);
  (5593688070080341523400000, 1293128097679790422500000, 131731323537226784750000);
  (3113183832239868609200000, 5593688070080342633600000, 131731323537226784750000);
  (1293128097679789034700000, 3113183832239870274500000, 131731323537226784750000);
  (1114480557169985480700000, 1114480557169988117500000, 76174782585024160969000);
  (7771038885660025430400000, 1114480557169985480700000, 76174782585024160969000);
  (1114480557169988395000000, 7771038885660027650800000, 76174782585024160969000);
  (116390273279224441130000, 116390273279227511590000, 8825962091542697814500);
  (9767219453441547960500000, 116390273279224302360000, 8825962091542697814500);
  (116390273279229350400000, 9767219453441547960500000, 8825962091542697814500);
  (2551621331531247483000000, 2551621331531249148300000, 158764272937649865420000);
  (4896757336937502813600000, 2551621331531248593200000, 158764272937649865420000);
  (2551621331531248593200000, 4896757336937504478900000, 158764272937649865420000);
  (2214339418891134170200000, 745611893043551660080000, 90540372952152489705000);
  (7040048688065314586000000, 2214339418891134447800000, 90540372952152489705000);
  (745611893043551798850000, 7040048688065316806500000, 90540372952152489705000);
  (7040048688065313475800000, 745611893043551660080000, 90540372952152489705000);
  (2214339418891133615100000, 7040048688065316806500000, 90540372952152489705000);
  (745611893043549578410000, 2214339418891136945800000, 90540372952152489705000);
  (4039697179663860326900000, 1920605640672278791000000, 157686793226198031240000);
  (4039697179663860326900000, 4039697179663861437100000, 157686793226198031240000);
  (1920605640672277958400000, 4039697179663861992300000, 157686793226198031240000);
  (3540259269997119151400000, 408883144649781413160000, 80511047304697123950000);
  (6050857585353099921100000, 3540259269997119151400000, 80511047304697123950000);
  (408883144649780927440000, 6050857585353102141600000, 80511047304697123950000);
  (6050857585353099921100000, 408883144649781413160000, 80511047304697123950000);
  (3540259269997118596300000, 6050857585353101031300000, 80511047304697123950000);
  (408883144649780372330000, 3540259269997121371900000, 80511047304697123950000);
  (1781710060796274086600000, 1781710060796276029500000, 123259905267924119860000);
  (6436579878407451271700000, 1781710060796274364100000, 123259905267924119860000);
  (1781710060796276029500000, 6436579878407452381900000, 123259905267924119860000);
  (4591943889568276260200000, 816112220863447895840000, 114917854885616226020000);
  (4591943889568276260200000, 4591943889568276815400000, 114917854885616226020000);
  (816112220863447201950000, 4591943889568277925600000, 114917854885616226020000);
  (3333333333333332593200000, 3333333333333334258500000, 172345804254526308030000);
  (4925124498658742244700000, 149751002682515996220000, 51609410912094293850000);
  (4925124498658742244700000, 4925124498658742799900000, 51609410912094293850000);
  (149751002682515510500000, 4925124498658743910100000, 51609410912094293850000);
  (2418941040068926240400000, 149236389074384866870000, 42279624195467385359000);
  (7431822570856688736600000, 2418941040068926240400000, 42279624195467385359000);
  (149236389074384745430000, 7431822570856692067300000, 42279624195467385359000);
  (7431822570856688736600000, 149236389074384866870000, 42279624195467385359000);
  (2418941040068927073000000, 7431822570856689846900000, 42279624195467385359000);
  (149236389074383218880000, 2418941040068929015900000, 42279624195467385359000);
  (3646204143387100082800000, 20691038491023887487000, 16410687574198684451000);
  (6333104818121875201300000, 3646204143387100638000000, 16410687574198684451000);
  (20691038491024160706000, 6333104818121877421800000, 16410687574198684451000);
  (6333104818121876311600000, 20691038491023887487000, 16410687574198684451000);
  (3646204143387100638000000, 6333104818121877421800000, 16410687574198684451000);
  (20691038491022495371000, 3646204143387102858400000, 16410687574198684451000)].

(** quad_rules_tria.cc:1846-2090 *)
Definition tab_20 : list (Z * Z * Z) := [
  (1862949977445408911200000, 1862949977445410854000000, 91734629742529130020000);
  (6274100045109179957200000, 1862949977445409188700000, 91734629742529130020000);
  (1862949977445411131600000, 6274100045109182177700000, 91734629742529130020000);
  (373108805988845854130000, 373108805988848976630000, 21612754106655773269000);
  (9253782388022304683500000, 373108805988845784740000, 21612754106655773269000);
  (373108805988850433800000, 9253782388022305793700000, 21612754106655773269000);
  (4762456115404989920300000, 475087769190020159370000, 71018253034084407108000);
  (4762456115404989920300000, 4762456115404990475400000, 71018253034084407108000);
  (475087769190019049150000, 4762456115404992695900000, 71018253034084407108000);
  (640905856084340308510000, 48549376076238298650000, 11298696021258653691000);
  (9310544767839421531600000, 640905856084340169730000, 11298696021258653691000);
  (48549376076239547650000, 9310544767839422641800000, 11298696021258653691000);
  (9310544767839421531600000, 48549376076238298650000, 11298696021258653691000);
  (640905856084341141180000, 9310544767839422641800000, 11298696021258653691000);
  (48549376076235384314000, 640905856084343361620000, 11298696021258653691000);
  (2156070573900943643200000, 1062272047202700991900000, 77226078220992300932000);
  (6781657378896355226100000, 2156070573900944475900000, 77226078220992300932000);
  (1062272047202700853100000, 6781657378896357446500000, 77226078220992300932000);
  (6781657378896355226100000, 1062272047202700991900000, 77226078220992300932000);
  (2156070573900943365700000, 6781657378896357446500000, 77226078220992300932000);
  (1062272047202699326600000, 2156070573900946418800000, 77226078220992300932000);
  (4455510569559247846500000, 1088978860881504168200000, 94523999332324481343000);
  (4455510569559247846500000, 4455510569559248956800000, 94523999332324481343000);
  (1088978860881503196700000, 4455510569559250067000000, 94523999332324481343000);
  (1591337076570672193200000, 75707805046965814463000, 22028974185584974249000);
  (8332955118382362469400000, 1591337076570672193200000, 22028974185584974249000);
  (75707805046965614970000, 8332955118382364689800000, 22028974185584974249000);
  (8332955118382362469400000, 75707805046965814463000, 22028974185584974249000);
  (1591337076570672470800000, 8332955118382363579600000, 22028974185584974249000);
  (75707805046963533302000, 1591337076570675523900000, 22028974185584974249000);
  (3178601238357719460700000, 1398080719917999814600000, 116917457318277354800000);
  (5423318041724279892100000, 3178601238357720570900000, 116917457318277354800000);
  (1398080719917999537000000, 5423318041724282112500000, 116917457318277354800000);
  (5423318041724279892100000, 1398080719917999814600000, 116917457318277354800000);
  (3178601238357719460700000, 5423318041724282112500000, 116917457318277354800000);
  (1398080719917998704400000, 3178601238357721681100000, 116917457318277354800000);
  (2545792676733390491600000, 2545792676733392156900000, 140832013075202471670000);
  (4908414646533216796300000, 2545792676733391601800000, 140832013075202471670000);
  (2545792676733391601800000, 4908414646533218461700000, 140832013075202471670000);
  (3333333333333332593200000, 3333333333333334258500000, 139101107014531141790000);
  (1985181322287881688900000, 465603649076643533180000, 59863985789546901584000);
  (7549215028635475333000000, 1985181322287881688900000, 59863985789546901584000);
  (465603649076644088290000, 7549215028635476443200000, 59863985789546901584000);
  (7549215028635474222800000, 465603649076643533180000, 59863985789546901584000);
  (1985181322287882244000000, 7549215028635476443200000, 59863985789546901584000);
  (465603649076641729070000, 1985181322287884742000000, 59863985789546901584000);
  (3934253478170998130600000, 2131493043658003461200000, 137880506290704567960000);
  (3934253478170998130600000, 3934253478170999796000000, 137880506290704567960000);
  (2131493043658002073400000, 3934253478171000351100000, 137880506290704567960000);
  (999522962881386201060000, 383636847753746762500000, 41457115276138578261000);
  (8616840189364867175200000, 999522962881385784730000, 41457115276138578261000);
  (383636847753748289060000, 8616840189364868285400000, 41457115276138578261000);
  (8616840189364866065000000, 383636847753746762500000, 41457115276138578261000);
  (999522962881386756170000, 8616840189364868285400000, 41457115276138578261000);
  (383636847753743917560000, 999522962881389392950000, 41457115276138578261000);
  (4200237588162240576200000, 98315482928025919179000, 36956815002552978293000);
  (5701446928909733591300000, 4200237588162241131300000, 36956815002552978293000);
  (98315482928025277332000, 5701446928909735811800000, 36956815002552978293000);
  (5701446928909733591300000, 98315482928025919179000, 36956815002552978293000);
  (4200237588162241131300000, 5701446928909734701600000, 36956815002552978293000);
  (98315482928024722220000, 4200237588162243351800000, 36956815002552978293000);
  (3331348173095874387600000, 549874791429868711720000, 86672255672193328907000);
  (6118777035474256553700000, 3331348173095874942700000, 86672255672193328907000);
  (549874791429868503560000, 6118777035474258774200000, 86672255672193328907000);
  (6118777035474256553700000, 549874791429868711720000, 86672255672193328907000);
  (3331348173095874387600000, 6118777035474257663900000, 86672255672193328907000);
  (549874791429867393330000, 3331348173095877163200000, 86672255672193328907000);
  (2805814114236652168100000, 107372128560111156080000, 35782002384576851520000);
  (7086813757203236363600000, 2805814114236652723200000, 35782002384576851520000);
  (107372128560111468330000, 7086813757203238584000000, 35782002384576851520000);
  (7086813757203237473800000, 107372128560111156080000, 35782002384576851520000);
  (2805814114236652723200000, 7086813757203237473800000, 35782002384576851520000);
  (107372128560109525440000, 2805814114236654943600000, 35782002384576851520000);
  (109761410283976314910000, 109761410283979073120000, 7988407910666198586500);
  (9780477179432044421100000, 109761410283975863880000, 7988407910666198586500);
  (109761410283981120100000, 9780477179432046641600000, 7988407910666198586500);
  (1093835967117144647400000, 1093835967117147561800000, 78302307760745332860000);
  (7812328065765707929600000, 1093835967117144925000000, 78302307760745332860000);
  (1093835967117147700600000, 7812328065765709039800000, 78302307760745332860000)].

(** quad_rules_tria.cc:2093-2361 *)
Definition tab_21 : list (Z * Z * Z) := [
  (2989362353149824791400000, 2989362353149826456700000, 107255609645661737630000);
  (4021275293700348196800000, 2989362353149826456700000, 107255609645661737630000);
  (2989362353149825346500000, 4021275293700349307000000, 107255609645661737630000);
  (2891894960785946766500000, 2052955593351616092600000, 87477080778815656525000);
  (5055149445862436863300000, 2891894960785947876800000, 87477080778815656525000);
  (2052955593351615815000000, 5055149445862437973500000, 87477080778815656525000);
  (5055149445862436863300000, 2052955593351616092600000, 87477080778815656525000);
  (2891894960785947321600000, 5055149445862437973500000, 87477080778815656525000);
  (2052955593351614704800000, 2891894960785948987000000, 87477080778815656525000);
  (4970078754686855782000000, 59842490626288531372000, 22189148485329403086000);
  (4970078754686855782000000, 4970078754686856337100000, 22189148485329403086000);
  (59842490626288435962000, 4970078754686857447400000, 22189148485329403086000);
  (2378733825979939819900000, 69318090314681186231000, 21030601440748652314000);
  (7551948083705378733700000, 2378733825979940097500000, 21030601440748652314000);
  (69318090314682834219000, 7551948083705378733700000, 21030601440748652314000);
  (7551948083705378733700000, 69318090314681186231000, 21030601440748652314000);
  (2378733825979941207700000, 7551948083705378733700000, 21030601440748652314000);
  (69318090314680058661000, 2378733825979942873000000, 21030601440748652314000);
  (4036175865463850764800000, 1927648269072298470300000, 115003523266419358660000);
  (4036175865463851320000000, 4036175865463851875100000, 115003523266419358660000);
  (1927648269072297360100000, 4036175865463852430200000, 115003523266419358660000);
  (3188653107948282161600000, 1237794004054928176400000, 92237424239664210501000);
  (5573552887996789939600000, 3188653107948282716700000, 92237424239664210501000);
  (1237794004054927898800000, 5573552887996791049800000, 92237424239664210501000);
  (5573552887996789939600000, 1237794004054928176400000, 92237424239664210501000);
  (3188653107948282716700000, 5573552887996791049800000, 92237424239664210501000);
  (1237794004054926233500000, 3188653107948284937100000, 92237424239664210501000);
  (2318736253704009597800000, 389913626232203450180000, 52349520926624230552000);
  (7291350120063786466300000, 2318736253704009875300000, 52349520926624230552000);
  (389913626232203935910000, 7291350120063788686800000, 52349520926624230552000);
  (7291350120063787576500000, 389913626232203450180000, 52349520926624230552000);
  (2318736253704010152900000, 7291350120063788686800000, 52349520926624230552000);
  (389913626232202131790000, 2318736253704012650900000, 52349520926624230552000);
  (1331671229413702861600000, 95362475297106029382000, 22404065609507384585000);
  (8572966295289190519200000, 1331671229413702584000000, 22404065609507384585000);
  (95362475297107174299000, 8572966295289192739700000, 22404065609507384585000);
  (8572966295289191629400000, 95362475297106029382000, 22404065609507384585000);
  (1331671229413703416700000, 8572966295289192739700000, 22404065609507384585000);
  (95362475297103566074000, 1331671229413706192300000, 22404065609507384585000);
  (3468079798099110155900000, 530521917012168400810000, 72501529594855129018000);
  (6001398284888721512700000, 3468079798099111266100000, 72501529594855129018000);
  (530521917012168331420000, 6001398284888722622900000, 72501529594855129018000);
  (6001398284888721512700000, 530521917012168400810000, 72501529594855129018000);
  (3468079798099110711000000, 6001398284888721512700000, 72501529594855129018000);
  (530521917012167221190000, 3468079798099112931500000, 72501529594855129018000);
  (1189885776227192909500000, 1189885776227195546300000, 68280162261151015890000);
  (7620228447545611683000000, 1189885776227193048300000, 68280162261151015890000);
  (1189885776227195823800000, 7620228447545612793200000, 68280162261151015890000);
  (1902887180912784248500000, 1902887180912786191400000, 97276209303753594093000);
  (6194225638174429837700000, 1902887180912784803600000, 97276209303753594093000);
  (1902887180912785636300000, 6194225638174430947900000, 97276209303753594093000);
  (2165996231899824930900000, 1004580200741145013000000, 79520183527139881585000);
  (6829423567359029778600000, 2165996231899825208400000, 79520183527139881585000);
  (1004580200741145845600000, 6829423567359030888800000, 79520183527139881585000);
  (6829423567359029778600000, 1004580200741145013000000, 79520183527139881585000);
  (2165996231899824930900000, 6829423567359031999000000, 79520183527139881585000);
  (1004580200741142792500000, 2165996231899827706400000, 79520183527139881585000);
  (4815978686532165764500000, 368042626935668332200000, 61072050816921939070000);
  (4815978686532165764500000, 4815978686532166319600000, 61072050816921939070000);
  (368042626935667638310000, 4815978686532167985000000, 61072050816921939070000);
  (4498127917753623750100000, 1003744164492752777300000, 98072376139120131383000);
  (4498127917753623750100000, 4498127917753624860400000, 98072376139120131383000);
  (1003744164492752222200000, 4498127917753625415500000, 98072376139120131383000);
  (1288298079620515401700000, 494510655685405711710000, 49059859112752070634000);
  (8217191264694078123300000, 1288298079620515124200000, 49059859112752070634000);
  (494510655685407307660000, 8217191264694079233500000, 49059859112752070634000);
  (8217191264694079233500000, 494510655685405711710000, 49059859112752070634000);
  (1288298079620516789500000, 8217191264694079233500000, 49059859112752070634000);
  (494510655685403144320000, 1288298079620518454800000, 49059859112752070634000);
  (536275755461448552790000, 536275755461451258950000, 35760425506418274701000);
  (8927448489077099980100000, 536275755461448414010000, 35760425506418274701000);
  (536275755461452785510000, 8927448489077101090300000, 35760425506418274701000);
  (3609534080189221727500000, 102546358729245206540000, 34199424289671539329000);
  (6287919561081534158800000, 3609534080189221727500000, 34199424289671539329000);
  (102546358729244668770000, 6287919561081535269100000, 34199424289671539329000);
  (6287919561081533048600000, 102546358729245206540000, 34199424289671539329000);
  (3609534080189221727500000, 6287919561081534158800000, 34199424289671539329000);
  (102546358729244113660000, 3609534080189223948000000, 34199424289671539329000);
  (107424564328282810820000, 107424564328285707810000, 7543496361893448813900);
  (9785150871343430978300000, 107424564328282515920000, 7543496361893448813900);
  (107424564328286731300000, 9785150871343433198700000, 7543496361893448813900);
  (557195650723719473900000, 103019036434239090460000, 16327142920220430022000);
  (9339785312842041609100000, 557195650723719057560000, 16327142920220430022000);
  (103019036434239819040000, 9339785312842043829600000, 16327142920220430022000);
  (9339785312842040498900000, 103019036434239090460000, 16327142920220430022000);
  (557195650723719682060000, 9339785312842043829600000, 16327142920220430022000);
  (103019036434236002650000, 557195650723722873950000, 16327142920220430022000)].

(** quad_rules_tria.cc:2364-2659 *)
Definition tab_22 : list (Z * Z * Z) := [
  (3851845246273021272600000, 2296309507453958009800000, 67465419418053316353000);
  (3851845246273021272600000, 3851845246273021827800000, 67465419418053316353000);
  (2296309507453956899600000, 3851845246273022382900000, 67465419418053316353000);
  (4577694113676720744100000, 844611772646558928160000, 69306997621170970958000);
  (4577694113676720744100000, 4577694113676721299200000, 69306997621170970958000);
  (844611772646558511820000, 4577694113676722409400000, 69306997621170970958000);
  (698421694674436210890000, 78762822215823775213000, 12977192371156388850000);
  (9222815483109739753700000, 698421694674436072110000, 12977192371156388850000);
  (78762822215824312977000, 9222815483109743084400000, 12977192371156388850000);
  (9222815483109739753700000, 78762822215823775213000, 12977192371156388850000);
  (698421694674435933340000, 9222815483109743084400000, 12977192371156388850000);
  (78762822215820982308000, 698421694674439264010000, 12977192371156388850000);
  (2945582590299500314000000, 2945582590299501979400000, 105378819787260921690000);
  (4108834819400997151500000, 2945582590299501979400000, 105378819787260921690000);
  (2945582590299500869200000, 4108834819400998261700000, 105378819787260921690000);
  (1885105236302838382900000, 1885105236302840325800000, 80106495625744469913000);
  (6229789527394320458600000, 1885105236302838660500000, 80106495625744469913000);
  (1885105236302840880900000, 6229789527394322679000000, 80106495625744469913000);
  (4219818887935349316400000, 1560362224129301644800000, 94265462769206435911000);
  (4219818887935348761300000, 4219818887935350426600000, 94265462769206435911000);
  (1560362224129300534600000, 4219818887935350981700000, 94265462769206435911000);
  (903988311664077337500000, 447522843483358911950000, 37587889088941885303000);
  (8648488844852564305700000, 903988311664077753840000, 37587889088941885303000);
  (447522843483360022180000, 8648488844852564305700000, 37587889088941885303000);
  (8648488844852564305700000, 447522843483358911950000, 37587889088941885303000);
  (903988311664079002840000, 8648488844852564305700000, 37587889088941885303000);
  (447522843483356969060000, 903988311664080668170000, 37587889088941885303000);
  (4113417640205587200200000, 382752347008638374450000, 55986567359813856765000);
  (5503830012785774217200000, 4113417640205587755300000, 55986567359813856765000);
  (382752347008638027500000, 5503830012785776437700000, 55986567359813856765000);
  (5503830012785774217200000, 382752347008638374450000, 55986567359813856765000);
  (4113417640205587755300000, 5503830012785775327400000, 55986567359813856765000);
  (382752347008636917280000, 4113417640205589975700000, 55986567359813856765000);
  (3321061050074463616400000, 1027470759869314326200000, 88595467447551094070000);
  (5651468190056221363400000, 3321061050074464171500000, 88595467447551094070000);
  (1027470759869314465000000, 5651468190056223583900000, 88595467447551094070000);
  (5651468190056222473700000, 1027470759869314326200000, 88595467447551094070000);
  (3321061050074463061300000, 5651468190056223583900000, 88595467447551094070000);
  (1027470759869312799700000, 3321061050074466392000000, 88595467447551094070000);
  (3625762804324672572400000, 74002412347107544149000, 24521301987784826712000);
  (6300234783328220178300000, 3625762804324673127500000, 24521301987784826712000);
  (74002412347107804358000, 6300234783328221288600000, 24521301987784826712000);
  (6300234783328220178300000, 74002412347107544149000, 24521301987784826712000);
  (3625762804324673127500000, 6300234783328221288600000, 24521301987784826712000);
  (74002412347106694135000, 3625762804324674792900000, 24521301987784826712000);
  (2900668241166687866300000, 1910812979667201594300000, 108532097777544796900000);
  (5188518779166110261900000, 2900668241166688421400000, 108532097777544796900000);
  (1910812979667201316800000, 5188518779166111372100000, 108532097777544796900000);
  (5188518779166110261900000, 1910812979667201594300000, 108532097777544796900000);
  (2900668241166688421400000, 5188518779166111372100000, 108532097777544796900000);
  (1910812979667200206500000, 2900668241166689531600000, 108532097777544796900000);
  (4961611784097086363900000, 76776431805827757837000, 26446698329922095974000);
  (4961611784097086363900000, 4961611784097086919100000, 26446698329922095974000);
  (76776431805827272115000, 4961611784097088584400000, 26446698329922095974000);
  (2879318028241718008300000, 439916453934558610020000, 58311114336715014206000);
  (6680765517823723520500000, 2879318028241718563400000, 58311114336715014206000);
  (439916453934559026350000, 6680765517823724630700000, 58311114336715014206000);
  (6680765517823722410300000, 439916453934558610020000, 58311114336715014206000);
  (2879318028241718008300000, 6680765517823724630700000, 58311114336715014206000);
  (439916453934556805900000, 2879318028241720783800000, 58311114336715014206000);
  (2167869333649411478500000, 1086899418626720292800000, 78550813112851589765000);
  (6745231247723867396000000, 2167869333649411756100000, 78550813112851589765000);
  (1086899418626720570400000, 6745231247723869616500000, 78550813112851589765000);
  (6745231247723867396000000, 1086899418626720292800000, 78550813112851589765000);
  (2167869333649412033600000, 6745231247723869616500000, 78550813112851589765000);
  (1086899418626718349900000, 2167869333649413699000000, 78550813112851589765000);
  (1458737198735251816600000, 91447113749640578789000, 20533435357877778682000);
  (8449815687515107587300000, 1458737198735251816600000, 20533435357877778682000);
  (91447113749641428804000, 8449815687515108697500000, 20533435357877778682000);
  (8449815687515107587300000, 91447113749640578789000, 20533435357877778682000);
  (1458737198735252094100000, 8449815687515108697500000, 20533435357877778682000);
  (91447113749637959357000, 1458737198735255147200000, 20533435357877778682000);
  (1762974348245000544300000, 482549241146414051310000, 52817924838734495521000);
  (7754476410608585057500000, 1762974348245000544300000, 52817924838734495521000);
  (482549241146414398250000, 7754476410608587277900000, 52817924838734495521000);
  (7754476410608585057500000, 482549241146414051310000, 52817924838734495521000);
  (1762974348245000544300000, 7754476410608587277900000, 52817924838734495521000);
  (482549241146412039030000, 1762974348245003597400000, 52817924838734495521000);
  (2439906460394930531900000, 91639092481852323785000, 25270384487923007455000);
  (7468454447123216155500000, 2439906460394930531900000, 25270384487923007455000);
  (91639092481853312577000, 7468454447123218376000000, 25270384487923007455000);
  (7468454447123217265800000, 91639092481852323785000, 25270384487923007455000);
  (2439906460394930531900000, 7468454447123218376000000, 25270384487923007455000);
  (91639092481850537020000, 2439906460394933862500000, 25270384487923007455000);
  (291084706708073584490000, 291084706708076706990000, 17845545829281884032000);
  (9417830586583849639100000, 291084706708073480410000, 17845545829281884032000);
  (291084706708078511110000, 9417830586583849639100000, 17845545829281884032000);
  (1154315382192048905500000, 1154315382192051264700000, 72078565640523025934000);
  (7691369235615900246100000, 1154315382192049044300000, 72078565640523025934000);
  (1154315382192051542300000, 7691369235615901356300000, 72078565640523025934000);
  (179343210529389861240000, 17984649889483750665000, 3202142655857129617400);
  (9802672139581125598800000, 179343210529389687770000, 3202142655857129617400);
  (17984649889485893048000, 9802672139581126709000000, 3202142655857129617400);
  (9802672139581126709000000, 17984649889483750665000, 3202142655857129617400);
  (179343210529390728600000, 9802672139581128929500000, 3202142655857129617400);
  (17984649889481209295000, 179343210529392879660000, 3202142655857129617400)].

(** quad_rules_tria.cc:2662-2978 *)
Definition tab_23 : list (Z * Z * Z) := [
  (1595037989247572174400000, 238702536543536174280000, 12640830276911311190000);
  (8166259474208891200300000, 1595037989247572451900000, 12640830276911311190000);
  (238702536543537457980000, 8166259474208892310500000, 12640830276911311190000);
  (8166259474208892310500000, 238702536543536174280000, 12640830276911311190000);
  (1595037989247573007000000, 8166259474208892310500000, 12640830276911311190000);
  (238702536543533988530000, 1595037989247575505000000, 12640830276911311190000);
  (1141013603223645367400000, 51898217608445373905000, 11125098648622567046000);
  (8807088179167907870900000, 1141013603223645228600000, 11125098648622567046000);
  (51898217608446484128000, 8807088179167911201600000, 11125098648622567046000);
  (8807088179167908981200000, 51898217608445373905000, 11125098648622567046000);
  (1141013603223645644900000, 8807088179167911201600000, 11125098648622567046000);
  (51898217608443153459000, 1141013603223648420500000, 11125098648622567046000);
  (390072687570319903690000, 390072687570322748640000, 19578701295164665716000);
  (9219854624859357139500000, 390072687570319556750000, 19578701295164665716000);
  (390072687570323650700000, 9219854624859359359900000, 19578701295164665716000);
  (955398781717348988260000, 327410291887064164310000, 26640152155973911147000);
  (8717190926395586014800000, 955398781717349127040000, 26640152155973911147000);
  (327410291887065274530000, 8717190926395588235200000, 26640152155973911147000);
  (8717190926395587125000000, 327410291887064164310000, 26640152155973911147000);
  (955398781717349265820000, 8717190926395588235200000, 26640152155973911147000);
  (327410291887062082640000, 955398781717352318930000, 26640152155973911147000);
  (3111622680517019401400000, 24475998559663801959000, 11405518381279167433000);
  (6863901320923315729800000, 3111622680517019956500000, 11405518381279167433000);
  (24475998559663758591000, 6863901320923319060400000, 11405518381279167433000);
  (6863901320923316840000000, 24475998559663801959000, 11405518381279167433000);
  (3111622680517019401400000, 6863901320923319060400000, 11405518381279167433000);
  (24475998559662370813000, 3111622680517021621900000, 11405518381279167433000);
  (2056172320580520740400000, 87252895853085366690000, 20573751722080448751000);
  (7856574783566394604200000, 2056172320580521295500000, 20573751722080448751000);
  (87252895853085488120000, 7856574783566395714400000, 20573751722080448751000);
  (7856574783566393493900000, 87252895853085366690000, 20573751722080448751000);
  (2056172320580521018000000, 7856574783566395714400000, 20573751722080448751000);
  (87252895853083267674000, 2056172320580523793500000, 20573751722080448751000);
  (472616294497252981130000, 71625399102444847060000, 9762956639453626269200);
  (9455758306400302570800000, 472616294497252703580000, 9762956639453626269200);
  (71625399102446807298000, 9455758306400302570800000, 9762956639453626269200);
  (9455758306400302570800000, 71625399102444847060000, 9762956639453626269200);
  (472616294497255062800000, 9455758306400302570800000, 9762956639453626269200);
  (71625399102442297017000, 472616294497256866910000, 9762956639453626269200);
  (3585095935696250846200000, 685269541872130100170000, 74905566965995798792000);
  (5729634522431619192400000, 3585095935696251401300000, 74905566965995798792000);
  (685269541872130516500000, 5729634522431620302600000, 74905566965995798792000);
  (5729634522431619192400000, 685269541872130100170000, 74905566965995798792000);
  (3585095935696250291100000, 5729634522431620302600000, 74905566965995798792000);
  (685269541872129406280000, 3585095935696253066600000, 74905566965995798792000);
  (4803288773373085018800000, 393422453253830448070000, 56989446339003766925000);
  (4803288773373085018800000, 4803288773373085573900000, 56989446339003766925000);
  (393422453253829962350000, 4803288773373086684200000, 56989446339003766925000);
  (2404827720350126707400000, 1017283293272842614700000, 80606208185085726631000);
  (6577888986377030677800000, 2404827720350127262500000, 80606208185085726631000);
  (1017283293272842614700000, 6577888986377032898300000, 80606208185085726631000);
  (6577888986377031788100000, 1017283293272842614700000, 80606208185085726631000);
  (2404827720350126152300000, 6577888986377032898300000, 80606208185085726631000);
  (1017283293272840810600000, 2404827720350129205400000, 80606208185085726631000);
  (868410482076330536570000, 868410482076332895800000, 44799585127567693663000);
  (8263179035847336706400000, 868410482076330259020000, 44799585127567693663000);
  (868410482076334422350000, 8263179035847337816600000, 44799585127567693663000);
  (3943235060115415358000000, 2113529879769169561600000, 118373042315640039650000);
  (3943235060115414802900000, 3943235060115416468200000, 118373042315640039650000);
  (2113529879769168728900000, 3943235060115416468200000, 118373042315640039650000);
  (2662513178772472066700000, 2662513178772474287100000, 119039314437498749270000);
  (4674973642455053091100000, 2662513178772473176900000, 119039314437498749270000);
  (2662513178772473732000000, 4674973642455054756400000, 119039314437498749270000);
  (1729323031292239742900000, 583515752375154614360000, 52351282465650300288000);
  (7687161216332605295800000, 1729323031292239465400000, 52351282465650300288000);
  (583515752375155516420000, 7687161216332607516200000, 52351282465650300288000);
  (7687161216332605295800000, 583515752375154614360000, 52351282465650300288000);
  (1729323031292240298000000, 7687161216332607516200000, 52351282465650300288000);
  (583515752375152879640000, 1729323031292242240900000, 52351282465650300288000);
  (3163043076538381015400000, 1548301554055162843100000, 104221979294844002690000);
  (5288655369406456419100000, 3163043076538381570600000, 104221979294844002690000);
  (1548301554055162565500000, 5288655369406457529300000, 104221979294844002690000);
  (5288655369406456419100000, 1548301554055162843100000, 104221979294844002690000);
  (3163043076538381570600000, 5288655369406457529300000, 104221979294844002690000);
  (1548301554055161455300000, 3163043076538383235900000, 104221979294844002690000);
  (1371293873116474770800000, 1371293873116477823900000, 72797246963708693926000);
  (7257412253767047127800000, 1371293873116475048300000, 72797246963708693926000);
  (1371293873116478101400000, 7257412253767048238000000, 72797246963708693926000);
  (4989594312095863015700000, 20811375808273929570000, 12037723020907043197000);
  (4989594312095863015700000, 4989594312095863570800000, 12037723020907043197000);
  (20811375808273413490000, 4989594312095865236100000, 12037723020907043197000);
  (3977585768030076351900000, 147589697299451757390000, 35488894172609102354000);
  (5874824534670470832500000, 3977585768030077462100000, 35488894172609102354000);
  (147589697299451150240000, 5874824534670474163200000, 35488894172609102354000);
  (5874824534670470832500000, 147589697299451757390000, 35488894172609102354000);
  (3977585768030076351900000, 5874824534670473053000000, 35488894172609102354000);
  (147589697299450317570000, 3977585768030079127500000, 35488894172609102354000);
  (4446924421277275163400000, 1106151157445450089500000, 94759753346694373249000);
  (4446924421277275163400000, 4446924421277276273700000, 94759753346694373249000);
  (1106151157445449118000000, 4446924421277277383900000, 94759753346694373249000);
  (1987498063965361105900000, 1987498063965363603900000, 99676389400525072099000);
  (6025003872069274457600000, 1987498063965362216100000, 99676389400525072099000);
  (1987498063965362771200000, 6025003872069276678000000, 99676389400525072099000);
  (2787941698141022661700000, 329937081925328057340000, 50877873283535161170000);
  (6882121219933649003400000, 2787941698141023216800000, 50877873283535161170000);
  (329937081925328334900000, 6882121219933651223900000, 50877873283535161170000);
  (6882121219933649003400000, 329937081925328057340000, 50877873283535161170000);
  (2787941698141023216800000, 6882121219933650113600000, 50877873283535161170000);
  (329937081925326669560000, 2787941698141025437300000, 50877873283535161170000);
  (90164402055981952844000, 90164402055984919221000, 5326806164146572755400);
  (9819671195888033388100000, 90164402055981709982000, 5326806164146572755400);
  (90164402055986081486000, 9819671195888034498400000, 5326806164146572755400);
  (3333333333333332593200000, 3333333333333334258500000, 126265301615180979000000)].

(** quad_rules_tria.cc:2981-3324 *)
Definition tab_24 : list (Z * Z * Z) := [
  (3333333333333332593200000, 3333333333333334258500000, 62728449228001597129000);
  (4188909749106027313700000, 1622180501787945372500000, 65552663509426201474000);
  (4188909749106026758600000, 4188909749106028424000000, 65552663509426201474000);
  (1622180501787944262300000, 4188909749106028979100000, 65552663509426201474000);
  (1623606337169262725500000, 1623606337169264668400000, 51895080282000965663000);
  (6752787325661472328500000, 1623606337169263003100000, 51895080282000965663000);
  (1623606337169264946000000, 6752787325661474549000000, 51895080282000965663000);
  (2414797600735940075200000, 1703672824624437309700000, 70725229032424230535000);
  (5881529574639622337500000, 2414797600735940630300000, 70725229032424230535000);
  (1703672824624437032200000, 5881529574639624558000000, 70725229032424230535000);
  (5881529574639622337500000, 1703672824624437309700000, 70725229032424230535000);
  (2414797600735940075200000, 5881529574639624558000000, 70725229032424230535000);
  (1703672824624435644400000, 2414797600735942295600000, 70725229032424230535000);
  (3289758089242263428000000, 1697597958607360568700000, 76372213006623132156000);
  (5012643952150375170600000, 3289758089242263983100000, 76372213006623132156000);
  (1697597958607360291200000, 5012643952150377391100000, 76372213006623132156000);
  (5012643952150376280800000, 1697597958607360568700000, 76372213006623132156000);
  (3289758089242263983100000, 5012643952150377391100000, 76372213006623132156000);
  (1697597958607359458500000, 3289758089242265648400000, 76372213006623132156000);
  (409856290011169493990000, 409856290011172616490000, 19168498654645916863000);
  (9180287419977657403800000, 409856290011169424600000, 19168498654645916863000);
  (409856290011174073660000, 9180287419977658514000000, 19168498654645916863000);
  (67312708878882569763000, 67312708878885310626000, 3086272527483215782400);
  (9865374582242232293100000, 67312708878882110061000, 3086272527483215782400);
  (67312708878887184127000, 9865374582242232293100000, 3086272527483215782400);
  (931674097798811384760000, 383182258210193957270000, 26831357270838841061000);
  (8685143643990994588600000, 931674097798811523540000, 26831357270838841061000);
  (383182258210195136880000, 8685143643990995698800000, 26831357270838841061000);
  (8685143643990994588600000, 383182258210193957270000, 26831357270838841061000);
  (931674097798812494990000, 8685143643990995698800000, 26831357270838841061000);
  (383182258210191251100000, 931674097798814715430000, 26831357270838841061000);
  (3945202798001943289600000, 926564815207575470660000, 75159271748706712665000);
  (5128232386790481101000000, 3945202798001944399800000, 75159271748706712665000);
  (926564815207574499210000, 5128232386790483321400000, 75159271748706712665000);
  (5128232386790481101000000, 926564815207575470660000, 75159271748706712665000);
  (3945202798001943844700000, 5128232386790482211200000, 75159271748706712665000);
  (926564815207574499210000, 3945202798001945510000000, 75159271748706712665000);
  (1626774163944774143100000, 411887142484753873690000, 36020670873987141632000);
  (7961338693570472191400000, 1626774163944773865500000, 36020670873987141632000);
  (411887142484755885970000, 7961338693570472191400000, 36020670873987141632000);
  (7961338693570472191400000, 411887142484753873690000, 36020670873987141632000);
  (1626774163944775253300000, 7961338693570472191400000, 36020670873987141632000);
  (411887142484751583860000, 1626774163944777196200000, 36020670873987141632000);
  (2535890142188794715800000, 395709049701580550810000, 44524384640817829539000);
  (7068400808109625010900000, 2535890142188794715800000, 44524384640817829539000);
  (395709049701580828360000, 7068400808109626121100000, 44524384640817829539000);
  (7068400808109625010900000, 395709049701580550810000, 44524384640817829539000);
  (2535890142188795271000000, 7068400808109626121100000, 44524384640817829539000);
  (395709049701578885470000, 2535890142188797491400000, 44524384640817829539000);
  (3622522413177912681300000, 385927001748961398530000, 49736259378412098209000);
  (5991550585073126544700000, 3622522413177913791500000, 49736259378412098209000);
  (385927001748960774030000, 5991550585073127654900000, 49736259378412098209000);
  (5991550585073125434500000, 385927001748961398530000, 49736259378412098209000);
  (3622522413177913236400000, 5991550585073126544700000, 49736259378412098209000);
  (385927001748960218920000, 3622522413177915456800000, 49736259378412098209000);
  (2816225777061608370700000, 945349617365990324560000, 71761757890787276210000);
  (6238424605572400194500000, 2816225777061609481000000, 71761757890787276210000);
  (945349617365989769450000, 6238424605572403525100000, 71761757890787276210000);
  (6238424605572401304700000, 945349617365990324560000, 71761757890787276210000);
  (2816225777061608370700000, 6238424605572403525100000, 71761757890787276210000);
  (945349617365988381670000, 2816225777061611146300000, 71761757890787276210000);
  (3832726649926592177300000, 73879946322942405615000, 21210746334018844642000);
  (6093393403750465564500000, 3832726649926592732400000, 21210746334018844642000);
  (73879946322941703052000, 6093393403750467785000000, 21210746334018844642000);
  (6093393403750464454300000, 73879946322942405615000, 21210746334018844642000);
  (3832726649926592177300000, 6093393403750466674800000, 21210746334018844642000);
  (73879946322941425496000, 3832726649926594952900000, 21210746334018844642000);
  (2737503525162605089200000, 75460031623128184797000, 20406375385582254528000);
  (7187036443214266379100000, 2737503525162605089200000, 20406375385582254528000);
  (75460031623128531741000, 7187036443214269709800000, 20406375385582254528000);
  (7187036443214266379100000, 75460031623128184797000, 20406375385582254528000);
  (2737503525162605644300000, 7187036443214267489300000, 20406375385582254528000);
  (75460031623125756184000, 2737503525162607864700000, 20406375385582254528000);
  (4962552776757351291600000, 74894446485297954536000, 21716233610853488169000);
  (4962552776757350736500000, 4962552776757351846700000, 21716233610853488169000);
  (74894446485297139215000, 4962552776757353512100000, 21716233610853488169000);
  (941213427973660310410000, 72345584577821397607000, 12946061911989924145000);
  (8986440987448518491500000, 941213427973660310410000, 12946061911989924145000);
  (72345584577822030781000, 8986440987448520711900000, 12946061911989924145000);
  (8986440987448518491500000, 72345584577821397607000, 12946061911989924145000);
  (941213427973661143080000, 8986440987448519601700000, 12946061911989924145000);
  (72345584577818769501000, 941213427973663779860000, 12946061911989924145000);
  (2642313154382724960100000, 2642313154382726625400000, 102600043357549217810000);
  (4715373691234548414500000, 2642313154382726070300000, 102600043357549217810000);
  (2642313154382726625400000, 4715373691234548969600000, 102600043357549217810000);
  (1803961518867657210000000, 955662695273652579300000, 59217810712715547236000);
  (7240375785858689239300000, 1803961518867657487500000, 59217810712715547236000);
  (955662695273653550740000, 7240375785858691459800000, 59217810712715547236000);
  (7240375785858689239300000, 955662695273652579300000, 59217810712715547236000);
  (1803961518867657210000000, 7240375785858692570000000, 59217810712715547236000);
  (955662695273650081300000, 1803961518867659708000000, 59217810712715547236000);
  (4806125617925032234000000, 387748764149935185030000, 51762473854263012576000);
  (4806125617925032789100000, 4806125617925033344200000, 51762473854263012576000);
  (387748764149934421750000, 4806125617925034454500000, 51762473854263012576000);
  (1747373462828056833700000, 79879218808479677399000, 18536133821231543482000);
  (8172747318363463575600000, 1747373462828056556200000, 18536133821231543482000);
  (79879218808480145775000, 8172747318363465796100000, 18536133821231543482000);
  (8172747318363462465400000, 79879218808479677399000, 18536133821231543482000);
  (1747373462828057388800000, 8172747318363465796100000, 18536133821231543482000);
  (79879218808477647773000, 1747373462828059609300000, 18536133821231543482000);
  (963284955992150526690000, 963284955992153441030000, 50136965336944538593000);
  (8073430088015696171100000, 963284955992150804250000, 50136965336944538593000);
  (963284955992153579810000, 8073430088015697281300000, 50136965336944538593000);
  (372914720512912134520000, 80749108702087776801000, 8984737927232882724300);
  (9546336170785000296800000, 372914720512911648800000, 8984737927232882724300);
  (80749108702090066636000, 9546336170785000296800000, 8984737927232882724300);
  (9546336170785000296800000, 80749108702087776801000, 8984737927232882724300);
  (372914720512914077410000, 9546336170785000296800000, 8984737927232882724300);
  (80749108702084862466000, 372914720512916159080000, 8984737927232882724300);
  (3753529267020862536500000, 2492941465958274927000000, 94972932586763290225000);
  (3753529267020863091600000, 3753529267020863646700000, 94972932586763290225000);
  (2492941465958273816700000, 3753529267020864201900000, 94972932586763290225000)].

(** quad_rules_tria.cc:3327-3694 *)
Definition tab_25 : list (Z * Z * Z) := [
  (3876420304045633535800000, 2247159391908732373200000, 68449257741361232282000);
  (3876420304045634091000000, 3876420304045634646100000, 68449257741361232282000);
  (2247159391908731263000000, 3876420304045635756300000, 68449257741361232282000);
  (2110045080614965651300000, 2110045080614967594200000, 57936316180052967184000);
  (5779909838770066477000000, 2110045080614966206400000, 57936316180052967184000);
  (2110045080614966761500000, 5779909838770068697400000, 57936316180052967184000);
  (4404169274793433008800000, 18188666342743881488000, 8374089159673526279100);
  (5577642058863823137900000, 4404169274793433563900000, 8374089159673526279100);
  (18188666342743298188000, 5577642058863825358400000, 8374089159673526279100);
  (5577642058863823137900000, 18188666342743881488000, 8374089159673526279100);
  (4404169274793433563900000, 5577642058863823137900000, 8374089159673526279100);
  (18188666342742743076000, 4404169274793435784300000, 8374089159673526279100);
  (2994923158045084132800000, 2994923158045086353200000, 90088203508507380679000);
  (4010153683909830069100000, 2994923158045085243000000, 90088203508507380679000);
  (2994923158045084132800000, 4010153683909831179300000, 90088203508507380679000);
  (1590079061973278806700000, 369601415796714863340000, 31557390123796375328000);
  (8040319522230005011600000, 1590079061973278806700000, 31557390123796375328000);
  (369601415796715904170000, 8040319522230007232000000, 31557390123796375328000);
  (8040319522230007232000000, 369601415796714863340000, 31557390123796375328000);
  (1590079061973279084300000, 8040319522230007232000000, 31557390123796375328000);
  (369601415796712712280000, 1590079061973281582300000, 31557390123796375328000);
  (372229259924406336020000, 372229259924409458530000, 16986488609523682936000);
  (9255541480151183719700000, 372229259924406266640000, 16986488609523682936000);
  (372229259924410360580000, 9255541480151185940200000, 16986488609523682936000);
  (1773537967572528795100000, 788580680056353011680000, 47575107837278859252000);
  (7437881352371117360500000, 1773537967572529072700000, 47575107837278859252000);
  (788580680056353844340000, 7437881352371119581000000, 47575107837278859252000);
  (7437881352371118470800000, 788580680056353011680000, 47575107837278859252000);
  (1773537967572529905300000, 7437881352371119581000000, 47575107837278859252000);
  (788580680056350930010000, 1773537967572531848200000, 47575107837278859252000);
  (1451092435745002240400000, 1451092435745004738400000, 57457629312823998990000);
  (7097815128509992188600000, 1451092435745002795500000, 57457629312823998990000);
  (1451092435745005571100000, 7097815128509993298800000, 57457629312823998990000);
  (2700667358209593582600000, 688475294314979391340000, 54421968062184607542000);
  (6610857347475426193400000, 2700667358209594137700000, 54421968062184607542000);
  (688475294314979113790000, 6610857347475428413800000, 54421968062184607542000);
  (6610857347475427303600000, 688475294314979391340000, 54421968062184607542000);
  (2700667358209593582600000, 6610857347475428413800000, 54421968062184607542000);
  (688475294314977448450000, 2700667358209596358200000, 54421968062184607542000);
  (3413910330211498700400000, 1159998076409602119100000, 79201761439492181227000);
  (5426091593378898903000000, 3413910330211499255500000, 79201761439492181227000);
  (1159998076409601841500000, 5426091593378901123400000, 79201761439492181227000);
  (5426091593378898903000000, 1159998076409602119100000, 79201761439492181227000);
  (3413910330211498700400000, 5426091593378900013200000, 79201761439492181227000);
  (1159998076409600731300000, 3413910330211500365700000, 79201761439492181227000);
  (3739379797195843679900000, 483174342873769688270000, 53200853477543934289000);
  (5777445859930385729800000, 3739379797195844235000000, 53200853477543934289000);
  (483174342873769480100000, 5777445859930387950200000, 53200853477543934289000);
  (5777445859930386840000000, 483174342873769688270000, 53200853477543934289000);
  (3739379797195844790100000, 5777445859930386840000000, 53200853477543934289000);
  (483174342873768369880000, 3739379797195846455400000, 53200853477543934289000);
  (991330633416821899170000, 71283145012574263694000, 12726358126745073752000);
  (8937386221570603472800000, 991330633416821621620000, 12726358126745073752000);
  (71283145012575599431000, 8937386221570604583100000, 12726358126745073752000);
  (8937386221570603472800000, 71283145012574263694000, 12726358126745073752000);
  (991330633416822593060000, 8937386221570604583100000, 12726358126745073752000);
  (71283145012572060595000, 991330633416825229840000, 12726358126745073752000);
  (2995064186296745312200000, 2036929105842510412400000, 89569104461380295162000);
  (4968006707860744830500000, 2995064186296745867300000, 89569104461380295162000);
  (2036929105842509857300000, 4968006707860745940800000, 89569104461380295162000);
  (4968006707860744830500000, 2036929105842510412400000, 89569104461380295162000);
  (2995064186296745312200000, 4968006707860745940800000, 89569104461380295162000);
  (2036929105842509024600000, 2995064186296746977500000, 89569104461380295162000);
  (4247593045405747003200000, 1504813909188505993700000, 79556550687292105356000);
  (4247593045405746448000000, 4247593045405748113400000, 79556550687292105356000);
  (1504813909188504605900000, 4247593045405749223600000, 79556550687292105356000);
  (1786298486036162480600000, 72361617479481587720000, 16318698410246214574000);
  (8141339896484356408700000, 1786298486036162480600000, 16318698410246214574000);
  (72361617479482220894000, 8141339896484357519000000, 16318698410246214574000);
  (8141339896484356408700000, 72361617479481587720000, 16318698410246214574000);
  (1786298486036163590800000, 8141339896484357519000000, 16318698410246214574000);
  (72361617479479306558000, 1786298486036165533700000, 16318698410246214574000);
  (3620688018959720144700000, 129138832500325321380000, 27273191839872141032000);
  (6250173148539954759400000, 3620688018959720699800000, 27273191839872141032000);
  (129138832500325095860000, 6250173148539956979900000, 27273191839872141032000);
  (6250173148539953649200000, 129138832500325321380000, 27273191839872141032000);
  (3620688018959720699800000, 6250173148539955869700000, 27273191839872141032000);
  (129138832500324540750000, 3620688018959722365200000, 27273191839872141032000);
  (887929154893665473210000, 376879497842590865940000, 26362809607147100026000);
  (8735191347263743244500000, 887929154893665611990000, 26362809607147100026000);
  (376879497842592114940000, 8735191347263744354700000, 26362809607147100026000);
  (8735191347263743244500000, 376879497842590865940000, 26362809607147100026000);
  (887929154893666305880000, 8735191347263744354700000, 26362809607147100026000);
  (376879497842588090380000, 887929154893668803880000, 26362809607147100026000);
  (2336228101417152092100000, 1370066940870710015000000, 68700412960112765964000);
  (6293704957712137337800000, 2336228101417152924800000, 68700412960112765964000);
  (1370066940870710015000000, 6293704957712139558300000, 68700412960112765964000);
  (6293704957712138448000000, 1370066940870710015000000, 68700412960112765964000);
  (2336228101417152092100000, 6293704957712139558300000, 68700412960112765964000);
  (1370066940870707794500000, 2336228101417154590100000, 68700412960112765964000);
  (4622087087487061207700000, 755825825025878000880000, 68271375937640080625000);
  (4622087087487061207700000, 4622087087487061762800000, 68271375937640080625000);
  (755825825025877029440000, 4622087087487063428200000, 68271375937640080625000);
  (2565954097090197838500000, 245400602475243957700000, 36571704539664238662000);
  (7188645300434557405800000, 2565954097090198393600000, 36571704539664238662000);
  (245400602475244755670000, 7188645300434558516000000, 36571704539664238662000);
  (7188645300434558516000000, 245400602475243957700000, 36571704539664238662000);
  (2565954097090198948700000, 7188645300434558516000000, 36571704539664238662000);
  (245400602475241702560000, 2565954097090201169200000, 36571704539664238662000);
  (929497017007697989840000, 929497017007700487850000, 45914106299100188729000);
  (8141005965984600134500000, 929497017007698267400000, 45914106299100188729000);
  (929497017007701042960000, 8141005965984602355000000, 45914106299100188729000);
  (410688191117846435050000, 71888282616930409066000, 8464918170636661796600);
  (9517423526265222921700000, 410688191117845879940000, 8464918170636661796600);
  (71888282616932586144000, 9517423526265224031900000, 8464918170636661796600);
  (9517423526265224031900000, 71888282616930409066000, 8464918170636661796600);
  (410688191117847822830000, 9517423526265224031900000, 8464918170636661796600);
  (71888282616928006474000, 410688191117849765720000, 8464918170636661796600);
  (78353442826036307639000, 78353442826039031155000, 4032551441623084343200);
  (9843293114347924088700000, 78353442826035821916000, 4032551441623084343200);
  (78353442826041286295000, 9843293114347926309200000, 4032551441623084343200);
  (4890393696603954620800000, 219212606792090758390000, 42220429732605386369000);
  (4890393696603954620800000, 4890393696603955175900000, 42220429732605386369000);
  (219212606792090480830000, 4890393696603956841300000, 42220429732605386369000);
  (2794161886492607105300000, 8914643174981281724100, 7558510392294402096100);
  (7196923470332411421100000, 2794161886492607105300000, 7558510392294402096100);
  (8914643174980918516300, 7196923470332414751700000, 7558510392294402096100);
  (7196923470332411421100000, 8914643174981281724100, 7558510392294402096100);
  (2794161886492607660400000, 7196923470332412531300000, 7558510392294402096100);
  (8914643174979808293300, 2794161886492609880900000, 7558510392294402096100)].
