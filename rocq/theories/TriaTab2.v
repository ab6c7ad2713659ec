(** Points and weights of lib/lf/quad/quad_rules_tria.cc, rules 26 to 31: for every
    column (points(0, i), points(1, i), weights(i)) times 10^25.  The decimal literals
    are taken exactly as written; their rounding to double is not modelled. *)
From Coq Require Import List ZArith.
Import ListNotations.
Local Open Scope Z_scope.

(** quad_rules_tria.cc:3697-4094 *)
Definition tab_26 : list (Z * Z * Z) := [
  (800716549403165389620000, 47946609754366785461000, 6992632240801363802500);
  (9151336840842467790200000, 800716549403165112060000, 6992632240801363802500);
  (47946609754368485490000, 9151336840842468900400000, 6992632240801363802500);
  (9151336840842467790200000, 47946609754366785461000, 6992632240801363802500);
  (800716549403165944730000, 9151336840842468900400000, 6992632240801363802500);
  (47946609754364669098000, 800716549403168581510000, 6992632240801363802500);
  (316436115715307692000000, 291551962068358448690000, 6027823868584430153400);
  (9392011922216334518500000, 316436115715307275660000, 6027823868584430153400);
  (291551962068359871160000, 9392011922216335628700000, 6027823868584430153400);
  (9392011922216333408300000, 291551962068358448690000, 6027823868584430153400);
  (316436115715307830780000, 9392011922216335628700000, 6027823868584430153400);
  (291551962068356297630000, 316436115715311092060000, 6027823868584430153400);
  (667371225764660652710000, 667371225764663844600000, 24569126514830102320000);
  (8665257548470675086300000, 667371225764660375160000, 24569126514830102320000);
  (667371225764664677270000, 8665257548470677306800000, 24569126514830102320000);
  (753800475153986598850000, 262093640224986615390000, 16527723564838357750000);
  (8984105884621026438800000, 753800475153986321300000, 16527723564838357750000);
  (262093640224987378670000, 8984105884621028659300000, 16527723564838357750000);
  (8984105884621026438800000, 262093640224986615390000, 16527723564838357750000);
  (753800475153986182520000, 8984105884621029769500000, 16527723564838357750000);
  (262093640224984048000000, 753800475153989513190000, 16527723564838357750000);
  (331000343360322718530000, 56981179168752180489000, 5428536714983776692900);
  (9612018477470924970900000, 331000343360322510370000, 5428536714983776692900);
  (56981179168753559594000, 9612018477470927191300000, 5428536714983776692900);
  (9612018477470924970900000, 56981179168752180489000, 5428536714983776692900);
  (331000343360323689980000, 9612018477470927191300000, 5428536714983776692900);
  (56981179168748667674000, 331000343360325702260000, 5428536714983776692900);
  (63401164920766830274000, 63401164920769579811000, 2634765583409360493800);
  (9873197670158463390400000, 63401164920766370572000, 2634765583409360493800);
  (63401164920770525235000, 9873197670158465610900000, 2634765583409360493800);
  (1324861896145672901500000, 417247227421209468390000, 32017989498564105970000);
  (8257890876433117144400000, 1324861896145673179100000, 32017989498564105970000);
  (417247227421210231670000, 8257890876433118254600000, 32017989498564105970000);
  (8257890876433117144400000, 417247227421209468390000, 32017989498564105970000);
  (1324861896145673734200000, 8257890876433118254600000, 32017989498564105970000);
  (417247227421207317330000, 1324861896145676232200000, 32017989498564105970000);
  (1086871329144021014500000, 1000456591065275596700000, 23071055381891601710000);
  (7912672079790702417400000, 1086871329144021292000000, 23071055381891601710000);
  (1000456591065276290600000, 7912672079790704637900000, 23071055381891601710000);
  (7912672079790703527600000, 1000456591065275596700000, 23071055381891601710000);
  (1086871329144021847100000, 7912672079790704637900000, 23071055381891601710000);
  (1000456591065273237500000, 1086871329144024206400000, 23071055381891601710000);
  (4937530328963847803300000, 124939342072304879210000, 26510795909336745853000);
  (4937530328963847248100000, 4937530328963848358400000, 26510795909336745853000);
  (124939342072304393480000, 4937530328963849468600000, 26510795909336745853000);
  (2502723132905264602500000, 1206144022052490355500000, 71897366137993736976000);
  (6291132845042245458300000, 2502723132905264602500000, 71897366137993736976000);
  (1206144022052489939200000, 6291132845042246568600000, 71897366137993736976000);
  (6291132845042245458300000, 1206144022052490355500000, 71897366137993736976000);
  (2502723132905265157600000, 6291132845042245458300000, 71897366137993736976000);
  (1206144022052488828900000, 2502723132905266822900000, 71897366137993736976000);
  (3890220620427617404000000, 295379425169078370370000, 41298836085434213750000);
  (5814399954403304260400000, 3890220620427617959100000, 41298836085434213750000);
  (295379425169078335680000, 5814399954403305370600000, 41298836085434213750000);
  (5814399954403304260400000, 295379425169078370370000, 41298836085434213750000);
  (3890220620427617959100000, 5814399954403304260400000, 41298836085434213750000);
  (295379425169076947900000, 3890220620427620734600000, 41298836085434213750000);
  (3585092964276615501400000, 873784651638445236670000, 68639791080428542644000);
  (5541122384084939955800000, 3585092964276616056600000, 68639791080428542644000);
  (873784651638444542780000, 5541122384084942176200000, 68639791080428542644000);
  (5541122384084939955800000, 873784651638445236670000, 68639791080428542644000);
  (3585092964276615501400000, 5541122384084941066000000, 68639791080428542644000);
  (873784651638443710110000, 3585092964276617721900000, 68639791080428542644000);
  (3887874971075939711800000, 2224250057848120021300000, 97340339185914438042000);
  (3887874971075940266900000, 3887874971075940822000000, 97340339185914438042000);
  (2224250057848119188600000, 3887874971075941377100000, 97340339185914438042000);
  (1868691794762215585600000, 763119015129594124860000, 51988227640871647120000);
  (7368189190108189734500000, 1868691794762215585600000, 51988227640871647120000);
  (763119015129595235080000, 7368189190108191954900000, 51988227640871647120000);
  (7368189190108189734500000, 763119015129594124860000, 51988227640871647120000);
  (1868691794762216140700000, 7368189190108191954900000, 51988227640871647120000);
  (763119015129591765630000, 1868691794762218638700000, 51988227640871647120000);
  (2731471009290786788900000, 2731471009290788454200000, 97678234616237757937000);
  (4537057981418424756900000, 2731471009290787899100000, 97678234616237757937000);
  (2731471009290787899100000, 4537057981418426422200000, 97678234616237757937000);
  (4147059095903062875300000, 20575309653708658345000, 9285737354990424496600);
  (5832365594443229550600000, 4147059095903062875300000, 9285737354990424496600);
  (20575309653708129254000, 5832365594443230660800000, 9285737354990424496600);
  (5832365594443229550600000, 20575309653708658345000, 9285737354990424496600);
  (4147059095903062875300000, 5832365594443229550600000, 9285737354990424496600);
  (20575309653707296587000, 4147059095903065650800000, 9285737354990424496600);
  (3194153053834387079300000, 1704787284972489602700000, 87995835903476090495000);
  (5101059661193123595500000, 3194153053834387634400000, 87995835903476090495000);
  (1704787284972488770100000, 5101059661193125816000000, 87995835903476090495000);
  (5101059661193123595500000, 1704787284972489602700000, 87995835903476090495000);
  (3194153053834387079300000, 5101059661193124705700000, 87995835903476090495000);
  (1704787284972488214900000, 3194153053834388744600000, 87995835903476090495000);
  (1437376261997640181100000, 79996080914843028381000, 14833808313282534873000);
  (8482627657087516981300000, 1437376261997640181100000, 14833808313282534873000);
  (79996080914843670229000, 8482627657087518091600000, 14833808313282534873000);
  (8482627657087516981300000, 79996080914843028381000, 14833808313282534873000);
  (1437376261997641568900000, 8482627657087518091600000, 14833808313282534873000);
  (79996080914840339560000, 1437376261997643789300000, 14833808313282534873000);
  (4718285633211660168300000, 563428733576679940940000, 57642518173284494620000);
  (4718285633211660723400000, 4718285633211660723400000, 57642518173284494620000);
  (563428733576678830720000, 4718285633211662388800000, 57642518173284494620000);
  (1542014303645441730700000, 1542014303645444228700000, 66276297242726378567000);
  (6915971392709113763100000, 1542014303645442285800000, 66276297242726378567000);
  (1542014303645444228700000, 6915971392709115983500000, 66276297242726378567000);
  (2837881388594704068500000, 511658736851377873860000, 50535622160443448986000);
  (6650459874553917849500000, 2837881388594704623600000, 50535622160443448986000);
  (511658736851377526910000, 6650459874553920069900000, 50535622160443448986000);
  (6650459874553917849500000, 511658736851377873860000, 50535622160443448986000);
  (2837881388594704623600000, 6650459874553918959700000, 50535622160443448986000);
  (511658736851376416690000, 2837881388594707399200000, 50535622160443448986000);
  (2120431633022055173400000, 2120431633022057393800000, 84721725392640501173000);
  (5759136733955887432800000, 2120431633022056006100000, 84721725392640501173000);
  (2120431633022056838700000, 5759136733955888543000000, 84721725392640501173000);
  (4359854193843831771100000, 1280291612312336457800000, 82062003012939553626000);
  (4359854193843831771100000, 4359854193843832326200000, 82062003012939553626000);
  (1280291612312335347600000, 4359854193843833991600000, 82062003012939553626000);
  (2165466664734771173900000, 227845992508956714240000, 31346689230402858747000);
  (7606687342756272007800000, 2165466664734771173900000, 31346689230402858747000);
  (227845992508956540770000, 7606687342756275338500000, 31346689230402858747000);
  (7606687342756272007800000, 227845992508956714240000, 31346689230402858747000);
  (2165466664734772006500000, 7606687342756273118000000, 31346689230402858747000);
  (227845992508955014210000, 2165466664734773949400000, 31346689230402858747000);
  (3333333333333332593200000, 3333333333333334258500000, 102433312946116263780000);
  (3128985030748799856000000, 94732979122135619471000, 22957791936993200005000);
  (6776281990129064958200000, 3128985030748799856000000, 22957791936993200005000);
  (94732979122135740901000, 6776281990129066068500000, 22957791936993200005000);
  (6776281990129063848000000, 94732979122135619471000, 22957791936993200005000);
  (3128985030748800411100000, 6776281990129066068500000, 22957791936993200005000);
  (94732979122133798011000, 3128985030748802631500000, 22957791936993200005000);
  (2264347974077175196200000, 4640077321756527935200, 5697744579341069721300);
  (7731011948601068661800000, 2264347974077175196200000, 5697744579341069721300);
  (4640077321756974626500, 7731011948601069772000000, 5697744579341069721300);
  (7731011948601068661800000, 4640077321756527935200, 5697744579341069721300);
  (2264347974077175473800000, 7731011948601069772000000, 5697744579341069721300);
  (4640077321755170514100, 2264347974077177971800000, 5697744579341069721300)].

(** quad_rules_tria.cc:4097-4527 *)
Definition tab_27 : list (Z * Z * Z) := [
  (3807140211811871344200000, 2385719576376256756400000, 47800424837299536340000);
  (3807140211811871344200000, 3807140211811872454500000, 47800424837299536340000);
  (2385719576376255923700000, 3807140211811873009600000, 47800424837299536340000);
  (4466678037038645521200000, 1066643925922708541200000, 47050799047271057649000);
  (4466678037038646076300000, 4466678037038646631500000, 47050799047271057649000);
  (1066643925922707569800000, 4466678037038647741700000, 47050799047271057649000);
  (4161413788054121321000000, 1677172423891757357900000, 60251135120752072338000);
  (4161413788054121321000000, 4161413788054122431200000, 60251135120752072338000);
  (1677172423891756247700000, 4161413788054123541500000, 60251135120752072338000);
  (803046477884382658980000, 803046477884385850880000, 26063109364009343603000);
  (8393907044231230241100000, 803046477884382936540000, 26063109364009343603000);
  (803046477884387654990000, 8393907044231231351400000, 26063109364009343603000);
  (2870421965934966124200000, 307306047272728651010000, 27658974168833618326000);
  (6822271986792305398200000, 2870421965934966124200000, 27658974168833618326000);
  (307306047272729587760000, 6822271986792306508500000, 27658974168833618326000);
  (6822271986792305398200000, 307306047272728651010000, 27658974168833618326000);
  (2870421965934965569100000, 6822271986792306508500000, 27658974168833618326000);
  (307306047272727367310000, 2870421965934968344700000, 27658974168833618326000);
  (3450878417155683886000000, 1291526400634497306900000, 62787181020182592645000);
  (5257595182209818807100000, 3450878417155684441100000, 62787181020182592645000);
  (1291526400634497306900000, 5257595182209819917300000, 62787181020182592645000);
  (5257595182209818807100000, 1291526400634497306900000, 62787181020182592645000);
  (3450878417155683886000000, 5257595182209819917300000, 62787181020182592645000);
  (1291526400634495641600000, 3450878417155686106500000, 62787181020182592645000);
  (2334004066698709967100000, 2334004066698712465100000, 67356576990246774805000);
  (5331991866602576735100000, 2334004066698711077300000, 67356576990246774805000);
  (2334004066698711632500000, 5331991866602578955500000, 67356576990246774805000);
  (3759301570486617838400000, 280334860952500125600000, 31975763497271965721000);
  (5960363568560882452400000, 3759301570486618393500000, 31975763497271965721000);
  (280334860952499709260000, 5960363568560884672800000, 31975763497271965721000);
  (5960363568560882452400000, 280334860952500125600000, 31975763497271965721000);
  (3759301570486618393500000, 5960363568560882452400000, 31975763497271965721000);
  (280334860952499154150000, 3759301570486620613900000, 31975763497271965721000);
  (3011654651665091053700000, 3011654651665092719000000, 78739828906813167514000);
  (3976690696669816782500000, 3011654651665092163900000, 78739828906813167514000);
  (3011654651665091053700000, 3976690696669817892700000, 78739828906813167514000);
  (1747799663548999793400000, 1747799663549001736300000, 56412212723491814842000);
  (6504400672901997637600000, 1747799663549000071000000, 56412212723491814842000);
  (1747799663549002291400000, 6504400672901999858100000, 56412212723491814842000);
  (3169455889331319609100000, 2091309211376687626800000, 68576966152754095449000);
  (4739234899291993041700000, 3169455889331320164200000, 68576966152754095449000);
  (2091309211376686516500000, 4739234899291994707000000, 68576966152754095449000);
  (4739234899291992486600000, 2091309211376687626800000, 68576966152754095449000);
  (3169455889331319609100000, 4739234899291994707000000, 68576966152754095449000);
  (2091309211376685683900000, 3169455889331321829500000, 68576966152754095449000);
  (4072283930427198495000000, 660389128497386734830000, 49311350594947768455000);
  (5267326941075414215000000, 4072283930427199605300000, 49311350594947768455000);
  (660389128497386179720000, 5267326941075416435500000, 49311350594947768455000);
  (5267326941075414215000000, 660389128497386734830000, 49311350594947768455000);
  (4072283930427199050200000, 5267326941075415325200000, 49311350594947768455000);
  (660389128497386179720000, 4072283930427200715500000, 49311350594947768455000);
  (2135535984578239288000000, 410305768191818395760000, 32276864524648403443000);
  (7454158247229942801900000, 2135535984578239565600000, 32276864524648403443000);
  (410305768191818187600000, 7454158247229945022400000, 32276864524648403443000);
  (7454158247229942801900000, 410305768191818395760000, 32276864524648403443000);
  (2135535984578239565600000, 7454158247229945022400000, 32276864524648403443000);
  (410305768191816383480000, 2135535984578242063600000, 32276864524648403443000);
  (3288528780688926289600000, 52996403717990364299000, 14639131808995490928000);
  (6658474815593082851700000, 3288528780688927399800000, 14639131808995490928000);
  (52996403717990858695000, 6658474815593085072200000, 14639131808995490928000);
  (6658474815593082851700000, 52996403717990364299000, 14639131808995490928000);
  (3288528780688927399800000, 6658474815593082851700000, 14639131808995490928000);
  (52996403717988915805000, 3288528780688930175400000, 14639131808995490928000);
  (4855650541851627699500000, 288698916296744705070000, 35586187064373157006000);
  (4855650541851628254600000, 4855650541851628254600000, 35586187064373157006000);
  (288698916296743768320000, 4855650541851629920000000, 35586187064373157006000);
  (1392953061421487170900000, 630739954149509007840000, 35653176552435067274000);
  (7976306984429003543700000, 1392953061421487448400000, 35653176552435067274000);
  (630739954149510673180000, 7976306984429003543700000, 35653176552435067274000);
  (7976306984429003543700000, 630739954149509007840000, 35653176552435067274000);
  (1392953061421488558700000, 7976306984429003543700000, 35653176552435067274000);
  (630739954149507342510000, 1392953061421490224000000, 35653176552435067274000);
  (325715201801814874250000, 325715201801817580420000, 13886697644770883316000);
  (9348569596396366643300000, 325715201801814388530000, 13886697644770883316000);
  (325715201801819453920000, 9348569596396369973900000, 13886697644770883316000);
  (2552462546969780365900000, 1489628509382401599900000, 61738315654306721858000);
  (5957908943647818311700000, 2552462546969780365900000, 61738315654306721858000);
  (1489628509382401877500000, 5957908943647819421900000, 61738315654306721858000);
  (5957908943647818311700000, 1489628509382401599900000, 61738315654306721858000);
  (2552462546969779810800000, 5957908943647819421900000, 61738315654306721858000);
  (1489628509382400212100000, 2552462546969782586400000, 61738315654306721858000);
  (2083760156003740537900000, 946970824331307137190000, 53468502948081234397000);
  (6969269019664952047300000, 2083760156003741093000000, 53468502948081234397000);
  (946970824331306859630000, 6969269019664954267800000, 53468502948081234397000);
  (6969269019664952047300000, 946970824331307137190000, 53468502948081234397000);
  (2083760156003741093000000, 6969269019664954267800000, 53468502948081234397000);
  (946970824331305055520000, 2083760156003743591000000, 53468502948081234397000);
  (4400105519462154668500000, 55807170152601176180000, 16212337988196681010000);
  (5544087310385245048700000, 4400105519462154668500000, 16212337988196681010000);
  (55807170152600282798000, 5544087310385247269200000, 16212337988196681010000);
  (5544087310385243938500000, 55807170152601176180000, 16212337988196681010000);
  (4400105519462154668500000, 5544087310385245048700000, 16212337988196681010000);
  (55807170152600005242000, 4400105519462156888900000, 16212337988196681010000);
  (1275709019046774583800000, 1275709019046777081800000, 48716224614088581013000);
  (7448581961906448611900000, 1275709019046774583800000, 48716224614088581013000);
  (1275709019046777914500000, 7448581961906448611900000, 48716224614088581013000);
  (3022209412278211160300000, 750769024331962436800000, 54653055464566344460000);
  (6227021563389826264200000, 3022209412278211715400000, 54653055464566344460000);
  (750769024331962575580000, 6227021563389828484600000, 54653055464566344460000);
  (6227021563389826264200000, 750769024331962436800000, 54653055464566344460000);
  (3022209412278211160300000, 6227021563389828484600000, 54653055464566344460000);
  (750769024331961187800000, 3022209412278213380700000, 54653055464566344460000);
  (819468025835336788540000, 69825293244590181524000, 10075615636448496774000);
  (9110706680920073186100000, 819468025835336510990000, 10075615636448496774000);
  (69825293244591413178000, 9110706680920074296300000, 10075615636448496774000);
  (9110706680920073186100000, 69825293244590181524000, 10075615636448496774000);
  (819468025835337621210000, 9110706680920074296300000, 10075615636448496774000);
  (69825293244587596786000, 819468025835340257990000, 10075615636448496774000);
  (343649699121419890950000, 60935694037648341359000, 5983868042365805568100);
  (9595414606840930726900000, 343649699121419821560000, 5983868042365805568100);
  (60935694037650423027000, 9595414606840931837100000, 5983868042365805568100);
  (9595414606840930726900000, 60935694037648341359000, 5983868042365805568100);
  (343649699121420515450000, 9595414606840934057500000, 5983868042365805568100);
  (60935694037645565801000, 343649699121423013450000, 5983868042365805568100);
  (801120738471011173410000, 350344225276973952890000, 21635790176803533849000);
  (8848535036252014318600000, 801120738471010757080000, 21635790176803533849000);
  (350344225276975063110000, 8848535036252016539000000, 21635790176803533849000);
  (8848535036252014318600000, 350344225276973952890000, 21635790176803533849000);
  (801120738471011728520000, 8848535036252016539000000, 21635790176803533849000);
  (350344225276971593660000, 801120738471014226520000, 21635790176803533849000);
  (66392191809585988233000, 66392191809589136756000, 2877212028352507710100);
  (9867215616380824450000000, 66392191809585936191000, 2877212028352507710100);
  (66392191809589995444000, 9867215616380826670500000, 2877212028352507710100);
  (1472134318989224699400000, 193520013180389742480000, 23111935558905514869000);
  (8334345667830385107100000, 1472134318989224699400000, 23111935558905514869000);
  (193520013180389915950000, 8334345667830388437700000, 23111935558905514869000);
  (8334345667830385107100000, 193520013180389742480000, 23111935558905514869000);
  (1472134318989224977000000, 8334345667830388437700000, 23111935558905514869000);
  (193520013180387834280000, 1472134318989227475000000, 23111935558905514869000);
  (2297196532578432148800000, 73324725490404576642000, 16971268694035111790000);
  (7629478741931163821000000, 2297196532578432426300000, 16971268694035111790000);
  (73324725490405140427000, 7629478741931164931200000, 16971268694035111790000);
  (7629478741931162710800000, 73324725490404576642000, 16971268694035111790000);
  (2297196532578432703900000, 7629478741931163821000000, 16971268694035111790000);
  (73324725490402781203000, 2297196532578435201900000, 16971268694035111790000);
  (1476555211198697925600000, 4903284434629745112600, 4233030678819246729300);
  (8518541504366672345600000, 1476555211198697925600000, 4233030678819246729300);
  (4903284434630283961100, 8518541504366673455800000, 4233030678819246729300);
  (8518541504366672345600000, 4903284434629745112600, 4233030678819246729300);
  (1476555211198698480700000, 8518541504366673455800000, 4233030678819246729300);
  (4903284434627369625700, 1476555211198701533800000, 4233030678819246729300)].

(** quad_rules_tria.cc:4530-4987 *)
Definition tab_28 : list (Z * Z * Z) := [
  (3039829225164840664800000, 3039829225164842330100000, 71812331503230616980000);
  (3920341549670316450000000, 3039829225164842330100000, 71812331503230616980000);
  (3039829225164840664800000, 3920341549670318670500000, 71812331503230616980000);
  (455054005583463913600000, 215243853694561254610000, 10587697788404485007000);
  (9329702140721973791000000, 455054005583463636040000, 10587697788404485007000);
  (215243853694563336280000, 9329702140721976011400000, 10587697788404485007000);
  (9329702140721973791000000, 215243853694561254610000, 10587697788404485007000);
  (455054005583465093210000, 9329702140721976011400000, 10587697788404485007000);
  (215243853694558028020000, 455054005583466827930000, 10587697788404485007000);
  (2133944547670872937700000, 490696693575595060950000, 29478361172571207992000);
  (7375358758753531862600000, 2133944547670872937700000, 29478361172571207992000);
  (490696693575595199730000, 7375358758753534083000000, 29478361172571207992000);
  (7375358758753531862600000, 490696693575595060950000, 29478361172571207992000);
  (2133944547670873492800000, 7375358758753532972800000, 29478361172571207992000);
  (490696693575593118060000, 2133944547670875990800000, 29478361172571207992000);
  (48041261966578615791000, 48041261966581833703000, 1555676043407480549400);
  (9903917476066839142800000, 48041261966578624465000, 1555676043407480549400);
  (48041261966583759246000, 9903917476066839142800000, 1555676043407480549400);
  (4582799042404119283000000, 834401915191761434090000, 44258525054465770385000);
  (4582799042404119838100000, 4582799042404120393200000, 44258525054465770385000);
  (834401915191760601420000, 4582799042404121503400000, 44258525054465770385000);
  (2421025119193196406500000, 1776584502963703127200000, 62786281083384350848000);
  (5802390377843100743900000, 2421025119193197516800000, 62786281083384350848000);
  (1776584502963703404700000, 5802390377843100743900000, 62786281083384350848000);
  (5802390377843100743900000, 1776584502963703127200000, 62786281083384350848000);
  (2421025119193197516800000, 5802390377843100743900000, 62786281083384350848000);
  (1776584502963701739400000, 2421025119193198627000000, 62786281083384350848000);
  (3862679735700420558000000, 2274640528599159439200000, 71052931952240890034000);
  (3862679735700420002900000, 3862679735700421668200000, 71052931952240890034000);
  (2274640528599158051400000, 3862679735700422223300000, 71052931952240890034000);
  (3271907320191699830600000, 1898123562927368779300000, 65530570620496875894000);
  (4829969116880932222800000, 3271907320191700385700000, 65530570620496875894000);
  (1898123562927368224200000, 4829969116880932777900000, 65530570620496875894000);
  (4829969116880931667700000, 1898123562927368779300000, 65530570620496875894000);
  (3271907320191700385700000, 4829969116880932777900000, 65530570620496875894000);
  (1898123562927367669100000, 3271907320191702051000000, 65530570620496875894000);
  (1419981669331742413200000, 44583820232893221769000, 8894477096277561036000);
  (8535434510435363497600000, 1419981669331741858100000, 8894477096277561036000);
  (44583820232894089131000, 8535434510435366828300000, 8894477096277561036000);
  (8535434510435364607900000, 44583820232893221769000, 8894477096277561036000);
  (1419981669331742413200000, 8535434510435366828300000, 8894477096277561036000);
  (44583820232890342128000, 1419981669331745466300000, 8894477096277561036000);
  (1753963931914617191400000, 876779764843520492690000, 40059646433474784682000);
  (7369256303241862315900000, 1753963931914617469000000, 40059646433474784682000);
  (876779764843521047800000, 7369256303241863426100000, 40059646433474784682000);
  (7369256303241862315900000, 876779764843520492690000, 40059646433474784682000);
  (1753963931914617746500000, 7369256303241863426100000, 40059646433474784682000);
  (876779764843518549800000, 1753963931914619967000000, 40059646433474784682000);
  (3921396133344144940800000, 631803276344106712340000, 42323478671382995520000);
  (5446800590311747791700000, 3921396133344145495900000, 42323478671382995520000);
  (631803276344106712340000, 5446800590311750012200000, 42323478671382995520000);
  (5446800590311747791700000, 631803276344106712340000, 42323478671382995520000);
  (3921396133344144940800000, 5446800590311748901900000, 42323478671382995520000);
  (631803276344105879670000, 3921396133344147716400000, 42323478671382995520000);
  (2582640721504620984200000, 2582640721504622649500000, 65463742945444788543000);
  (4834718556990756366300000, 2582640721504622094400000, 65463742945444788543000);
  (2582640721504622094400000, 4834718556990758031600000, 65463742945444788543000);
  (3341456150359213284100000, 41494641339236736435000, 11883821338438908116000);
  (6617049208301550855500000, 3341456150359213284100000, 11883821338438908116000);
  (41494641339236415511000, 6617049208301553076000000, 11883821338438908116000);
  (6617049208301549745300000, 41494641339236736435000, 11883821338438908116000);
  (3341456150359213284100000, 6617049208301550855500000, 11883821338438908116000);
  (41494641339235027733000, 3341456150359216059600000, 11883821338438908116000);
  (1741461960511821449600000, 227948049259162482950000, 21384711675089709652000);
  (8030589990229016761300000, 1741461960511821449600000, 21384711675089709652000);
  (227948049259162899280000, 8030589990229017871600000, 21384711675089709652000);
  (8030589990229015651100000, 227948049259162482950000, 21384711675089709652000);
  (1741461960511822004700000, 8030589990229017871600000, 21384711675089709652000);
  (227948049259159846170000, 1741461960511824780300000, 21384711675089709652000);
  (2758390080718242098900000, 227008443717970145870000, 25656386910186466770000);
  (7014601475563788657300000, 2758390080718241543800000, 25656386910186466770000);
  (227008443717970909150000, 7014601475563789767500000, 25656386910186466770000);
  (7014601475563787547100000, 227008443717970145870000, 25656386910186466770000);
  (2758390080718242098900000, 7014601475563789767500000, 25656386910186466770000);
  (227008443717968411150000, 2758390080718244319300000, 25656386910186466770000);
  (262226671646522725700000, 61496485426639707975000, 4742702129446999025400);
  (9676276842926837540300000, 262226671646522309370000, 4742702129446999025400);
  (61496485426641989136000, 9676276842926837540300000, 4742702129446999025400);
  (9676276842926837540300000, 61496485426639707975000, 4742702129446999025400);
  (262226671646523246120000, 9676276842926839760800000, 4742702129446999025400);
  (61496485426636923743000, 262226671646526160450000, 4742702129446999025400);
  (2430472023659261404700000, 1120336293422709850200000, 51229932808520969520000);
  (6449191682918028467600000, 2430472023659261959800000, 51229932808520969520000);
  (1120336293422710127700000, 6449191682918029577800000, 51229932808520969520000);
  (6449191682918028467600000, 1120336293422709850200000, 51229932808520969520000);
  (2430472023659262514900000, 6449191682918029577800000, 51229932808520969520000);
  (1120336293422708184900000, 2430472023659264180200000, 51229932808520969520000);
  (2299929840579071627100000, 47814897729871333812000, 11622726822320243473000);
  (7652255261691057741700000, 2299929840579071904600000, 11622726822320243473000);
  (47814897729871463916000, 7652255261691058851900000, 11622726822320243473000);
  (7652255261691056631400000, 47814897729871333812000, 11622726822320243473000);
  (2299929840579072459800000, 7652255261691058851900000, 11622726822320243473000);
  (47814897729869104692000, 2299929840579074957800000, 11622726822320243473000);
  (1058958441786275045400000, 1058958441786277682200000, 39049716855431679426000);
  (7882083116427446301000000, 1058958441786274906600000, 39049716855431679426000);
  (1058958441786279070000000, 7882083116427448521400000, 39049716855431679426000);
  (4295522021188993289100000, 1408955957622013976900000, 67737978016627498762000);
  (4295522021188993289100000, 4295522021188993844200000, 67737978016627498762000);
  (1408955957622013144300000, 4295522021188994954400000, 67737978016627498762000);
  (2956082808724016519600000, 624487421796328864840000, 44625580701382720761000);
  (6419429769479655378800000, 2956082808724017074700000, 44625580701382720761000);
  (624487421796328101560000, 6419429769479657599300000, 44625580701382720761000);
  (6419429769479654268600000, 624487421796328864840000, 44625580701382720761000);
  (2956082808724017074700000, 6419429769479655378800000, 44625580701382720761000);
  (624487421796326991340000, 2956082808724019850300000, 44625580701382720761000);
  (1213934507540911922300000, 502111859134281163230000, 29589418861769431132000);
  (8283953633324806498100000, 1213934507540911922300000, 29589418861769431132000);
  (502111859134282134680000, 8283953633324807608300000, 29589418861769431132000);
  (8283953633324806498100000, 502111859134281163230000, 29589418861769431132000);
  (1213934507540913587700000, 8283953633324807608300000, 29589418861769431132000);
  (502111859134279150950000, 1213934507540915114200000, 29589418861769431132000);
  (3738238003102096196400000, 257279987428787430830000, 31302673214842740429000);
  (6004482009469115366700000, 3738238003102096751500000, 31302673214842740429000);
  (257279987428787326740000, 6004482009469117587100000, 31302673214842740429000);
  (6004482009469116476900000, 257279987428787430830000, 31302673214842740429000);
  (3738238003102096751500000, 6004482009469116476900000, 31302673214842740429000);
  (257279987428785938960000, 3738238003102099527000000, 31302673214842740429000);
  (4427834065202435609400000, 56465659934661618577000, 15700888217440168819000);
  (5515700274862902485800000, 4427834065202435609400000, 15700888217440168819000);
  (56465659934660794583000, 5515700274862905816400000, 15700888217440168819000);
  (5515700274862903596000000, 56465659934661618577000, 15700888217440168819000);
  (4427834065202435609400000, 5515700274862903596000000, 15700888217440168819000);
  (56465659934660517028000, 4427834065202437829900000, 15700888217440168819000);
  (3377986632005823275400000, 1180890697150950713300000, 63935692114778968145000);
  (5441122670843225872500000, 3377986632005823830500000, 63935692114778968145000);
  (1180890697150950297000000, 5441122670843228093000000, 63935692114778968145000);
  (5441122670843225872500000, 1180890697150950713300000, 63935692114778968145000);
  (3377986632005822720300000, 5441122670843228093000000, 63935692114778968145000);
  (1180890697150949186800000, 3377986632005824940700000, 63935692114778968145000);
  (922291891952822101560000, 182422910122947215530000, 16024580953965163882000);
  (8895285197924229780900000, 922291891952822101560000, 16024580953965163882000);
  (182422910122947978810000, 8895285197924232001300000, 16024580953965163882000);
  (8895285197924230891100000, 182422910122947215530000, 16024580953965163882000);
  (922291891952822240340000, 8895285197924232001300000, 16024580953965163882000);
  (182422910122944786910000, 922291891952825293450000, 16024580953965163882000);
  (4848411325625894274800000, 303177348748211485110000, 38410552892975090289000);
  (4848411325625895385000000, 4848411325625894829900000, 38410552892975090289000);
  (303177348748210895300000, 4848411325625896495200000, 38410552892975090289000);
  (1586376888630595949300000, 1586376888630597892200000, 59713348201241101335000);
  (6827246222738805325700000, 1586376888630596504500000, 59713348201241101335000);
  (1586376888630599002500000, 6827246222738806436000000, 59713348201241101335000);
  (608391923927586036890000, 608391923927589020620000, 25641260023390325187000);
  (8783216152144824873100000, 608391923927585551170000, 25641260023390325187000);
  (608391923927590339010000, 8783216152144825983300000, 25641260023390325187000);
  (702907404781327321830000, 12002556014871523012000, 3625672974930412690300);
  (9285090039203800493800000, 702907404781327321830000, 3625672974930412690300);
  (12002556014872878265000, 9285090039203802714200000, 3625672974930412690300);
  (9285090039203801604000000, 12002556014871523012000, 3625672974930412690300);
  (702907404781327738160000, 9285090039203802714200000, 3625672974930412690300);
  (12002556014869131262000, 702907404781330791280000, 3625672974930412690300)].

(** quad_rules_tria.cc:4990-5474 *)
Definition tab_29 : list (Z * Z * Z) := [
  (589421088402292056570000, 27287432479210704458000, 3846264857381249610600);
  (9383291479118497369100000, 589421088402291570850000, 3846264857381249610600);
  (27287432479212170300000, 9383291479118498479300000, 3846264857381249610600);
  (9383291479118497369100000, 27287432479210704458000, 3846264857381249610600);
  (589421088402293236190000, 9383291479118498479300000, 3846264857381249610600);
  (27287432479207729408000, 589421088402295456630000, 3846264857381249610600);
  (3497880100093317956600000, 1571776998671934877400000, 52261073484612249537000);
  (4930342901234747166100000, 3497880100093319066800000, 52261073484612249537000);
  (1571776998671933767100000, 4930342901234748831400000, 52261073484612249537000);
  (4930342901234747721200000, 1571776998671934877400000, 52261073484612249537000);
  (3497880100093319066800000, 4930342901234747721200000, 52261073484612249537000);
  (1571776998671933767100000, 3497880100093320177000000, 52261073484612249537000);
  (3230018235435501705600000, 21009666448275595221000, 6764119746262052881900);
  (6748972098116222673200000, 3230018235435501705600000, 6764119746262052881900);
  (21009666448275621242000, 6748972098116224893600000, 6764119746262052881900);
  (6748972098116222673200000, 21009666448275595221000, 6764119746262052881900);
  (3230018235435500595400000, 6748972098116224893600000, 6764119746262052881900);
  (21009666448274233463000, 3230018235435503926000000, 6764119746262052881900);
  (4989148246376861606200000, 21703507246276392863000, 7582310515784521738300);
  (4989148246376862161400000, 4989148246376862716500000, 7582310515784521738300);
  (21703507246275677289000, 4989148246376864381800000, 7582310515784521738300);
  (1581458542495161045900000, 681658088137464396320000, 32195683537669076042000);
  (7736883369367373308700000, 1581458542495161323500000, 32195683537669076042000);
  (681658088137464535090000, 7736883369367376639400000, 32195683537669076042000);
  (7736883369367374419000000, 681658088137464396320000, 32195683537669076042000);
  (1581458542495162156200000, 7736883369367375529200000, 32195683537669076042000);
  (681658088137463147320000, 1581458542495163821500000, 32195683537669076042000);
  (295494682613533683760000, 108309586036093533770000, 6360972185858165123300);
  (9596195731350373181500000, 295494682613533996010000, 6360972185858165123300);
  (108309586036095528700000, 9596195731350372071200000, 6360972185858165123300);
  (9596195731350373181500000, 108309586036093533770000, 6360972185858165123300);
  (295494682613533510280000, 9596195731350375401900000, 6360972185858165123300);
  (108309586036090636780000, 295494682613537187900000, 6360972185858165123300);
  (2918191734265370707000000, 2189323419801725567600000, 67726232860037963515000);
  (4892484845932904002900000, 2918191734265371817300000, 67726232860037963515000);
  (2189323419801725012500000, 4892484845932904558000000, 67726232860037963515000);
  (4892484845932904002900000, 2189323419801725567600000, 67726232860037963515000);
  (2918191734265370707000000, 4892484845932904558000000, 67726232860037963515000);
  (2189323419801723902300000, 2918191734265372372400000, 67726232860037963515000);
  (755221785129957801090000, 212868962407332593110000, 13807653747952240968000);
  (9031909252462708703700000, 755221785129957523530000, 13807653747952240968000);
  (212868962407333772720000, 9031909252462710924200000, 13807653747952240968000);
  (9031909252462709814000000, 212868962407332593110000, 13807653747952240968000);
  (755221785129958078640000, 9031909252462710924200000, 13807653747952240968000);
  (212868962407330025720000, 755221785129961131760000, 13807653747952240968000);
  (1171166695088988740600000, 408472165761024560980000, 22563434227436682603000);
  (8420361139149986629000000, 1171166695088988601900000, 22563434227436682603000);
  (408472165761026295700000, 8420361139149986629000000, 22563434227436682603000);
  (8420361139149986629000000, 408472165761024560980000, 22563434227436682603000);
  (1171166695088989295700000, 8420361139149988849400000, 22563434227436682603000);
  (408472165761021993590000, 1171166695088991793700000, 22563434227436682603000);
  (111662181081691909420000, 16034964960437636181000, 1347461159293507956100);
  (9872302853957870549800000, 111662181081691475740000, 1347461159293507956100);
  (16034964960438546910000, 9872302853957872770300000, 1347461159293507956100);
  (9872302853957869439600000, 16034964960437636181000, 1347461159293507956100);
  (111662181081692013510000, 9872302853957872770300000, 1347461159293507956100);
  (16034964960434999401000, 111662181081694667630000, 1347461159293507956100);
  (4343804267617306091900000, 1312391464765387816300000, 55855501475839371486000);
  (4343804267617306647000000, 4343804267617307202100000, 55855501475839371486000);
  (1312391464765386983600000, 4343804267617307757200000, 55855501475839371486000);
  (410973356271179326990000, 410973356271182449500000, 14302457530784456509000);
  (9178053287457638154100000, 410973356271179188210000, 14302457530784456509000);
  (410973356271183698500000, 9178053287457639264300000, 14302457530784456509000);
  (2080456492790871414500000, 1015459852268340290600000, 46931653381418383247000);
  (6904083654940788017400000, 2080456492790871969600000, 46931653381418383247000);
  (1015459852268340013000000, 6904083654940790237800000, 46931653381418383247000);
  (6904083654940788017400000, 1015459852268340290600000, 46931653381418383247000);
  (2080456492790871414500000, 6904083654940790237800000, 46931653381418383247000);
  (1015459852268338486500000, 2080456492790873912500000, 46931653381418383247000);
  (3922101149804348430000000, 415270612688226833930000, 39114592291532449334000);
  (5662628237507425499300000, 3922101149804348985100000, 39114592291532449334000);
  (415270612688226625760000, 5662628237507426609600000, 39114592291532449334000);
  (5662628237507424389100000, 415270612688226833930000, 39114592291532449334000);
  (3922101149804347874900000, 5662628237507425499300000, 39114592291532449334000);
  (415270612688225793100000, 3922101149804350650500000, 39114592291532449334000);
  (3597112755099758363300000, 938490411451324418880000, 53151981815983146556000);
  (5464396833448916801500000, 3597112755099759473500000, 53151981815983146556000);
  (938490411451324280100000, 5464396833448917911700000, 53151981815983146556000);
  (5464396833448916801500000, 938490411451324418880000, 53151981815983146556000);
  (3597112755099758918400000, 5464396833448917911700000, 53151981815983146556000);
  (938490411451323447430000, 3597112755099761138800000, 53151981815983146556000);
  (2458746994828754362000000, 86860298043841387833000, 15256194116725976806000);
  (7454392707127402983900000, 2458746994828754639500000, 15256194116725976806000);
  (86860298043842099069000, 7454392707127405204300000, 15256194116725976806000);
  (7454392707127405204300000, 86860298043841387833000, 15256194116725976806000);
  (2458746994828754917100000, 7454392707127405204300000, 15256194116725976806000);
  (86860298043839601068000, 2458746994828757137500000, 15256194116725976806000);
  (1670027381749231432100000, 175891240440456259050000, 19126833358650086395000);
  (8154081377810312725200000, 1670027381749231154600000, 19126833358650086395000);
  (175891240440456675390000, 8154081377810314945600000, 19126833358650086395000);
  (8154081377810312725200000, 175891240440456259050000, 19126833358650086395000);
  (1670027381749231154600000, 8154081377810314945600000, 19126833358650086395000);
  (175891240440453761050000, 1670027381749234207700000, 19126833358650086395000);
  (2084053051324007976900000, 2084053051324009642200000, 62696017213116229244000);
  (5831893897351981825800000, 2084053051324008254400000, 62696017213116229244000);
  (2084053051324009087100000, 5831893897351984046300000, 62696017213116229244000);
  (1150085986319464292900000, 55235245122125554984000, 8708476156508758794800);
  (8794678768558409354100000, 1150085986319464154100000, 8708476156508758794800);
  (55235245122126630513000, 8794678768558411574600000, 8708476156508758794800);
  (8794678768558410464400000, 55235245122125554984000, 8708476156508758794800);
  (1150085986319465125600000, 8794678768558411574600000, 8708476156508758794800);
  (55235245122123577399000, 1150085986319467346000000, 8708476156508758794800);
  (1607458844319635260500000, 1607458844319637758500000, 52857089291137955220000);
  (6785082311360726148300000, 1607458844319636093200000, 52857089291137955220000);
  (1607458844319638036100000, 6785082311360728368800000, 52857089291137955220000);
  (3153953981173191478700000, 238589269426556054020000, 28345767408327333763000);
  (6607456749400253404000000, 3153953981173190923600000, 28345767408327333763000);
  (238589269426556782610000, 6607456749400253404000000, 28345767408327333763000);
  (6607456749400252293800000, 238589269426556054020000, 28345767408327333763000);
  (3153953981173192033800000, 6607456749400253404000000, 28345767408327333763000);
  (238589269426554284600000, 3153953981173193699100000, 28345767408327333763000);
  (2232226502248206012600000, 402953345447718061510000, 32909988819261079378000);
  (7364820152304075717700000, 2232226502248206012600000, 32909988819261079378000);
  (402953345447719102350000, 7364820152304076827900000, 32909988819261079378000);
  (7364820152304075717700000, 402953345447718061510000, 32909988819261079378000);
  (2232226502248206845300000, 7364820152304076827900000, 32909988819261079378000);
  (402953345447716049230000, 2232226502248208510600000, 32909988819261079378000);
  (2883958599187324001200000, 678784043114470936330000, 45894620824638047638000);
  (6437257357698205062500000, 2883958599187324001200000, 45894620824638047638000);
  (678784043114470936330000, 6437257357698207282900000, 45894620824638047638000);
  (6437257357698205062500000, 678784043114470936330000, 45894620824638047638000);
  (2883958599187324001200000, 6437257357698207282900000, 45894620824638047638000);
  (678784043114469548550000, 2883958599187326776700000, 45894620824638047638000);
  (4884016029326027075200000, 231967941347945294520000, 30672005823594596617000);
  (4884016029326027075200000, 4884016029326028185400000, 30672005823594596617000);
  (231967941347944739410000, 4884016029326029295600000, 30672005823594596617000);
  (2673663502727755547600000, 1395356071810826548200000, 62591832494172218795000);
  (5930980425461417349100000, 2673663502727756102800000, 62591832494172218795000);
  (1395356071810826548200000, 5930980425461419569500000, 62591832494172218795000);
  (5930980425461417349100000, 1395356071810826548200000, 62591832494172218795000);
  (2673663502727754992500000, 5930980425461419569500000, 62591832494172218795000);
  (1395356071810824882800000, 2673663502727757768100000, 62591832494172218795000);
  (3023864112151284366800000, 3023864112151286032100000, 81551194038716138396000);
  (3952271775697430156200000, 3023864112151284921900000, 81551194038716138396000);
  (3023864112151284366800000, 3952271775697431821500000, 81551194038716138396000);
  (4057653952988915513300000, 80665857041666150229000, 18206702056403711951000);
  (5861680189969418197600000, 4057653952988916068500000, 18206702056403711951000);
  (80665857041665733895000, 5861680189969420418100000, 18206702056403711951000);
  (5861680189969418197600000, 80665857041666150229000, 18206702056403711951000);
  (4057653952988916068500000, 5861680189969419307900000, 18206702056403711951000);
  (80665857041664901228000, 4057653952988918288900000, 18206702056403711951000);
  (1144268129944254197600000, 1144268129944256973100000, 40864392206135724192000);
  (7711463740111488274200000, 1144268129944254336300000, 40864392206135724192000);
  (1144268129944256973100000, 7711463740111490494700000, 40864392206135724192000);
  (4647624310807388914300000, 704751378385221616260000, 51565583176292574194000);
  (4647624310807388914300000, 4647624310807390024500000, 51565583176292574194000);
  (704751378385221061150000, 4647624310807391134800000, 51565583176292574194000);
  (737218813900996500220000, 737218813900999692110000, 28044235664156564637000);
  (8525562372198003391300000, 737218813900996500220000, 28044235664156564637000);
  (737218813901000524780000, 8525562372198005611800000, 28044235664156564637000);
  (3906191787832636874700000, 2187616424334725695500000, 79566076420444636907000);
  (3906191787832637984900000, 3906191787832638540000000, 79566076420444636907000);
  (2187616424334724585200000, 3906191787832639095200000, 79566076420444636907000);
  (1863207276753595376100000, 1234468122874049652300, 3443363125208809640900);
  (8135558255123530591000000, 1863207276753595653700000, 3443363125208809640900);
  (1234468122874865514400, 8135558255123531701300000, 3443363125208809640900);
  (8135558255123529480800000, 1234468122874049652300, 3443363125208809640900);
  (1863207276753596208800000, 8135558255123530591000000, 3443363125208809640900);
  (1234468122872228734700, 1863207276753598706800000, 3443363125208809640900)].

(** quad_rules_tria.cc:5477-5997 *)
Definition tab_30 : list (Z * Z * Z) := [
  (2590538845210673679600000, 478351231407725743790000, 21073792319562163235000);
  (6931109923381602033700000, 2590538845210673124500000, 21073792319562163235000);
  (478351231407725951960000, 6931109923381603144000000, 21073792319562163235000);
  (6931109923381600923500000, 478351231407725743790000, 21073792319562163235000);
  (2590538845210673679600000, 6931109923381602033700000, 21073792319562163235000);
  (478351231407724286630000, 2590538845210675900100000, 21073792319562163235000);
  (33187249366443552848000, 33187249366446714381000, 858649506855246912650);
  (9933625501267108193200000, 33187249366443509480000, 858649506855246912650);
  (33187249366447568732000, 9933625501267111523900000, 858649506855246912650);
  (3915721882912563400800000, 796595269316006521220000, 29624613725460061976000);
  (5287682847771429939200000, 3915721882912563955900000, 29624613725460061976000);
  (796595269316006104890000, 5287682847771432159700000, 29624613725460061976000);
  (5287682847771429939200000, 796595269316006521220000, 29624613725460061976000);
  (3915721882912563955900000, 5287682847771431049500000, 29624613725460061976000);
  (796595269316004994660000, 3915721882912566176300000, 29624613725460061976000);
  (3561402832962335396300000, 576934012738742479920000, 29721100922122426456000);
  (5861663154298921707400000, 3561402832962335396300000, 29721100922122426456000);
  (576934012738742341140000, 5861663154298923927900000, 29721100922122426456000);
  (5861663154298921707400000, 576934012738742479920000, 29721100922122426456000);
  (3561402832962335396300000, 5861663154298922817600000, 29721100922122426456000);
  (576934012738741230920000, 3561402832962338171900000, 29721100922122426456000);
  (723724072246778316050000, 723724072246781230390000, 19009663342077580666000);
  (8552551855506439482100000, 723724072246778316050000, 19009663342077580666000);
  (723724072246782479390000, 8552551855506441702600000, 19009663342077580666000);
  (2830124973495887763500000, 772614375768841260550000, 34385921937679616092000);
  (6397260650735270282000000, 2830124973495887763500000, 34385921937679616092000);
  (772614375768840844220000, 6397260650735273612700000, 34385921937679616092000);
  (6397260650735271392300000, 772614375768841260550000, 34385921937679616092000);
  (2830124973495887208400000, 6397260650735273612700000, 34385921937679616092000);
  (772614375768839178880000, 2830124973495889984000000, 34385921937679616092000);
  (471579102421717660800000, 471579102421720505740000, 14222168338437471066000);
  (9056841795156561625300000, 471579102421717313850000, 14222168338437471066000);
  (471579102421721407800000, 9056841795156563845700000, 14222168338437471066000);
  (2416137624515243831300000, 227583842950000725390000, 20462494841735992014000);
  (7356278532534755720800000, 2416137624515244108900000, 20462494841735992014000);
  (227583842950001002950000, 7356278532534756831000000, 20462494841735992014000);
  (7356278532534755720800000, 227583842950000725390000, 20462494841735992014000);
  (2416137624515244386500000, 7356278532534756831000000, 20462494841735992014000);
  (227583842949998643720000, 2416137624515246884500000, 20462494841735992014000);
  (2527812471879329336800000, 1238119787706746521800000, 44363272530086707637000);
  (6234067740413924418900000, 2527812471879329892000000, 44363272530086707637000);
  (1238119787706746244300000, 6234067740413926639300000, 44363272530086707637000);
  (6234067740413924418900000, 1238119787706746521800000, 44363272530086707637000);
  (2527812471879329336800000, 6234067740413926639300000, 44363272530086707637000);
  (1238119787706745134100000, 2527812471879331557300000, 44363272530086707637000);
  (1849061063839171070700000, 1158819672361005997900000, 37671614647732400670000);
  (6992119263799821959900000, 1849061063839171625800000, 37671614647732400670000);
  (1158819672361006136700000, 6992119263799824180300000, 37671614647732400670000);
  (6992119263799821959900000, 1158819672361005997900000, 37671614647732400670000);
  (1849061063839171903400000, 6992119263799824180300000, 37671614647732400670000);
  (1158819672361003777500000, 1849061063839173846300000, 37671614647732400670000);
  (4680301736511254251400000, 639396526977491913570000, 38920643661654224024000);
  (4680301736511254251400000, 4680301736511254251400000, 38920643661654224024000);
  (639396526977490942120000, 4680301736511256471800000, 38920643661654224024000);
  (126866046744675987220000, 126866046744678849510000, 4232750726644443693500);
  (9746267906510645007100000, 126866046744675640270000, 4232750726644443693500);
  (126866046744680271980000, 9746267906510646117400000, 4232750726644443693500);
  (1937043771536401393100000, 665174447818816239050000, 34020033780509362741000);
  (7397781780644782090300000, 1937043771536401393100000, 34020033780509362741000);
  (665174447818816516610000, 7397781780644784310800000, 34020033780509362741000);
  (7397781780644782090300000, 665174447818816239050000, 34020033780509362741000);
  (1937043771536401393100000, 7397781780644784310800000, 34020033780509362741000);
  (665174447818813741050000, 1937043771536404168600000, 34020033780509362741000);
  (764012484393875451750000, 44387813770613614509000, 6033482842710588111400);
  (9191599701835511115900000, 764012484393875451750000, 6033482842710588111400);
  (44387813770615514031000, 9191599701835511115900000, 6033482842710588111400);
  (9191599701835510005700000, 44387813770613614509000, 6033482842710588111400);
  (764012484393876700750000, 9191599701835511115900000, 6033482842710588111400);
  (44387813770611073139000, 764012484393878921200000, 6033482842710588111400);
  (1215915082227278926100000, 1215915082227281562900000, 36934559174571428113000);
  (7568169835545439649800000, 1215915082227278926100000, 36934559174571428113000);
  (1215915082227281840400000, 7568169835545440760100000, 36934559174571428113000);
  (2090480874526896293300000, 46635793926886265695000, 9794742889466213301600);
  (7862883331546217657900000, 2090480874526896293300000, 9794742889466213301600);
  (46635793926886881522000, 7862883331546218768100000, 9794742889466213301600);
  (7862883331546217657900000, 46635793926886265695000, 9794742889466213301600);
  (2090480874526897126000000, 7862883331546218768100000, 9794742889466213301600);
  (46635793926884383520000, 2090480874526899346400000, 9794742889466213301600);
  (2985429940592426723000000, 47036817644770453906000, 11372229504993387576000);
  (6967533241762803308800000, 2985429940592426167900000, 11372229504993387576000);
  (47036817644770523295000, 6967533241762805529300000, 11372229504993387576000);
  (6967533241762803308800000, 47036817644770453906000, 11372229504993387576000);
  (2985429940592427278100000, 6967533241762803308800000, 11372229504993387576000);
  (47036817644769135516000, 2985429940592429498600000, 11372229504993387576000);
  (3343790400340310720000000, 251820667038687127930000, 26823424230931541476000);
  (6404388932621003505100000, 3343790400340310720000000, 26823424230931541476000);
  (251820667038687440180000, 6404388932621004615300000, 26823424230931541476000);
  (6404388932621002394900000, 251820667038687127930000, 26823424230931541476000);
  (3343790400340310720000000, 6404388932621003505100000, 26823424230931541476000);
  (251820667038685774840000, 3343790400340312940500000, 26823424230931541476000);
  (1232308023806951147200000, 657765738247428899400000, 29350349015327620653000);
  (8109926237945619398300000, 1232308023806950869600000, 29350349015327620653000);
  (657765738247430009620000, 8109926237945621618800000, 29350349015327620653000);
  (8109926237945619398300000, 657765738247428899400000, 29350349015327620653000);
  (1232308023806951702300000, 8109926237945621618800000, 29350349015327620653000);
  (657765738247426401400000, 1232308023806954477800000, 29350349015327620653000);
  (3385141624298457219100000, 1261240949849894710200000, 56515117714687410078000);
  (5353617425851647793100000, 3385141624298457774200000, 56515117714687410078000);
  (1261240949849894432700000, 5353617425851650013500000, 56515117714687410078000);
  (5353617425851647793100000, 1261240949849894710200000, 56515117714687410078000);
  (3385141624298457219100000, 5353617425851650013500000, 56515117714687410078000);
  (1261240949849893322500000, 3385141624298458884500000, 56515117714687410078000);
  (3544036021806874492400000, 1948709509235184711400000, 71582426348337927294000);
  (4507254468957940796200000, 3544036021806875602600000, 71582426348337927294000);
  (1948709509235183878800000, 4507254468957942461500000, 71582426348337927294000);
  (4507254468957940796200000, 1948709509235184711400000, 71582426348337927294000);
  (3544036021806874492400000, 4507254468957941351300000, 71582426348337927294000);
  (1948709509235183878800000, 3544036021806876157700000, 71582426348337927294000);
  (2630682977578082670800000, 1910014245722831405200000, 64630117250591458122000);
  (5459302776699086479100000, 2630682977578083781000000, 64630117250591458122000);
  (1910014245722831405200000, 5459302776699086479100000, 64630117250591458122000);
  (5459302776699086479100000, 1910014245722831405200000, 64630117250591458122000);
  (2630682977578083781000000, 5459302776699086479100000, 64630117250591458122000);
  (1910014245722829462300000, 2630682977578085446300000, 64630117250591458122000);
  (1824095615174528561800000, 1824095615174531059800000, 53764254827164039557000);
  (6351808769650939545700000, 1824095615174529394500000, 53764254827164039557000);
  (1824095615174531892500000, 6351808769650940655900000, 53764254827164039557000);
  (4345661739646696220000000, 275334061245498980250000, 31407982904458307816000);
  (5379004199107804140600000, 4345661739646697330200000, 31407982904458307816000);
  (275334061245498529220000, 5379004199107807471200000, 31407982904458307816000);
  (5379004199107805250800000, 275334061245498980250000, 31407982904458307816000);
  (4345661739646697330200000, 5379004199107805250800000, 31407982904458307816000);
  (275334061245498251670000, 4345661739646698440400000, 31407982904458307816000);
  (1640709870698783268100000, 280639219813729780260000, 23509684970529826954000);
  (8078650909487485876100000, 1640709870698783545700000, 23509684970529826954000);
  (280639219813731410900000, 8078650909487486986300000, 23509684970529826954000);
  (8078650909487486986300000, 280639219813729780260000, 23509684970529826954000);
  (1640709870698784933500000, 8078650909487486986300000, 23509684970529826954000);
  (280639219813727386340000, 1640709870698786876400000, 23509684970529826954000);
  (3622872793529497981200000, 2754254412941004037700000, 77980456629128955606000);
  (3622872793529497981200000, 3622872793529499091400000, 77980456629128955606000);
  (2754254412941002927400000, 3622872793529499646500000, 77980456629128955606000);
  (426819997060804007250000, 159024162689347069170000, 9152534380744136452800);
  (9414155840249848195000000, 426819997060803243970000, 9152534380744136452800);
  (159024162689349601860000, 9414155840249849305200000, 9152534380744136452800);
  (9414155840249848195000000, 159024162689347069170000, 9152534380744136452800);
  (426819997060805533810000, 9414155840249849305200000, 9152534380744136452800);
  (159024162689344085440000, 426819997060807684860000, 9152534380744136452800);
  (939597946527298694130000, 272942306520957758690000, 19109402735475095915000);
  (8787459746951742367600000, 939597946527298555350000, 19109402735475095915000);
  (272942306520959077080000, 8787459746951744588000000, 19109402735475095915000);
  (8787459746951743477800000, 272942306520957758690000, 19109402735475095915000);
  (939597946527299665580000, 8787459746951744588000000, 19109402735475095915000);
  (272942306520955260680000, 939597946527301747240000, 19109402735475095915000);
  (1354088535199344522900000, 56912114454161040131000, 9599402787344584213000);
  (8588999350346494532400000, 1354088535199344245400000, 9599402787344584213000);
  (56912114454161222277000, 8588999350346496752800000, 9599402787344584213000);
  (8588999350346494532400000, 56912114454161040131000, 9599402787344584213000);
  (1354088535199345355600000, 8588999350346496752800000, 9599402787344584213000);
  (56912114454158585497000, 1354088535199347853600000, 9599402787344584213000);
  (4367432485484601945000000, 1265135029030796387500000, 62024795140730023743000);
  (4367432485484601945000000, 4367432485484602500100000, 62024795140730023743000);
  (1265135029030795554800000, 4367432485484603610400000, 62024795140730023743000);
  (2724280407839281825700000, 2724280407839283491000000, 74572753813428776029000);
  (4551439184321434128200000, 2724280407839282935900000, 74572753813428776029000);
  (2724280407839283491000000, 4551439184321435793600000, 74572753813428776029000);
  (3962215147396591086200000, 51623470166213235311000, 13212839615816252253000);
  (5986161382437196198900000, 3962215147396591086200000, 13212839615816252253000);
  (51623470166212714894000, 5986161382437198419400000, 13212839615816252253000);
  (5986161382437196198900000, 51623470166213235311000, 13212839615816252253000);
  (3962215147396591086200000, 5986161382437197309200000, 13212839615816252253000);
  (51623470166212159782000, 3962215147396593861700000, 13212839615816252253000);
  (4973193390003085578900000, 53613219993828668819000, 13956590598703838731000);
  (4973193390003086689100000, 4973193390003086134000000, 13956590598703838731000);
  (53613219993828287180000, 4973193390003087799300000, 13956590598703838731000);
  (294840425976739400890000, 5337086606944912298100, 1678108557332011040900);
  (9699822487416315253100000, 294840425976739053950000, 1678108557332011040900);
  (5337086606946317424200, 9699822487416317473600000, 1678108557332011040900);
  (9699822487416316363400000, 5337086606944912298100, 1678108557332011040900);
  (294840425976740649890000, 9699822487416317473600000, 1678108557332011040900);
  (5337086606941911226500, 294840425976742245840000, 1678108557332011040900)].

(** quad_rules_tria.cc:6000-6550 *)
Definition tab_31 : list (Z * Z * Z) := [
  (3333333333333332593200000, 3333333333333334258500000, 41715604069431826487000);
  (4861524679130597714800000, 276950641738804084760000, 20219941982596812899000);
  (4861524679130598269900000, 4861524679130598825000000, 20219941982596812899000);
  (276950641738803460260000, 4861524679130599935200000, 20219941982596812899000);
  (1390906284720945795800000, 1066696808640775623300000, 29031466241818317670000);
  (7542396906638278997200000, 1390906284720946073400000, 29031466241818317670000);
  (1066696808640776317200000, 7542396906638278997200000, 29031466241818317670000);
  (7542396906638278997200000, 1066696808640775623300000, 29031466241818317670000);
  (1390906284720946906000000, 7542396906638278997200000, 29031466241818317670000);
  (1066696808640773402900000, 1390906284720948848900000, 29031466241818317670000);
  (4195880808642604709000000, 1608238382714790859500000, 44215413215441534689000);
  (4195880808642604709000000, 4195880808642605264100000, 44215413215441534689000);
  (1608238382714789471700000, 4195880808642606929500000, 44215413215441534689000);
  (1972331307896530439000000, 32611556637283187904000, 6419258493848476170700);
  (7995057135466185904700000, 1972331307896530439000000, 6419258493848476170700);
  (32611556637283656279000, 7995057135466188125200000, 6419258493848476170700);
  (7995057135466185904700000, 32611556637283187904000, 6419258493848476170700);
  (1972331307896530994100000, 7995057135466188125200000, 6419258493848476170700);
  (32611556637281297055000, 1972331307896533492100000, 6419258493848476170700);
  (2385241509843100127200000, 131398178404036562040000, 14132571379638684227000);
  (7483360311752862426000000, 2385241509843100127200000, 14132571379638684227000);
  (131398178404036891640000, 7483360311752865756700000, 14132571379638684227000);
  (7483360311752863536200000, 131398178404036562040000, 14132571379638684227000);
  (2385241509843099572100000, 7483360311752865756700000, 14132571379638684227000);
  (131398178404034532420000, 2385241509843102625200000, 14132571379638684227000);
  (792067965066985402170000, 792067965066988316500000, 21118649255516138384000);
  (8415864069866025865000000, 792067965066985124610000, 21118649255516138384000);
  (792067965066989287950000, 8415864069866028085400000, 21118649255516138384000);
  (297507293859899553390000, 23442211286868936716000, 2527545234361289671800);
  (9679050494853230768300000, 297507293859899275830000, 2527545234361289671800);
  (23442211286870962006000, 9679050494853231878500000, 2527545234361289671800);
  (9679050494853231878500000, 23442211286868936716000, 2527545234361289671800);
  (297507293859901045250000, 9679050494853231878500000, 2527545234361289671800);
  (23442211286866590503000, 297507293859903126920000, 2527545234361289671800);
  (177313492497139200970000, 177313492497142080610000, 4934330725135413313300);
  (9645373015005718198000000, 177313492497138888710000, 4934330725135413313300);
  (177313492497143121440000, 9645373015005720418500000, 4934330725135413313300);
  (3957839332968853818300000, 19614003698950207254000, 6513477244867253148800);
  (6022546663332195571200000, 3957839332968854373400000, 6513477244867253148800);
  (19614003698950055465000, 6022546663332197791600000, 6513477244867253148800);
  (6022546663332195571200000, 19614003698950207254000, 6513477244867253148800);
  (3957839332968853818300000, 6022546663332196681400000, 6513477244867253148800);
  (19614003698949222798000, 3957839332968856038700000, 6513477244867253148800);
  (3516800587760809393400000, 1526365657752197513300000, 50962897221706344314000);
  (4956833754486992815700000, 3516800587760809948500000, 50962897221706344314000);
  (1526365657752196680600000, 4956833754486995591300000, 50962897221706344314000);
  (4956833754486993370800000, 1526365657752197513300000, 50962897221706344314000);
  (3516800587760809393400000, 4956833754486994481100000, 50962897221706344314000);
  (1526365657752196403100000, 3516800587760811613900000, 50962897221706344314000);
  (2024821942617583414600000, 1134252783475029058300000, 39334352478690663008000);
  (6840925273907387804700000, 2024821942617583969700000, 39334352478690663008000);
  (1134252783475028780700000, 6840925273907388914900000, 39334352478690663008000);
  (6840925273907386694500000, 1134252783475029058300000, 39334352478690663008000);
  (2024821942617584524800000, 6840925273907388914900000, 39334352478690663008000);
  (1134252783475027670500000, 2024821942617586190100000, 39334352478690663008000);
  (4225539552222150607700000, 545213844446831366610000, 35604046207093936922000);
  (5229246603331018095100000, 4225539552222150607700000, 35604046207093936922000);
  (545213844446830742110000, 5229246603331020315500000, 35604046207093936922000);
  (5229246603331018095100000, 545213844446831366610000, 35604046207093936922000);
  (4225539552222150607700000, 5229246603331019205300000, 35604046207093936922000);
  (545213844446830742110000, 4225539552222152828200000, 35604046207093936922000);
  (1246805088474439715500000, 606049291607722168120000, 24820572382538330820000);
  (8147145619917838255100000, 1246805088474439299200000, 24820572382538330820000);
  (606049291607723139560000, 8147145619917839365300000, 24820572382538330820000);
  (8147145619917838255100000, 606049291607722168120000, 24820572382538330820000);
  (1246805088474440825800000, 8147145619917839365300000, 24820572382538330820000);
  (606049291607719392560000, 1246805088474442768700000, 24820572382538330820000);
  (2555462364028572852500000, 375889521575177576460000, 27182187365067749484000);
  (7068648114396248738300000, 2555462364028572852500000, 27182187365067749484000);
  (375889521575177854020000, 7068648114396252069000000, 27182187365067749484000);
  (7068648114396249848600000, 375889521575177576460000, 27182187365067749484000);
  (2555462364028573962700000, 7068648114396250958800000, 27182187365067749484000);
  (375889521575175356020000, 2555462364028576183200000, 27182187365067749484000);
  (745031299353863113440000, 43863301700616556464000, 5762914700421303696200);
  (9211105398945520494900000, 745031299353862974670000, 5762914700421303696200);
  (43863301700617918222000, 9211105398945521605100000, 5762914700421303696200);
  (9211105398945520494900000, 43863301700616556464000, 5762914700421303696200);
  (745031299353863807330000, 9211105398945521605100000, 5762914700421303696200);
  (43863301700613685496000, 745031299353866166560000, 5762914700421303696200);
  (4168072755236505444500000, 172734143249371197020000, 20891663459107639479000);
  (5659193101514123913600000, 4168072755236505999600000, 20891663459107639479000);
  (172734143249370641900000, 5659193101514125023900000, 20891663459107639479000);
  (5659193101514122803400000, 172734143249371197020000, 20891663459107639479000);
  (4168072755236505999600000, 5659193101514123913600000, 20891663459107639479000);
  (172734143249370364350000, 4168072755236507664900000, 20891663459107639479000);
  (1928717230061984533300000, 625780220143109106030000, 31812115264334365344000);
  (7445502549794905666800000, 1928717230061984533300000, 31812115264334365344000);
  (625780220143109522370000, 7445502549794907887200000, 31812115264334365344000);
  (7445502549794906777000000, 625780220143109106030000, 31812115264334365344000);
  (1928717230061984255800000, 7445502549794907887200000, 31812115264334365344000);
  (625780220143107718260000, 1928717230061987308900000, 31812115264334365344000);
  (473478189395524634580000, 184079470312829319990000, 9063846441419547150800);
  (9342442340291645663800000, 473478189395524426410000, 9063846441419547150800);
  (184079470312830673070000, 9342442340291646774000000, 9063846441419547150800);
  (9342442340291645663800000, 184079470312829319990000, 9063846441419547150800);
  (473478189395525883580000, 9342442340291646774000000, 9063846441419547150800);
  (184079470312826440350000, 473478189395528242800000, 9063846441419547150800);
  (2184364967909280252900000, 2184364967909282195800000, 56185017540065834360000);
  (5631270064181437273700000, 2184364967909280808000000, 56185017540065834360000);
  (2184364967909281363100000, 5631270064181439494200000, 56185017540065834360000);
  (1724507871838860118000000, 1724507871838862060900000, 47795979833642060486000);
  (6550984256322277543600000, 1724507871838860673100000, 47795979833642060486000);
  (1724507871838862893600000, 6550984256322278653800000, 47795979833642060486000);
  (510951808223812711800000, 510951808223815556740000, 16295433250928844770000);
  (8978096383552371939600000, 510951808223812711800000, 16295433250928844770000);
  (510951808223816805740000, 8978096383552373049900000, 16295433250928844770000);
  (3419050053475276573800000, 429032089427714424800000, 33449796225228107388000);
  (6151917857097009001400000, 3419050053475276573800000, 33449796225228107388000);
  (429032089427714424800000, 6151917857097011221900000, 33449796225228107388000);
  (6151917857097009001400000, 429032089427714424800000, 33449796225228107388000);
  (3419050053475277684000000, 6151917857097009001400000, 33449796225228107388000);
  (429032089427713037020000, 3419050053475279349300000, 33449796225228107388000);
  (3258139530575096531900000, 131890837790157033900000, 18198567424737189125000);
  (6609969631634745601500000, 3258139530575097087000000, 18198567424737189125000);
  (131890837790157311460000, 6609969631634747822000000, 18198567424737189125000);
  (6609969631634746711800000, 131890837790157033900000, 18198567424737189125000);
  (3258139530575096531900000, 6609969631634747822000000, 18198567424737189125000);
  (131890837790155368570000, 3258139530575099862600000, 18198567424737189125000);
  (2894259487571372857500000, 11968816307095988139000, 4646851688465586968500);
  (7093771696121531356000000, 2894259487571372857500000, 4646851688465586968500);
  (11968816307095786478000, 7093771696121533576500000, 4646851688465586968500);
  (7093771696121531356000000, 11968816307095988139000, 4646851688465586968500);
  (2894259487571372302400000, 7093771696121533576500000, 4646851688465586968500);
  (11968816307094398699000, 2894259487571375077900000, 4646851688465586968500);
  (2987897956760132700500000, 2191327614301768478300000, 64477933939920926976000);
  (4820774428938098821200000, 2987897956760133810800000, 64477933939920926976000);
  (2191327614301767923200000, 4820774428938099376300000, 64477933939920926976000);
  (4820774428938098266100000, 2191327614301768478300000, 64477933939920926976000);
  (2987897956760133810800000, 4820774428938099376300000, 64477933939920926976000);
  (2191327614301766812900000, 2987897956760134921000000, 64477933939920926976000);
  (2744757477427949843300000, 811298915693309669050000, 42379488585683067897000);
  (6443943606878740348900000, 2744757477427950398400000, 42379488585683067897000);
  (811298915693309807830000, 6443943606878742569300000, 42379488585683067897000);
  (6443943606878740348900000, 811298915693309669050000, 42379488585683067897000);
  (2744757477427950398400000, 6443943606878741459100000, 42379488585683067897000);
  (811298915693307864940000, 2744757477427952063700000, 42379488585683067897000);
  (3532298738914155800100000, 952781144820168263140000, 48111377658483587411000);
  (5514920116265675798000000, 3532298738914156910300000, 48111377658483587411000);
  (952781144820167846810000, 5514920116265676908200000, 48111377658483587411000);
  (5514920116265675798000000, 952781144820168263140000, 48111377658483587411000);
  (3532298738914156355200000, 5514920116265676908200000, 48111377658483587411000);
  (952781144820166459030000, 3532298738914158575700000, 48111377658483587411000);
  (4977486206264702950400000, 45027587470594567648000, 11638303210282151083000);
  (4977486206264702950400000, 4977486206264703505500000, 11638303210282151083000);
  (45027587470594099273000, 4977486206264705170800000, 11638303210282151083000);
  (2663678824750718154800000, 1468887080021119007100000, 57998345156928072727000);
  (5867434095228163393200000, 2663678824750718154800000, 57998345156928072727000);
  (1468887080021118452000000, 5867434095228165613600000, 57998345156928072727000);
  (5867434095228162283000000, 1468887080021119007100000, 57998345156928072727000);
  (2663678824750718154800000, 5867434095228163393200000, 57998345156928072727000);
  (1468887080021117896900000, 2663678824750720375300000, 57998345156928072727000);
  (3851684692456800451800000, 2296630615086399096500000, 68696975982841272310000);
  (3851684692456801006900000, 3851684692456801562000000, 68696975982841272310000);
  (2296630615086398263800000, 3851684692456802117100000, 68696975982841272310000);
  (2974914903679928279700000, 2974914903679929945000000, 61795202546734472396000);
  (4050170192640141775300000, 2974914903679929389900000, 61795202546734472396000);
  (2974914903679928279700000, 4050170192640143440600000, 61795202546734472396000);
  (960481521010510957970000, 275306300785874945300000, 18332933524634216754000);
  (8764212178203614200800000, 960481521010510680410000, 18332933524634216754000);
  (275306300785876367780000, 8764212178203615311000000, 18332933524634216754000);
  (8764212178203614200800000, 275306300785874945300000, 18332933524634216754000);
  (960481521010511651860000, 8764212178203615311000000, 18332933524634216754000);
  (275306300785872620770000, 960481521010514149860000, 18332933524634216754000);
  (50828094627277369683000, 50828094627280466164000, 1722006896362904412300);
  (9898343810745441340200000, 50828094627277265599000, 1722006896362904412300);
  (50828094627282105478000, 9898343810745442450400000, 1722006896362904412300);
  (1674078247783560569100000, 258751082199381692020000, 22226689956261992329000);
  (8067170670017056455200000, 1674078247783560569100000, 22226689956261992329000);
  (258751082199382143050000, 8067170670017059785900000, 22226689956261992329000);
  (8067170670017057565500000, 258751082199381692020000, 22226689956261992329000);
  (1674078247783560846600000, 8067170670017059785900000, 22226689956261992329000);
  (258751082199379367490000, 1674078247783563622200000, 22226689956261992329000);
  (4503409417390181745900000, 993181165219636508110000, 52169886478902870869000);
  (4503409417390181745900000, 4503409417390182856200000, 52169886478902870869000);
  (993181165219635397890000, 4503409417390183966400000, 52169886478902870869000);
  (1306776337702883206100000, 57973186847398387039000, 9106263920612355736900);
  (8635250475449717244600000, 1306776337702883206100000, 9106263920612355736900);
  (57973186847399271748000, 8635250475449719465000000, 9106263920612355736900);
  (8635250475449718354800000, 57973186847398387039000, 9106263920612355736900);
  (1306776337702884593900000, 8635250475449719465000000, 9106263920612355736900);
  (57973186847396218635000, 1306776337702886814400000, 9106263920612355736900)].
