(** Points and weights of lib/lf/quad/quad_rules_tria.cc, rules 47 to 48: for every
    column (points(0, i), points(1, i), weights(i)) times 10^25.  The decimal literals
    are taken exactly as written; their rounding to double is not modelled. *)
From Coq Require Import List ZArith.
Import ListNotations.
Local Open Scope Z_scope.

(** quad_rules_tria.cc:19480-20684 *)
Definition tab_47 : list (Z * Z * Z) := [
  (3491775041543909718900000, 3016449916912181117300000, 21573284791667592455000);
  (3491775041543909718900000, 3491775041543910274000000, 21573284791667592455000);
  (3016449916912180007100000, 3491775041543910829100000, 21573284791667592455000);
  (132182347742614610810000, 69261081189946789582000, 1063910032624725048300);
  (9798556571067439380200000, 132182347742614125090000, 1063910032624725048300);
  (69261081189948559000000, 9798556571067439380200000, 1063910032624725048300);
  (9798556571067438270000000, 69261081189946789582000, 1063910032624725048300);
  (132182347742615946550000, 9798556571067439380200000, 1063910032624725048300);
  (69261081189944170150000, 132182347742618618030000, 1063910032624725048300);
  (1820741432615592125800000, 816358471109855377000000, 11257413724643054731000);
  (7362900096274551664500000, 1820741432615592680900000, 11257413724643054731000);
  (816358471109855377000000, 7362900096274554995200000, 11257413724643054731000);
  (7362900096274552774700000, 816358471109855377000000, 11257413724643054731000);
  (1820741432615591848300000, 7362900096274554995200000, 11257413724643054731000);
  (816358471109853017780000, 1820741432615594901400000, 11257413724643054731000);
  (1505809273177013685200000, 861963659887330785340000, 11325350577440164348000);
  (7632227066935655113200000, 1505809273177013962700000, 11325350577440164348000);
  (861963659887331479230000, 7632227066935657333600000, 11325350577440164348000);
  (7632227066935656223400000, 861963659887330785340000, 11325350577440164348000);
  (1505809273177014517800000, 7632227066935657333600000, 11325350577440164348000);
  (861963659887328287330000, 1505809273177016460700000, 11325350577440164348000);
  (3028965441179143347500000, 3028965441179145012800000, 23495856156259520807000);
  (3942069117641711639700000, 3028965441179144457700000, 23495856156259520807000);
  (3028965441179143347500000, 3942069117641712749900000, 23495856156259520807000);
  (764329826567074904760000, 502931805301914183760000, 7013647873401223547000);
  (8732738368131011119600000, 764329826567074627210000, 7013647873401223547000);
  (502931805301914391930000, 8732738368131013340100000, 7013647873401223547000);
  (8732738368131011119600000, 502931805301914183760000, 7013647873401223547000);
  (764329826567075598650000, 8732738368131013340100000, 7013647873401223547000);
  (502931805301912310260000, 764329826567078096660000, 7013647873401223547000);
  (138326160976293081190000, 10488989499174523543000, 489049584063298958920);
  (9851184849524532438600000, 138326160976292942410000, 489049584063298958920);
  (10488989499176648579000, 9851184849524532438600000, 489049584063298958920);
  (9851184849524532438600000, 10488989499174523543000, 489049584063298958920);
  (138326160976294243450000, 9851184849524532438600000, 489049584063298958920);
  (10488989499172606673000, 138326160976296776150000, 489049584063298958920);
  (267452272430761042730000, 100204975653522664750000, 2019314934017464092400);
  (9632342751915715650700000, 267452272430761320290000, 2019314934017464092400);
  (100204975653523375990000, 9632342751915717871100000, 2019314934017464092400);
  (9632342751915716760900000, 100204975653522664750000, 2019314934017464092400);
  (267452272430762083570000, 9632342751915717871100000, 2019314934017464092400);
  (100204975653519663680000, 267452272430764512180000, 2019314934017464092400);
  (505319024623013812740000, 505319024623016588290000, 6182462048526728322400);
  (8989361950753969043900000, 505319024623013327010000, 6182462048526728322400);
  (505319024623017698520000, 8989361950753971264300000, 6182462048526728322400);
  (3711902367525145018900000, 2036742530451799149100000, 25768276603065367290000);
  (4251355102023055554400000, 3711902367525146129200000, 25768276603065367290000);
  (2036742530451798316400000, 4251355102023056664600000, 25768276603065367290000);
  (4251355102023054999300000, 2036742530451799149100000, 25768276603065367290000);
  (3711902367525145574100000, 4251355102023056664600000, 25768276603065367290000);
  (2036742530451797761300000, 3711902367525147239400000, 25768276603065367290000);
  (3688949727921183585600000, 1593266838739336721500000, 22547355281919661922000);
  (4717783433339479692800000, 3688949727921184140700000, 22547355281919661922000);
  (1593266838739335888900000, 4717783433339481358200000, 22547355281919661922000);
  (4717783433339479137700000, 1593266838739336721500000, 22547355281919661922000);
  (3688949727921184140700000, 4717783433339480803100000, 22547355281919661922000);
  (1593266838739335056200000, 3688949727921185806100000, 22547355281919661922000);
  (4215093928787093657800000, 1569812142425812129300000, 22579986890965504306000);
  (4215093928787094768000000, 4215093928787094768000000, 22579986890965504306000);
  (1569812142425811296600000, 4215093928787095323200000, 22579986890965504306000);
  (1070745798931199421800000, 533687025646959883880000, 9572944836030110706300);
  (8395567175421840833100000, 1070745798931199283000000, 9572944836030110706300);
  (533687025646960577770000, 8395567175421843053600000, 9572944836030110706300);
  (8395567175421840833100000, 533687025646959883880000, 9572944836030110706300);
  (1070745798931199699300000, 8395567175421843053600000, 9572944836030110706300);
  (533687025646956830770000, 1070745798931202752400000, 9572944836030110706300);
  (1152179121673602146800000, 852960644923164285070000, 13031325914996505066000);
  (7994860233403233706900000, 1152179121673602285600000, 13031325914996505066000);
  (852960644923164701400000, 7994860233403234817100000, 13031325914996505066000);
  (7994860233403233706900000, 852960644923164285070000, 13031325914996505066000);
  (1152179121673602701900000, 7994860233403234817100000, 13031325914996505066000);
  (852960644923162064620000, 1152179121673605199900000, 13031325914996505066000);
  (4746270243429587809600000, 507459513140824172720000, 14722405331371289389000);
  (4746270243429587809600000, 4746270243429588364700000, 14722405331371289389000);
  (507459513140823270660000, 4746270243429590030000000, 14722405331371289389000);
  (4179628539698995171000000, 514822979290668059080000, 15380786371433224913000);
  (5305548481010338157700000, 4179628539698995171000000, 15380786371433224913000);
  (514822979290667781530000, 5305548481010339267900000, 15380786371433224913000);
  (5305548481010337047400000, 514822979290668059080000, 15380786371433224913000);
  (4179628539698995171000000, 5305548481010338157700000, 15380786371433224913000);
  (514822979290667226420000, 4179628539698997391500000, 15380786371433224913000);
  (795728420692438376260000, 795728420692441290600000, 10415012431973648226000);
  (8408543158615120471900000, 795728420692438515040000, 10415012431973648226000);
  (795728420692442539600000, 8408543158615121582100000, 10415012431973648226000);
  (462992599159318674040000, 275536314394735394610000, 5164061562559451017800);
  (9261471086445945966000000, 462992599159318257710000, 5164061562559451017800);
  (275536314394737025250000, 9261471086445947076300000, 5164061562559451017800);
  (9261471086445945966000000, 275536314394735394610000, 5164061562559451017800);
  (462992599159319784260000, 9261471086445947076300000, 5164061562559451017800);
  (275536314394732549660000, 462992599159322074100000, 5164061562559451017800);
  (3250299373159994398300000, 1187020271689408490400000, 21771806152064221776000);
  (5562680355150596556200000, 3250299373159994953400000, 21771806152064221776000);
  (1187020271689408490400000, 5562680355150598776600000, 21771806152064221776000);
  (5562680355150597666400000, 1187020271689408490400000, 21771806152064221776000);
  (3250299373159994398300000, 5562680355150598776600000, 21771806152064221776000);
  (1187020271689407380200000, 3250299373159996063600000, 21771806152064221776000);
  (2230214568534537866700000, 850615771696930367260000, 16960439589115200096000);
  (6919169659768531488500000, 2230214568534538144300000, 16960439589115200096000);
  (850615771696930367260000, 6919169659768533708900000, 16960439589115200096000);
  (6919169659768531488500000, 850615771696930367260000, 16960439589115200096000);
  (2230214568534538144300000, 6919169659768532598700000, 16960439589115200096000);
  (850615771696928979480000, 2230214568534540364700000, 16960439589115200096000);
  (3822400802517831319700000, 1181275084411924081200000, 22665783523017624113000);
  (4996324113070245154200000, 3822400802517831319700000, 22665783523017624113000);
  (1181275084411923803600000, 4996324113070246819600000, 22665783523017624113000);
  (4996324113070245154200000, 1181275084411924081200000, 22665783523017624113000);
  (3822400802517830764600000, 4996324113070246264500000, 22665783523017624113000);
  (1181275084411922693400000, 3822400802517832985000000, 22665783523017624113000);
  (3186810168040574708900000, 2527083506527416645300000, 26848596537823368052000);
  (4286106325432008090600000, 3186810168040575819100000, 26848596537823368052000);
  (2527083506527415535100000, 4286106325432010311100000, 26848596537823368052000);
  (4286106325432008645700000, 2527083506527416645300000, 26848596537823368052000);
  (3186810168040574708900000, 4286106325432010311100000, 26848596537823368052000);
  (2527083506527415535100000, 3186810168040576374300000, 26848596537823368052000);
  (3161024291972919786400000, 2057459412081716065800000, 25056259451338340830000);
  (4781516295945363870200000, 3161024291972920341500000, 25056259451338340830000);
  (2057459412081715233200000, 4781516295945366090700000, 25056259451338340830000);
  (4781516295945364425400000, 2057459412081716065800000, 25056259451338340830000);
  (3161024291972920341500000, 4781516295945364980500000, 25056259451338340830000);
  (2057459412081715233200000, 3161024291972921451700000, 25056259451338340830000);
  (236802291430402538090000, 236802291430405556500000, 3315039316333869999200);
  (9526395417139190691100000, 236802291430402329920000, 3315039316333869999200);
  (236802291430406319780000, 9526395417139194021800000, 3315039316333869999200);
  (2017143602625016685100000, 286457371054149485810000, 9766971373944373022200);
  (7696399026320834835200000, 2017143602625016685100000, 9766971373944373022200);
  (286457371054150145010000, 7696399026320835945500000, 9766971373944373022200);
  (7696399026320833725000000, 286457371054149485810000, 9766971373944373022200);
  (2017143602625018350400000, 7696399026320833725000000, 9766971373944373022200);
  (286457371054148063340000, 2017143602625019738200000, 9766971373944373022200);
  (3040953744572968409100000, 287008250916218343730000, 11350766457997049988000);
  (6672038004510812969600000, 3040953744572969519300000, 11350766457997049988000);
  (287008250916218066170000, 6672038004510815190100000, 11350766457997049988000);
  (6672038004510812969600000, 287008250916218343730000, 11350766457997049988000);
  (3040953744572970074400000, 6672038004510812969600000, 11350766457997049988000);
  (287008250916216678390000, 3040953744572972294900000, 11350766457997049988000);
  (2509406000944529036000000, 290822358487935334060000, 10693364915242433398000);
  (7199771640567534936000000, 2509406000944529591100000, 10693364915242433398000);
  (290822358487936583060000, 7199771640567536046300000, 10693364915242433398000);
  (7199771640567536046300000, 290822358487935334060000, 10693364915242433398000);
  (2509406000944529591100000, 7199771640567536046300000, 10693364915242433398000);
  (290822358487933252390000, 2509406000944531811600000, 10693364915242433398000);
  (2701136854877469462000000, 1217422359406605120200000, 21390670916362061402000);
  (6081440785715925834200000, 2701136854877469462000000, 21390670916362061402000);
  (1217422359406604703800000, 6081440785715928054600000, 21390670916362061402000);
  (6081440785715925834200000, 1217422359406605120200000, 21390670916362061402000);
  (2701136854877470017100000, 6081440785715926944400000, 21390670916362061402000);
  (1217422359406603038500000, 2701136854877471682500000, 21390670916362061402000);
  (4230078867718429225200000, 279469184369985149120000, 12535096722214029812000);
  (5490451947911586527700000, 4230078867718429780400000, 12535096722214029812000);
  (279469184369984802170000, 5490451947911587637900000, 12535096722214029812000);
  (5490451947911586527700000, 279469184369985149120000, 12535096722214029812000);
  (4230078867718429225200000, 5490451947911586527700000, 12535096722214029812000);
  (279469184369983969510000, 4230078867718431445700000, 12535096722214029812000);
  (2188381084082619831800000, 1221400667583724675100000, 19868655501992450903000);
  (6590218248333655770600000, 2188381084082620387000000, 19868655501992450903000);
  (1221400667583724675100000, 6590218248333656880800000, 19868655501992450903000);
  (6590218248333654660300000, 1221400667583724675100000, 19868655501992450903000);
  (2188381084082620109400000, 6590218248333656880800000, 19868655501992450903000);
  (1221400667583722454700000, 2188381084082622329800000, 19868655501992450903000);
  (2630564357703721878300000, 2630564357703724653900000, 27991272163015372236000);
  (4738871284592552912700000, 2630564357703723543700000, 27991272163015372236000);
  (2630564357703724098800000, 4738871284592554578000000, 27991272163015372236000);
  (3155582824301562672200000, 1604129850910246957200000, 23702068431689106952000);
  (5240287324788190925800000, 3155582824301563227300000, 23702068431689106952000);
  (1604129850910246402100000, 5240287324788192036000000, 23702068431689106952000);
  (5240287324788189815500000, 1604129850910246957200000, 23702068431689106952000);
  (3155582824301562117100000, 5240287324788192036000000, 23702068431689106952000);
  (1604129850910245291800000, 3155582824301564892600000, 23702068431689106952000);
  (3599942050767866996700000, 520384051030055791440000, 15804510788922389568000);
  (5879673898202076864900000, 3599942050767868106900000, 15804510788922389568000);
  (520384051030055583280000, 5879673898202079085400000, 15804510788922389568000);
  (5879673898202076864900000, 520384051030055791440000, 15804510788922389568000);
  (3599942050767867551800000, 5879673898202076864900000, 15804510788922389568000);
  (520384051030054750610000, 3599942050767869772300000, 15804510788922389568000);
  (761492805627096702730000, 280080973264347880820000, 6532465158918597351900);
  (8958426221108554132800000, 761492805627096563950000, 6532465158918597351900);
  (280080973264348886960000, 8958426221108556353200000, 6532465158918597351900);
  (8958426221108555243000000, 280080973264347880820000, 6532465158918597351900);
  (761492805627098090500000, 8958426221108556353200000, 6532465158918597351900);
  (280080973264345903240000, 761492805627100172170000, 6532465158918597351900);
  (3616871250428564943400000, 283641992932530291600000, 12112082852970397582000);
  (6099486756638904383400000, 3616871250428565498500000, 12112082852970397582000);
  (283641992932530118130000, 6099486756638906603800000, 12112082852970397582000);
  (6099486756638904383400000, 283641992932530291600000, 12112082852970397582000);
  (3616871250428564388300000, 6099486756638906603800000, 12112082852970397582000);
  (283641992932528452800000, 3616871250428568274100000, 12112082852970397582000);
  (4420693972638305435700000, 1158612054723388989900000, 22759072567849437593000);
  (4420693972638305990800000, 4420693972638306545900000, 22759072567849437593000);
  (1158612054723388018500000, 4420693972638307656100000, 22759072567849437593000);
  (4861601074836897629100000, 276797850326204637750000, 12536406752904321726000);
  (4861601074836897629100000, 4861601074836898184200000, 12536406752904321726000);
  (276797850326203909170000, 4861601074836900404600000, 12536406752904321726000);
  (3969570429794790911200000, 818149550216045046150000, 20668792951942234308000);
  (5212280019989163903900000, 3969570429794792021400000, 20668792951942234308000);
  (818149550216044629810000, 5212280019989165014100000, 20668792951942234308000);
  (5212280019989163903900000, 818149550216045046150000, 20668792951942234308000);
  (3969570429794791466300000, 5212280019989165014100000, 20668792951942234308000);
  (818149550216044074700000, 3969570429794793131600000, 20668792951942234308000);
  (2635821046503857290100000, 2121338963165612101500000, 25525665906056130630000);
  (5242839990330530053300000, 2635821046503858400300000, 25525665906056130630000);
  (2121338963165610991300000, 5242839990330532273800000, 25525665906056130630000);
  (5242839990330530053300000, 2121338963165612101500000, 25525665906056130630000);
  (2635821046503857845200000, 5242839990330532273800000, 25525665906056130630000);
  (2121338963165610436200000, 2635821046503860065600000, 25525665906056130630000);
  (1925350542122711561300000, 524452042229162709860000, 13488116669917076321000);
  (7550197415648125520700000, 1925350542122711561300000, 13488116669917076321000);
  (524452042229163195590000, 7550197415648127741200000, 13488116669917076321000);
  (7550197415648126630900000, 524452042229162709860000, 13488116669917076321000);
  (1925350542122711283700000, 7550197415648127741200000, 13488116669917076321000);
  (524452042229161113920000, 1925350542122714336800000, 13488116669917076321000);
  (1550537980019329187300000, 291776764327326132430000, 9404821989536489915100);
  (8157685255653345235400000, 1550537980019329464800000, 9404821989536489915100);
  (291776764327326687540000, 8157685255653346345600000, 9404821989536489915100);
  (8157685255653344125200000, 291776764327326132430000, 9404821989536489915100);
  (1550537980019329742400000, 8157685255653346345600000, 9404821989536489915100);
  (291776764327324050760000, 1550537980019332795500000, 9404821989536489915100);
  (808139183670610050660000, 116752954894914842690000, 4571095051371310480000);
  (9075107861434476008700000, 808139183670609634320000, 4571095051371310480000);
  (116752954894915883520000, 9075107861434477118900000, 4571095051371310480000);
  (9075107861434474898500000, 116752954894914842690000, 4571095051371310480000);
  (808139183670609773100000, 9075107861434477118900000, 4571095051371310480000);
  (116752954894912483460000, 808139183670613242550000, 4571095051371310480000);
  (1621461225224503088800000, 1621461225224505031700000, 20322149629336009810000);
  (6757077549550991602000000, 1621461225224503921400000, 20322149629336009810000);
  (1621461225224505864300000, 6757077549550992712200000, 20322149629336009810000);
  (494903005695827707950000, 113529551848956314350000, 3505328014345405010000);
  (9391567442455215353200000, 494903005695827291620000, 3505328014345405010000);
  (113529551848957632740000, 9391567442455217573600000, 3505328014345405010000);
  (9391567442455215353200000, 113529551848956314350000, 3505328014345405010000);
  (494903005695828124290000, 9391567442455217573600000, 3505328014345405010000);
  (113529551848953504100000, 494903005695830830460000, 3505328014345405010000);
  (3736911818051820155500000, 2526176363896359689000000, 27525567706757065982000);
  (3736911818051819600400000, 3736911818051821265700000, 27525567706757065982000);
  (2526176363896359133900000, 3736911818051821265700000, 27525567706757065982000);
  (3013661191750608425700000, 527412086548005240580000, 15950528243575253992000);
  (6458926721701387929600000, 3013661191750608425700000, 15950528243575253992000);
  (527412086548004754860000, 6458926721701389039900000, 15950528243575253992000);
  (6458926721701386819400000, 527412086548005240580000, 15950528243575253992000);
  (3013661191750608425700000, 6458926721701387929600000, 15950528243575253992000);
  (527412086548003367080000, 3013661191750611201300000, 15950528243575253992000);
  (2125512689048137393600000, 2125512689048139336500000, 24723307999348739968000);
  (5748974621903724102600000, 2125512689048137948700000, 24723307999348739968000);
  (2125512689048138503800000, 5748974621903725212800000, 24723307999348739968000);
  (1455590941243063707300000, 539363844971338171620000, 12169129205527667251000);
  (8005045213785597635300000, 1455590941243063984900000, 12169129205527667251000);
  (539363844971338934900000, 8005045213785599855800000, 12169129205527667251000);
  (8005045213785597635300000, 539363844971338171620000, 12169129205527667251000);
  (1455590941243064540000000, 8005045213785599855800000, 12169129205527667251000);
  (539363844971335881780000, 1455590941243067315500000, 12169129205527667251000);
  (339239311459584025330000, 20268965838006725542000, 1254237257287347520300);
  (9640491722702408949900000, 339239311459583262050000, 1254237257287347520300);
  (20268965838008967673000, 9640491722702410060100000, 1254237257287347520300);
  (9640491722702410060100000, 20268965838006725542000, 1254237257287347520300);
  (339239311459585413110000, 9640491722702410060100000, 1254237257287347520300);
  (20268965838003659419000, 339239311459587702950000, 1254237257287347520300);
  (4598321741495011161200000, 803356517009977677550000, 20328949037970796450000);
  (4598321741495010606100000, 4598321741495012271500000, 20328949037970796450000);
  (803356517009976844880000, 4598321741495013381700000, 20328949037970796450000);
  (4609203982983521297200000, 113741139787508632740000, 8554065638802525652800);
  (5277054877228970486400000, 4609203982983521852300000, 8554065638802525652800);
  (113741139787507661300000, 5277054877228972706900000, 8554065638802525652800);
  (5277054877228969376200000, 113741139787508632740000, 8554065638802525652800);
  (4609203982983521852300000, 5277054877228970486400000, 8554065638802525652800);
  (113741139787507938850000, 4609203982983523517600000, 8554065638802525652800);
  (2096506369927426116600000, 1647197357980590692900000, 22640060667147004353000);
  (6256296272091983468000000, 2096506369927426394200000, 22640060667147004353000);
  (1647197357980590415300000, 6256296272091984578300000, 22640060667147004353000);
  (6256296272091983468000000, 1647197357980590692900000, 22640060667147004353000);
  (2096506369927426116600000, 6256296272091984578300000, 22640060667147004353000);
  (1647197357980589027500000, 2096506369927428337100000, 22640060667147004353000);
  (3356188307276363191900000, 824852827778116137750000, 20040696150745215126000);
  (5818958864945520392800000, 3356188307276364302100000, 20040696150745215126000);
  (824852827778115305080000, 5818958864945522613300000, 20040696150745215126000);
  (5818958864945520392800000, 824852827778116137750000, 20040696150745215126000);
  (3356188307276363191900000, 5818958864945522613300000, 20040696150745215126000);
  (824852827778114472410000, 3356188307276365967400000, 20040696150745215126000);
  (1191983560948026293900000, 118660258094383762320000, 5597701999536646442000);
  (8689356180957589215200000, 1191983560948026293900000, 5597701999536646442000);
  (118660258094385184790000, 8689356180957590325400000, 5597701999536646442000);
  (8689356180957590325400000, 118660258094383762320000, 5597701999536646442000);
  (1191983560948027820500000, 8689356180957590325400000, 5597701999536646442000);
  (118660258094381437790000, 1191983560948029763300000, 5597701999536646442000);
  (1127517427175888931100000, 289885801232179704520000, 8278245406138346309000);
  (8582596771591931572600000, 1127517427175888931100000, 8278245406138346309000);
  (289885801232179773910000, 8582596771591933793000000, 8278245406138346309000);
  (8582596771591931572600000, 289885801232179704520000, 8278245406138346309000);
  (1127517427175888653500000, 8582596771591933793000000, 8278245406138346309000);
  (289885801232177067740000, 1127517427175892400500000, 8278245406138346309000);
  (2446044849937104859200000, 536092519706683826030000, 15372786056367874607000);
  (7017862630356210829100000, 2446044849937105136700000, 15372786056367874607000);
  (536092519706684034200000, 7017862630356213049500000, 15372786056367874607000);
  (7017862630356211939300000, 536092519706683826030000, 15372786056367874607000);
  (2446044849937105136700000, 7017862630356211939300000, 15372786056367874607000);
  (536092519706682230090000, 2446044849937108189900000, 15372786056367874607000);
  (2613278952130154153500000, 1649672925863881201000000, 24150352120985733514000);
  (5737048122005965478100000, 2613278952130154708700000, 24150352120985733514000);
  (1649672925863881478600000, 5737048122005965478100000, 24150352120985733514000);
  (5737048122005964367900000, 1649672925863881201000000, 24150352120985733514000);
  (2613278952130154708700000, 5737048122005965478100000, 24150352120985733514000);
  (1649672925863879813200000, 2613278952130155818900000, 24150352120985733514000);
  (2767102223588470133500000, 841334586353880142790000, 19493487019107118979000);
  (6391563190057648613500000, 2767102223588470688600000, 19493487019107118979000);
  (841334586353880142790000, 6391563190057650834000000, 19493487019107118979000);
  (6391563190057649723700000, 841334586353880142790000, 19493487019107118979000);
  (2767102223588470688600000, 6391563190057650834000000, 19493487019107118979000);
  (841334586353878199900000, 2767102223588472909000000, 19493487019107118979000);
  (3310576983055139588300000, 117181407852650371760000, 8229259955773720203900);
  (6572241609092209779800000, 3310576983055140143400000, 8229259955773720203900);
  (117181407852650631970000, 6572241609092212000200000, 8229259955773720203900);
  (6572241609092209779800000, 117181407852650371760000, 8229259955773720203900);
  (3310576983055140143400000, 6572241609092210890000000, 8229259955773720203900);
  (117181407852648689080000, 3310576983055141808700000, 8229259955773720203900);
  (1711659603535229945400000, 1198251592753852706700000, 18559524354637363733000);
  (7090088803710916654000000, 1711659603535230500500000, 18559524354637363733000);
  (1198251592753853400600000, 7090088803710917764200000, 18559524354637363733000);
  (7090088803710917764200000, 1198251592753852706700000, 18559524354637363733000);
  (1711659603535231055600000, 7090088803710917764200000, 18559524354637363733000);
  (1198251592753850625100000, 1711659603535232721000000, 18559524354637363733000);
  (2148380935404156366600000, 118084740509011697910000, 7092878039308043742300);
  (7733534324086831501800000, 2148380935404156366600000, 7092878039308043742300);
  (118084740509011854040000, 7733534324086833722200000, 7092878039308043742300);
  (7733534324086831501800000, 118084740509011697910000, 7092878039308043742300);
  (2148380935404157199300000, 7733534324086832612000000, 7092878039308043742300);
  (118084740509009633590000, 2148380935404159419700000, 7092878039308043742300);
  (1640325957882372565100000, 118982357159540252930000, 6445290977854571624500);
  (8240691684958086904400000, 1640325957882372842600000, 6445290977854571624500);
  (118982357159541640710000, 8240691684958088014700000, 6445290977854571624500);
  (8240691684958086904400000, 118982357159540252930000, 6445290977854571624500);
  (1640325957882373675300000, 8240691684958088014700000, 6445290977854571624500);
  (118982357159537754930000, 1640325957882375895700000, 6445290977854571624500);
  (2705995205192744390600000, 118476002079960143070000, 7807450274528932639800);
  (7175528792727294824500000, 2705995205192744945700000, 7807450274528932639800);
  (118476002079960784920000, 7175528792727297045000000, 7807450274528932639800);
  (7175528792727295934700000, 118476002079960143070000, 7807450274528932639800);
  (2705995205192744945700000, 7175528792727297045000000, 7807450274528932639800);
  (118476002079958286920000, 2705995205192747721200000, 7807450274528932639800);
  (3948815299054212468700000, 115294467270000370460000, 8476359454730019848300);
  (5935890233675786831200000, 3948815299054213023800000, 8476359454730019848300);
  (115294467270000144940000, 5935890233675789051700000, 8476359454730019848300);
  (5935890233675787941400000, 115294467270000370460000, 8476359454730019848300);
  (3948815299054213023800000, 5935890233675787941400000, 8476359454730019848300);
  (115294467269998757160000, 3948815299054215244300000, 8476359454730019848300);
  (4989185291486734064000000, 21629417026531555339000, 3744154306019896786200);
  (4989185291486734064000000, 4989185291486735174300000, 3744154306019896786200);
  (21629417026531316814000, 4989185291486736284500000, 3744154306019896786200);
  (976801440609630089450000, 22497058285754815109000, 2264011362839586085800);
  (9000701501104615420700000, 976801440609629811900000, 2264011362839586085800);
  (22497058285755877627000, 9000701501104616530900000, 2264011362839586085800);
  (9000701501104615420700000, 22497058285754815109000, 2264011362839586085800);
  (976801440609630922120000, 9000701501104616530900000, 2264011362839586085800);
  (22497058285752269402000, 976801440609633142560000, 2264011362839586085800);
  (4316631884764960958000000, 21780831191386446251000, 3726699155331832883500);
  (5661587284043652079600000, 4316631884764962068200000, 3726699155331832883500);
  (21780831191386407220000, 5661587284043654300100000, 3726699155331832883500);
  (5661587284043652079600000, 21780831191386446251000, 3726699155331832883500);
  (4316631884764961513100000, 5661587284043653189900000, 3726699155331832883500);
  (21780831191385574552000, 4316631884764963733600000, 3726699155331832883500);
  (1403238605725802834500000, 22594310974726021513000, 2661740736293357451600);
  (8574167083299470970600000, 1403238605725803112000000, 2661740736293357451600);
  (22594310974726194985000, 8574167083299473191000000, 2661740736293357451600);
  (8574167083299470970600000, 22594310974726021513000, 2661740736293357451600);
  (1403238605725802834500000, 8574167083299473191000000, 2661740736293357451600);
  (22594310974723835761000, 1403238605725806442700000, 2661740736293357451600);
  (1249745067489112931900000, 1249745067489115568600000, 18160699278318768839000);
  (7500509865021771638300000, 1249745067489113070600000, 18160699278318768839000);
  (1249745067489116401300000, 7500509865021771638300000, 18160699278318768839000);
  (2437969001075016850500000, 22489510449105816654000, 3288098418131979276700);
  (7539541488475877129000000, 2437969001075016850500000, 3288098418131979276700);
  (22489510449106298040000, 7539541488475879349500000, 3288098418131979276700);
  (7539541488475877129000000, 22489510449105816654000, 3288098418131979276700);
  (2437969001075017683200000, 7539541488475878239200000, 3288098418131979276700);
  (22489510449104077594000, 2437969001075019903600000, 3288098418131979276700);
  (619939934379152152170000, 22107829440679788516000, 1810345255653384572100);
  (9357952236180167027200000, 619939934379151805220000, 1810345255653384572100);
  (22107829440680681898000, 9357952236180170357800000, 1810345255653384572100);
  (9357952236180167027200000, 22107829440679788516000, 1810345255653384572100);
  (619939934379152846060000, 9357952236180170357800000, 1810345255653384572100);
  (22107829440677108368000, 619939934379154997110000, 1810345255653384572100);
  (3029504928419904374900000, 22499314295439339952000, 3530059728352464274700);
  (6947995757284657347700000, 3029504928419904374900000, 3530059728352464274700);
  (22499314295439942768000, 6947995757284657347700000, 3530059728352464274700);
  (6947995757284656237500000, 22499314295439339952000, 3530059728352464274700);
  (3029504928419904930000000, 6947995757284657347700000, 3530059728352464274700);
  (22499314295437722322000, 3029504928419907150400000, 3530059728352464274700);
  (1892661005029102894200000, 22640392620408228766000, 3009385511099854984600);
  (8084698602350488538800000, 1892661005029102894200000, 3009385511099854984600);
  (22640392620409399704000, 8084698602350489649000000, 3009385511099854984600);
  (8084698602350489649000000, 22640392620408228766000, 3009385511099854984600);
  (1892661005029104281900000, 8084698602350489649000000, 3009385511099854984600);
  (22640392620405930257000, 1892661005029106224800000, 3009385511099854984600);
  (3659190279368090825700000, 22135119210076217681000, 3663196732748325197500);
  (6318674601421832015500000, 3659190279368090825700000, 3663196732748325197500);
  (22135119210076048546000, 6318674601421835346200000, 3663196732748325197500);
  (6318674601421833125800000, 22135119210076217681000, 3663196732748325197500);
  (3659190279368091380800000, 6318674601421833125800000, 3663196732748325197500);
  (22135119210074660767000, 3659190279368093601200000, 3663196732748325197500);
  (26050966947360060244000, 26050966947363256472000, 446268307090295687630);
  (9947898066105276271300000, 26050966947360051570000, 446268307090295687630);
  (26050966947365195026000, 9947898066105276271300000, 446268307090295687630)].

(** quad_rules_tria.cc:20687-21963 *)
Definition tab_48 : list (Z * Z * Z) := [
  (3477244587108094253700000, 3045510825783811492700000, 21825693768913693310000);
  (3477244587108094808800000, 3477244587108095363900000, 21825693768913693310000);
  (3045510825783810382500000, 3477244587108095919000000, 21825693768913693310000);
  (3695672915901662136700000, 2157006441696169007900000, 18599657061483545160000);
  (4147320642402169133000000, 3695672915901662691800000, 18599657061483545160000);
  (2157006441696167897700000, 4147320642402170798300000, 18599657061483545160000);
  (4147320642402169688100000, 2157006441696169007900000, 18599657061483545160000);
  (3695672915901662136700000, 4147320642402170243200000, 18599657061483545160000);
  (2157006441696167897700000, 3695672915901663802000000, 18599657061483545160000);
  (3084818979933622307100000, 1083014999220039825700000, 15163054722851024292000);
  (5832166020846337728400000, 3084818979933622862300000, 15163054722851024292000);
  (1083014999220039409300000, 5832166020846339948800000, 15163054722851024292000);
  (5832166020846337728400000, 1083014999220039825700000, 15163054722851024292000);
  (3084818979933622307100000, 5832166020846338838600000, 15163054722851024292000);
  (1083014999220038576700000, 3084818979933623972500000, 15163054722851024292000);
  (3196427292245513363000000, 346959527711364415500000, 9235054324167451264900);
  (6456613180043122568500000, 3196427292245513918100000, 9235054324167451264900);
  (346959527711364623670000, 6456613180043124788900000, 9235054324167451264900);
  (6456613180043122568500000, 346959527711364415500000, 9235054324167451264900);
  (3196427292245513918100000, 6456613180043122568500000, 9235054324167451264900);
  (346959527711363235890000, 3196427292245515583400000, 9235054324167451264900);
  (3734312712553220503500000, 2531374574893558993000000, 19845875226512919333000);
  (3734312712553220503500000, 3734312712553222168800000, 19845875226512919333000);
  (2531374574893557882800000, 3734312712553222168800000, 19845875226512919333000);
  (9962559654771518946600000, 13460639309494980363000, 118864540424328977640);
  (23979705918986682356000, 9962559654771520056800000, 118864540424328977640);
  (13460639309492577771000, 23979705918989713785000, 118864540424328977640);
  (23979705918986101224000, 13460639309494980363000, 118864540424328977640);
  (9962559654771518946600000, 23979705918985871373000, 118864540424328977640);
  (13460639309496591487000, 9962559654771520056800000, 118864540424328977640);
  (3280848178088313082900000, 191707840803216067460000, 7724837263204835987500);
  (6527443981108470572000000, 3280848178088313082900000, 7724837263204835987500);
  (191707840803216345020000, 6527443981108472792500000, 7724837263204835987500);
  (6527443981108470572000000, 191707840803216067460000, 7724837263204835987500);
  (3280848178088313638100000, 6527443981108471682300000, 7724837263204835987500);
  (191707840803214957240000, 3280848178088315303400000, 7724837263204835987500);
  (3198129082727194649700000, 2763615653108097425200000, 25159434913496966923000);
  (4038255264164707925000000, 3198129082727195760000000, 25159434913496966923000);
  (2763615653108096315000000, 4038255264164709590300000, 25159434913496966923000);
  (4038255264164707369900000, 2763615653108097425200000, 25159434913496966923000);
  (3198129082727194649700000, 4038255264164709590300000, 25159434913496966923000);
  (2763615653108096315000000, 3198129082727195760000000, 25159434913496966923000);
  (1589266013618200190600000, 16411683438174631388000, 1943678834004917868400);
  (8394322302943624247700000, 1589266013618199913100000, 1943678834004917868400);
  (16411683438175006522000, 8394322302943627578400000, 1943678834004917868400);
  (8394322302943625357900000, 16411683438174631388000, 1943678834004917868400);
  (1589266013618199635500000, 8394322302943627578400000, 1943678834004917868400);
  (16411683438172786076000, 1589266013618203521300000, 1943678834004917868400);
  (1962759771972356071000000, 533231934213235156390000, 11464846676597329703000);
  (7504008293814409258400000, 1962759771972356071000000, 11464846676597329703000);
  (533231934213235780890000, 7504008293814409258400000, 11464846676597329703000);
  (7504008293814409258400000, 533231934213235156390000, 11464846676597329703000);
  (1962759771972357181200000, 7504008293814409258400000, 11464846676597329703000);
  (533231934213233421670000, 1962759771972359124100000, 11464846676597329703000);
  (4893390535628532322900000, 213218928742935805170000, 9110572683922553080500);
  (4893390535628532322900000, 4893390535628532878000000, 9110572683922553080500);
  (213218928742935631690000, 4893390535628533988300000, 9110572683922553080500);
  (2933421845901817426300000, 829288364011383782870000, 16295040978854741839000);
  (6237289790086798513300000, 2933421845901817981400000, 16295040978854741839000);
  (829288364011384615540000, 6237289790086799623500000, 16295040978854741839000);
  (6237289790086798513300000, 829288364011383782870000, 16295040978854741839000);
  (2933421845901817981400000, 6237289790086799623500000, 16295040978854741839000);
  (829288364011382395090000, 2933421845901819091700000, 16295040978854741839000);
  (484109248251398810450000, 484109248251401655390000, 6057236250324898093500);
  (9031781503497199326000000, 484109248251398810450000, 6057236250324898093500);
  (484109248251403112560000, 9031781503497200436200000, 6057236250324898093500);
  (801595487479755675060000, 801595487479758728180000, 9654772448135350709800);
  (8396809025040484764100000, 801595487479755813840000, 9654772448135350709800);
  (801595487479760393510000, 8396809025040485874300000, 9654772448135350709800);
  (1247273258813975660400000, 233190171491815048670000, 6497171967007592642900);
  (8519536569694208250100000, 1247273258813975799200000, 6497171967007592642900);
  (233190171491815534390000, 8519536569694211580700000, 6497171967007592642900);
  (8519536569694209360300000, 233190171491815048670000, 6497171967007592642900);
  (1247273258813976215500000, 8519536569694211580700000, 6497171967007592642900);
  (233190171491812203720000, 1247273258813978991100000, 6497171967007592642900);
  (3115932459432795842400000, 1387130939593855805100000, 20221158995707548024000);
  (5496936600973347797300000, 3115932459432796397500000, 20221158995707548024000);
  (1387130939593855805100000, 5496936600973350017800000, 20221158995707548024000);
  (5496936600973347797300000, 1387130939593855805100000, 20221158995707548024000);
  (3115932459432795287300000, 5496936600973350017800000, 20221158995707548024000);
  (1387130939593854417300000, 3115932459432798062900000, 20221158995707548024000);
  (4790902659592135015600000, 418194680815729760700000, 13200121878205368659000);
  (4790902659592135570700000, 4790902659592135570700000, 13200121878205368659000);
  (418194680815729136200000, 4790902659592137236000000, 13200121878205368659000);
  (4666424153484346470900000, 667151693031307335690000, 16420960432030349066000);
  (4666424153484346470900000, 4666424153484347026000000, 16420960432030349066000);
  (667151693031306780580000, 4666424153484348136300000, 16420960432030349066000);
  (1105414410318807522100000, 105406394081225263100000, 4322395535472597937800);
  (8789179195599966520900000, 1105414410318807244500000, 4322395535472597937800);
  (105406394081226650880000, 8789179195599967631100000, 4322395535472597937800);
  (8789179195599967631100000, 105406394081225263100000, 4322395535472597937800);
  (1105414410318809048700000, 8789179195599967631100000, 4322395535472597937800);
  (105406394081222279380000, 1105414410318811130300000, 4322395535472597937800);
  (2974171962759172283000000, 103472505675079231440000, 6329857182378711673600);
  (6922355531565748121300000, 2974171962759172838100000, 6329857182378711673600);
  (103472505675079595730000, 6922355531565749231500000, 6329857182378711673600);
  (6922355531565748121300000, 103472505675079231440000, 6329857182378711673600);
  (2974171962759173393200000, 6922355531565749231500000, 6329857182378711673600);
  (103472505675077930400000, 2974171962759175613700000, 6329857182378711673600);
  (2940680586522785300300000, 537818816587767034590000, 13712942976207562803000);
  (6521500596889447942700000, 2940680586522785855400000, 13712942976207562803000);
  (537818816587767312140000, 6521500596889449052900000, 13712942976207562803000);
  (6521500596889447942700000, 537818816587767034590000, 13712942976207562803000);
  (2940680586522785855400000, 6521500596889449052900000, 13712942976207562803000);
  (537818816587765646810000, 2940680586522788075900000, 13712942976207562803000);
  (1114012176063108317000000, 697603580204464307490000, 10577037768328726667000);
  (8188384243732427236800000, 1114012176063108039400000, 10577037768328726667000);
  (697603580204465001380000, 8188384243732429457200000, 10577037768328726667000);
  (8188384243732427236800000, 697603580204464307490000, 10577037768328726667000);
  (1114012176063108317000000, 8188384243732429457200000, 10577037768328726667000);
  (697603580204462364600000, 1114012176063111370100000, 10577037768328726667000);
  (4437434538636292891100000, 155023027792510516290000, 8115772636428425414900);
  (5407542433571197459900000, 4437434538636293446200000, 8115772636428425414900);
  (155023027792509093810000, 5407542433571199680400000, 8115772636428425414900);
  (5407542433571196349700000, 155023027792510516290000, 8115772636428425414900);
  (4437434538636293446200000, 5407542433571197459900000, 8115772636428425414900);
  (155023027792509093810000, 4437434538636295666700000, 8115772636428425414900);
  (3676357119294024755600000, 396225072588169413560000, 12706368667026474856000);
  (5927417808117805275700000, 3676357119294025310700000, 12706368667026474856000);
  (396225072588169968670000, 5927417808117806385900000, 12706368667026474856000);
  (5927417808117805275700000, 396225072588169413560000, 12706368667026474856000);
  (3676357119294025310700000, 5927417808117806385900000, 12706368667026474856000);
  (396225072588168025780000, 3676357119294027531200000, 12706368667026474856000);
  (483834188936242623470000, 118107009236640553280000, 3113177360560864977100);
  (9398058801827116060000000, 483834188936242345910000, 3113177360560864977100);
  (118107009236642634950000, 9398058801827117170200000, 3113177360560864977100);
  (9398058801827116060000000, 118107009236640553280000, 3113177360560864977100);
  (483834188936243525530000, 9398058801827117170200000, 3113177360560864977100);
  (118107009236638228760000, 483834188936246231690000, 3113177360560864977100);
  (4261985460348483023600000, 352878923463722377060000, 13209201899881362844000);
  (5385135616187795015700000, 4261985460348483023600000, 13209201899881362844000);
  (352878923463721960730000, 5385135616187797236200000, 13209201899881362844000);
  (5385135616187795015700000, 352878923463722377060000, 13209201899881362844000);
  (4261985460348482468400000, 5385135616187796125900000, 13209201899881362844000);
  (352878923463721128060000, 4261985460348484688900000, 13209201899881362844000);
  (3464037075083425953900000, 647150930019751435830000, 16326585513786941607000);
  (5888811994896823165400000, 3464037075083425953900000, 16326585513786941607000);
  (647150930019750880720000, 5888811994896825385800000, 16326585513786941607000);
  (5888811994896823165400000, 647150930019751435830000, 16326585513786941607000);
  (3464037075083425398800000, 5888811994896824275600000, 16326585513786941607000);
  (647150930019749770490000, 3464037075083428174300000, 16326585513786941607000);
  (761686440792014585190000, 104225715676421054610000, 3827572929612091195100);
  (9134087843531564221400000, 761686440792014307630000, 3827572929612091195100);
  (104225715676421470950000, 9134087843531567552100000, 3827572929612091195100);
  (9134087843531565331600000, 104225715676421054610000, 3827572929612091195100);
  (761686440792014862740000, 9134087843531567552100000, 3827572929612091195100);
  (104225715676418764780000, 761686440792017499520000, 3827572929612091195100);
  (3198558059892069871400000, 2271049175306689704700000, 25820680472357629073000);
  (4530392764801239868800000, 3198558059892070981600000, 25820680472357629073000);
  (2271049175306689149600000, 4530392764801242089200000, 25820680472357629073000);
  (4530392764801240979000000, 2271049175306689704700000, 25820680472357629073000);
  (3198558059892069871400000, 4530392764801242089200000, 25820680472357629073000);
  (2271049175306688594500000, 3198558059892071536700000, 25820680472357629073000);
  (1149767499763278272300000, 431548880805705872830000, 9277194906379181236300);
  (8418683619431015507900000, 1149767499763278272300000, 9277194906379181236300);
  (431548880805706636110000, 8418683619431017728400000, 9277194906379181236300);
  (8418683619431016618200000, 431548880805705872830000, 9277194906379181236300);
  (1149767499763278966200000, 8418683619431017728400000, 9277194906379181236300);
  (431548880805703166660000, 1149767499763281464200000, 9277194906379181236300);
  (1553411874863349639900000, 489749482183904280560000, 11399050056811561513000);
  (7956838642952746010200000, 1553411874863349639900000, 11399050056811561513000);
  (489749482183904905060000, 7956838642952748230600000, 11399050056811561513000);
  (7956838642952746010200000, 489749482183904280560000, 11399050056811561513000);
  (1553411874863349639900000, 7956838642952748230600000, 11399050056811561513000);
  (489749482183902129510000, 1553411874863352970500000, 11399050056811561513000);
  (1536641394780652314400000, 94545488420266759338000, 5133973085980451933600);
  (8368813116799080908900000, 1536641394780652036800000, 5133973085980451933600);
  (94545488420268442020000, 8368813116799082019200000, 5133973085980451933600);
  (8368813116799082019200000, 94545488420266759338000, 5133973085980451933600);
  (1536641394780652869500000, 8368813116799082019200000, 5133973085980451933600);
  (94545488420264556240000, 1536641394780655645000000, 5133973085980451933600);
  (798538207718234027690000, 18943058791126433493000, 1664215605633112484000);
  (9182518733490638851400000, 798538207718234305240000, 1664215605633112484000);
  (18943058791127675988000, 9182518733490641071900000, 1664215605633112484000);
  (9182518733490639961700000, 18943058791126433493000, 1664215605633112484000);
  (798538207718234582800000, 9182518733490641071900000, 1664215605633112484000);
  (18943058791123998374000, 798538207718237497130000, 1664215605633112484000);
  (117045744671133034740000, 117045744671136174590000, 1614724792174078503300);
  (9765908510657730357000000, 117045744671132965350000, 1614724792174078503300);
  (117045744671137041950000, 9765908510657732577400000, 1614724792174078503300);
  (1978601121285483710500000, 120283224036929169140000, 6078746557258590289800);
  (7901115654677587363300000, 1978601121285483988000000, 6078746557258590289800);
  (120283224036928371170000, 7901115654677590693900000, 6078746557258590289800);
  (7901115654677586253000000, 120283224036929169140000, 6078746557258590289800);
  (1978601121285484265600000, 7901115654677587363300000, 6078746557258590289800);
  (120283224036927538500000, 1978601121285486486000000, 6078746557258590289800);
  (3169153803807818192700000, 19044677779363164589000, 2946557864478388218500);
  (6811801518412818889900000, 3169153803807818747800000, 2946557864478388218500);
  (19044677779363472503000, 6811801518412820000100000, 2946557864478388218500);
  (6811801518412818889900000, 19044677779363164589000, 2946557864478388218500);
  (3169153803807818747800000, 6811801518412820000100000, 2946557864478388218500);
  (19044677779362084724000, 3169153803807820968300000, 2946557864478388218500);
  (1645639771634134773700000, 262052237923564648740000, 8671329022474306893300);
  (8092307990442300091900000, 1645639771634134496100000, 8671329022474306893300);
  (262052237923565689570000, 8092307990442302312300000, 8671329022474306893300);
  (8092307990442301202100000, 262052237923564648740000, 8671329022474306893300);
  (1645639771634135328800000, 8092307990442302312300000, 8671329022474306893300);
  (262052237923561665010000, 1645639771634137826800000, 8671329022474306893300);
  (3611298359799379187300000, 944709215240264049700000, 20249375378802308978000);
  (5443992424960356624200000, 3611298359799379742400000, 20249375378802308978000);
  (944709215240263633360000, 5443992424960358844600000, 20249375378802308978000);
  (5443992424960356624200000, 944709215240264049700000, 20249375378802308978000);
  (3611298359799379742400000, 5443992424960357734400000, 20249375378802308978000);
  (944709215240262800690000, 3611298359799381407800000, 20249375378802308978000);
  (4198259774542293931700000, 963233490337837422460000, 21371161488564229501000);
  (4838506735119868507100000, 4198259774542294486800000, 21371161488564229501000);
  (963233490337836451010000, 4838506735119870727500000, 21371161488564229501000);
  (4838506735119869062200000, 963233490337837422460000, 21371161488564229501000);
  (4198259774542294486800000, 4838506735119869617300000, 21371161488564229501000);
  (963233490337836173460000, 4198259774542296152200000, 21371161488564229501000);
  (2431752245746630902700000, 534903172634274073900000, 14167542737901226216000);
  (7033344581619095370300000, 2431752245746630902700000, 14167542737901226216000);
  (534903172634274559630000, 7033344581619096480600000, 14167542737901226216000);
  (7033344581619095370300000, 534903172634274073900000, 14167542737901226216000);
  (2431752245746631180300000, 7033344581619096480600000, 14167542737901226216000);
  (534903172634271645290000, 2431752245746633678300000, 14167542737901226216000);
  (1459832231136434510500000, 795244786008371812300000, 13719062729418713548000);
  (7744922982855192428200000, 1459832231136434788100000, 13719062729418713548000);
  (795244786008372228640000, 7744922982855195758800000, 13719062729418713548000);
  (7744922982855194648600000, 795244786008371812300000, 13719062729418713548000);
  (1459832231136434233000000, 7744922982855195758800000, 13719062729418713548000);
  (795244786008369869410000, 1459832231136437841200000, 13719062729418713548000);
  (272392832679802729400000, 110307547814719290880000, 2365107281775260866400);
  (9617299619505478292000000, 272392832679802347760000, 2365107281775260866400);
  (110307547814720852130000, 9617299619505479402200000, 2365107281775260866400);
  (9617299619505478292000000, 110307547814719290880000, 2365107281775260866400);
  (272392832679803076350000, 9617299619505479402200000, 2365107281775260866400);
  (110307547814716532670000, 272392832679806164150000, 2365107281775260866400);
  (2453137089647784152600000, 121862329639788515710000, 6866588720805030104900);
  (7425000580712427522600000, 2453137089647784152600000, 6866588720805030104900);
  (121862329639788602440000, 7425000580712429743000000, 6866588720805030104900);
  (7425000580712427522600000, 121862329639788515710000, 6866588720805030104900);
  (2453137089647783875000000, 7425000580712429743000000, 6866588720805030104900);
  (121862329639786104440000, 2453137089647787205700000, 6866588720805030104900);
  (2678465137111687988100000, 2678465137111689653400000, 27155231519975539349000);
  (4643069725776621803300000, 2678465137111689098300000, 27155231519975539349000);
  (2678465137111689098300000, 4643069725776624023800000, 27155231519975539349000);
  (1165542190734528971200000, 21132182624776095665000, 2116504957303069506700);
  (8813325626640694521200000, 1165542190734529109900000, 2116504957303069506700);
  (21132182624776785218000, 8813325626640696741600000, 2116504957303069506700);
  (8813325626640694521200000, 21132182624776095665000, 2116504957303069506700);
  (1165542190734529248700000, 8813325626640696741600000, 2116504957303069506700);
  (21132182624773732105000, 1165542190734532579400000, 2116504957303069506700);
  (535856828700446083390000, 272189906580712175090000, 5332305935819222101800);
  (9191953264718841776200000, 535856828700445736450000, 5332305935819222101800);
  (272189906580713181230000, 9191953264718843996700000, 5332305935819222101800);
  (9191953264718840666000000, 272189906580712175090000, 5332305935819222101800);
  (535856828700446152780000, 9191953264718843996700000, 5332305935819222101800);
  (272189906580709399530000, 535856828700449275280000, 5332305935819222101800);
  (851355181500168534110000, 262562590124720725280000, 6912005366558516975300);
  (8886082228375110636500000, 851355181500168256560000, 6912005366558516975300);
  (262562590124721384480000, 8886082228375112857000000, 6912005366558516975300);
  (8886082228375111746700000, 262562590124720725280000, 6912005366558516975300);
  (851355181500169644340000, 8886082228375111746700000, 6912005366558516975300);
  (262562590124718053810000, 851355181500171864780000, 6912005366558516975300);
  (4084926257856330567000000, 624750974503704217810000, 18292558965134965866000);
  (5290322767639965562100000, 4084926257856330567000000, 18292558965134965866000);
  (624750974503703870870000, 5290322767639967782600000, 18292558965134965866000);
  (5290322767639964451900000, 624750974503704217810000, 18292558965134965866000);
  (4084926257856331122100000, 5290322767639966672300000, 18292558965134965866000);
  (624750974503703038200000, 4084926257856333342600000, 18292558965134965866000);
  (3822510450948137794600000, 1737762098761934936900000, 26050024274332905100000);
  (4439727450289926991000000, 3822510450948138904800000, 26050024274332905100000);
  (1737762098761934104200000, 4439727450289928656300000, 26050024274332905100000);
  (4439727450289927546100000, 1737762098761934936900000, 26050024274332905100000);
  (3822510450948138904800000, 4439727450289928101200000, 26050024274332905100000);
  (1737762098761933549100000, 3822510450948140015000000, 26050024274332905100000);
  (259740322065890247290000, 20491260430695718529000, 1036552802953824678700);
  (9719768417503412694100000, 259740322065890108520000, 1036552802953824678700);
  (20491260430697821882000, 9719768417503414914500000, 1036552802953824678700);
  (9719768417503414914500000, 20491260430695718529000, 1036552802953824678700);
  (259740322065891704460000, 9719768417503414914500000, 1036552802953824678700);
  (20491260430692530975000, 259740322065893959600000, 1036552802953824678700);
  (3856891887600643054100000, 188900416615420362050000, 9791581434315786182400);
  (5954207695783936271600000, 3856891887600643609200000, 9791581434315786182400);
  (188900416615420674300000, 5954207695783937381900000, 9791581434315786182400);
  (5954207695783936271600000, 188900416615420362050000, 9791581434315786182400);
  (3856891887600644164300000, 5954207695783937381900000, 9791581434315786182400);
  (188900416615419008970000, 3856891887600646384700000, 9791581434315786182400);
  (1907464794314031042400000, 826189529456984456110000, 16044612649593796919000);
  (7266345676228984640200000, 1907464794314031042400000, 16044612649593796919000);
  (826189529456984317330000, 7266345676228986860700000, 16044612649593796919000);
  (7266345676228984640200000, 826189529456984456110000, 16044612649593796919000);
  (1907464794314031597500000, 7266345676228985750500000, 16044612649593796919000);
  (826189529456982374440000, 1907464794314033818000000, 16044612649593796919000);
  (493146516048518085420000, 22799567867531097924000, 1572075773065925057600);
  (9484053916083950985800000, 493146516048517669080000, 1572075773065925057600);
  (22799567867532455345000, 9484053916083952096000000, 1572075773065925057600);
  (9484053916083950985800000, 22799567867531097924000, 1572075773065925057600);
  (493146516048519334420000, 9484053916083952096000000, 1572075773065925057600);
  (22799567867527632814000, 493146516048521207920000, 1572075773065925057600);
  (4264825454980465946300000, 47722521203026439796000, 5392572775602049806400);
  (5687452023816508273100000, 4264825454980466501500000, 5392572775602049806400);
  (47722521203025780601000, 5687452023816510493500000, 5392572775602049806400);
  (5687452023816508273100000, 47722521203026439796000, 5392572775602049806400);
  (4264825454980466501500000, 5687452023816508273100000, 5392572775602049806400);
  (47722521203025503045000, 4264825454980468166800000, 5392572775602049806400);
  (1513647526705650947500000, 1162023564115880619500000, 18002134883076065328000);
  (7324328909178469126900000, 1513647526705650947500000, 18002134883076065328000);
  (1162023564115880480700000, 7324328909178470237200000, 18002134883076065328000);
  (7324328909178468016700000, 1162023564115880619500000, 18002134883076065328000);
  (1513647526705651502600000, 7324328909178470237200000, 18002134883076065328000);
  (1162023564115878121500000, 1513647526705654000600000, 18002134883076065328000);
  (2410855603909864419700000, 855252642423670605960000, 18305957089213074733000);
  (6733891753666465529400000, 2410855603909864697300000, 18305957089213074733000);
  (855252642423670605960000, 6733891753666466639700000, 18305957089213074733000);
  (6733891753666465529400000, 855252642423670605960000, 18305957089213074733000);
  (2410855603909864419700000, 6733891753666466639700000, 18305957089213074733000);
  (855252642423668663070000, 2410855603909866640100000, 18305957089213074733000);
  (2120362112054796910300000, 297767883228066514160000, 10808561569375404847000);
  (7581870004717137234700000, 2120362112054797187900000, 10808561569375404847000);
  (297767883228066687630000, 7581870004717138344900000, 10808561569375404847000);
  (7581870004717137234700000, 297767883228066514160000, 10808561569375404847000);
  (2120362112054797187900000, 7581870004717138344900000, 10808561569375404847000);
  (297767883228064467180000, 2120362112054799963400000, 10808561569375404847000);
  (773420280842538471200000, 502535370358713970320000, 9005281381930891823600);
  (8724044348798747350300000, 773420280842538609980000, 9005281381930891823600);
  (502535370358714317260000, 8724044348798749570800000, 9005281381930891823600);
  (8724044348798747350300000, 502535370358713970320000, 9005281381930891823600);
  (773420280842539997760000, 8724044348798748460500000, 9005281381930891823600);
  (502535370358711888650000, 773420280842542079420000, 9005281381930891823600);
  (2659270236545313026400000, 2163002071023543970700000, 27237796471379395469000);
  (5177727692431142170200000, 2659270236545314136700000, 27237796471379395469000);
  (2163002071023543138000000, 5177727692431144390600000, 27237796471379395469000);
  (5177727692431143280400000, 2163002071023543970700000, 27237796471379395469000);
  (2659270236545313581500000, 5177727692431144390600000, 27237796471379395469000);
  (2163002071023542305400000, 2659270236545315246900000, 27237796471379395469000);
  (2131382724801907657700000, 2131382724801909600600000, 25762802722419063384000);
  (5737234550396183019300000, 2131382724801908490300000, 25762802722419063384000);
  (2131382724801909045500000, 5737234550396184129500000, 25762802722419063384000);
  (102781124040352035700000, 23182076844770948751000, 698926007621861877920);
  (9874036799114876972200000, 102781124040351983660000, 698926007621861877920);
  (23182076844772692148000, 9874036799114876972200000, 698926007621861877920);
  (9874036799114878082400000, 23182076844770948751000, 698926007621861877920);
  (102781124040353666340000, 9874036799114876972200000, 698926007621861877920);
  (23182076844768554832000, 102781124040355834740000, 698926007621861877920);
  (4336266613666109326400000, 1327466772667781069700000, 24965025749709162002000);
  (4336266613666108771200000, 4336266613666110436600000, 24965025749709162002000);
  (1327466772667779959500000, 4336266613666111546800000, 24965025749709162002000);
  (3637486804898150683000000, 64301877897617425173000, 5981005925976505934300);
  (6298211317204231996000000, 3637486804898151238100000, 5981005925976505934300);
  (64301877897616765978000, 6298211317204234216400000, 5981005925976505934300);
  (6298211317204231996000000, 64301877897617425173000, 5981005925976505934300);
  (3637486804898151238100000, 6298211317204231996000000, 5981005925976505934300);
  (64301877897615933311000, 3637486804898154013600000, 5981005925976505934300);
  (3698202051067136508800000, 1331111150654714636600000, 24762829117917907300000);
  (4970686798278148299500000, 3698202051067137619000000, 24762829117917907300000);
  (1331111150654714081500000, 4970686798278151075100000, 24762829117917907300000);
  (4970686798278148299500000, 1331111150654714636600000, 24762829117917907300000);
  (3698202051067136508800000, 4970686798278149409700000, 24762829117917907300000);
  (1331111150654713526400000, 3698202051067138729200000, 24762829117917907300000);
  (1599009144405388327400000, 1599009144405390270300000, 21217492459270808139000);
  (6801981711189222235000000, 1599009144405388604900000, 21217492459270808139000);
  (1599009144405389992700000, 6801981711189224455400000, 21217492459270808139000);
  (280636634926781647350000, 280636634926784665770000, 4438002805123098860400);
  (9438726730146433929700000, 280636634926781473880000, 4438002805123098860400);
  (280636634926785810680000, 9438726730146435040000000, 4438002805123098860400);
  (2622368556255414429000000, 1682524853715629542500000, 25276029369482111778000);
  (5695106590028955473300000, 2622368556255416094400000, 25276029369482111778000);
  (1682524853715629542500000, 5695106590028956583500000, 25276029369482111778000);
  (5695106590028955473300000, 1682524853715629542500000, 25276029369482111778000);
  (2622368556255414984200000, 5695106590028956583500000, 25276029369482111778000);
  (1682524853715627599600000, 2622368556255417204600000, 25276029369482111778000);
  (2058652741989988321800000, 23776437008402018757000, 3027955309496029858900);
  (7917570821001609360200000, 2058652741989988321800000, 3027955309496029858900);
  (23776437008402595552000, 7917570821001611580700000, 3027955309496029858900);
  (7917570821001609360200000, 23776437008402018757000, 3027955309496029858900);
  (2058652741989988044200000, 7917570821001611580700000, 3027955309496029858900);
  (23776437008399958772000, 2058652741989991097300000, 3027955309496029858900);
  (3210612992391710940300000, 1792751769147349072400000, 26788951054618594452000);
  (4996635238460939154600000, 3210612992391712605700000, 26788951054618594452000);
  (1792751769147348794900000, 4996635238460941375000000, 26788951054618594452000);
  (4996635238460939154600000, 1792751769147349072400000, 26788951054618594452000);
  (3210612992391711495400000, 4996635238460940264800000, 26788951054618594452000);
  (1792751769147347962200000, 3210612992391713160800000, 26788951054618594452000);
  (2670089253528111217200000, 284633516120191137900000, 11827676122501339876000);
  (7045277230351697506100000, 2670089253528111217200000, 11827676122501339876000);
  (284633516120190721570000, 7045277230351700836800000, 11827676122501339876000);
  (7045277230351697506100000, 284633516120191137900000, 11827676122501339876000);
  (2670089253528112327500000, 7045277230351697506100000, 11827676122501339876000);
  (284633516120189333790000, 2670089253528114547900000, 11827676122501339876000);
  (2586045410103510189300000, 22264670918958695892000, 3180880278224878653300);
  (7391689918977530915400000, 2586045410103510744400000, 3180880278224878653300);
  (22264670918958895385000, 7391689918977533135800000, 3180880278224878653300);
  (7391689918977530915400000, 22264670918958695892000, 3180880278224878653300);
  (2586045410103511299500000, 7391689918977530915400000, 3180880278224878653300);
  (22264670918957230050000, 2586045410103513519900000, 3180880278224878653300);
  (1996247626773604289000000, 1203643695722495521300000, 20583897158791817673000);
  (6800108677503899912200000, 1996247626773604844100000, 20583897158791817673000);
  (1203643695722494966200000, 6800108677503902132600000, 20583897158791817673000);
  (6800108677503899912200000, 1203643695722495521300000, 20583897158791817673000);
  (1996247626773605121600000, 6800108677503902132600000, 20583897158791817673000);
  (1203643695722493578400000, 1996247626773606787000000, 20583897158791817673000);
  (2088908643844064605400000, 1643344616867156438000000, 23717830850862272642000);
  (6267746739288778679000000, 2088908643844064605400000, 23717830850862272642000);
  (1643344616867156715600000, 6267746739288780899500000, 23717830850862272642000);
  (6267746739288778679000000, 1643344616867156438000000, 23717830850862272642000);
  (2088908643844064605400000, 6267746739288780899500000, 23717830850862272642000);
  (1643344616867155050200000, 2088908643844066548300000, 23717830850862272642000);
  (1080471292423059170900000, 1080471292423061807600000, 15869641744859636079000);
  (7839057415153878327600000, 1080471292423059170900000, 15869641744859636079000);
  (1080471292423061946400000, 7839057415153880548100000, 15869641744859636079000);
  (2533336006018089281400000, 1238874588376767393900000, 23011337125740920911000);
  (6227789405605143047100000, 2533336006018089281400000, 23011337125740920911000);
  (1238874588376767116300000, 6227789405605146377800000, 23011337125740920911000);
  (6227789405605143047100000, 1238874588376767393900000, 23011337125740920911000);
  (2533336006018089281400000, 6227789405605145267600000, 23011337125740920911000);
  (1238874588376765728500000, 2533336006018091501900000, 23011337125740920911000);
  (4971756372384660838100000, 56487255230678809492000, 6475399556947823535800);
  (4971756372384660283000000, 4971756372384661393200000, 6475399556947823535800);
  (56487255230678046214000, 4971756372384663058600000, 6475399556947823535800);
  (4637961227465663416300000, 1600103893843232141400, 1175044612402876951700);
  (5360438668640493675700000, 4637961227465663416300000, 1175044612402876951700);
  (1600103893842352853500, 5360438668640495896200000, 1175044612402876951700);
  (5360438668640493675700000, 1600103893843232141400, 1175044612402876951700);
  (4637961227465663416300000, 5360438668640494785900000, 1175044612402876951700);
  (1600103893842352853500, 4637961227465665636800000, 1175044612402876951700);
  (3837177990505464264500000, 1085092017436626834100, 1199368394655544274200);
  (6161736917477098618400000, 3837177990505464264500000, 1199368394655544274200);
  (1085092017436561917500, 6161736917477100838900000, 1199368394655544274200);
  (6161736917477098618400000, 1085092017436626834100, 1199368394655544274200);
  (3837177990505465374800000, 6161736917477099728700000, 1199368394655544274200);
  (1085092017435451694500, 3837177990505467040100000, 1199368394655544274200)].
