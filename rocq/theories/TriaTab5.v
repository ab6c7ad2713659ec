(** Points and weights of lib/lf/quad/quad_rules_tria.cc, rules 41 to 43: for every
    column (points(0, i), points(1, i), weights(i)) times 10^25.  The decimal literals
    are taken exactly as written; their rounding to double is not modelled. *)
From Coq Require Import List ZArith.
Import ListNotations.
Local Open Scope Z_scope.

(** quad_rules_tria.cc:13177-14111 *)
Definition tab_41 : list (Z * Z * Z) := [
  (18100550930815317158000, 18100550930818285703000, 261046615627579913900);
  (9963798898138365167700000, 18100550930815080802000, 261046615627579913900);
  (18100550930819081508000, 9963798898138368498300000, 261046615627579913900);
  (3146077513838777539600000, 3146077513838779204900000, 32216348354413533797000);
  (3707844972322442700400000, 3146077513838779204900000, 32216348354413533797000);
  (3146077513838778094700000, 3707844972322443810600000, 32216348354413533797000);
  (3718324578394357482500000, 2563350843211284479900000, 28231018862523086892000);
  (3718324578394358592700000, 3718324578394359147800000, 28231018862523086892000);
  (2563350843211282814600000, 3718324578394359147800000, 28231018862523086892000);
  (9338478958692606468600000, 267728022087155327620000, 4733169982264500601600);
  (393793019220239903790000, 9338478958692606468600000, 4733169982264500601600);
  (267728022087152760230000, 393793019220241638510000, 4733169982264500601600);
  (393793019220238516010000, 267728022087155327620000, 4733169982264500601600);
  (9338478958692605358400000, 393793019220238446620000, 4733169982264500601600);
  (267728022087156958260000, 9338478958692606468600000, 4733169982264500601600);
  (708749727266859141930000, 214673861123130318980000, 5389191646935420155000);
  (9076576411610010053400000, 708749727266858864370000, 5389191646935420155000);
  (214673861123131359820000, 9076576411610012273800000, 5389191646935420155000);
  (9076576411610010053400000, 214673861123130318980000, 5389191646935420155000);
  (708749727266858586820000, 9076576411610013384000000, 5389191646935420155000);
  (214673861123127820980000, 708749727266862333820000, 5389191646935420155000);
  (227676589099523561670000, 119851112427548141950000, 2767757031523198903000);
  (9652472298472927203500000, 227676589099523492280000, 2767757031523198903000);
  (119851112427549200130000, 9652472298472929424000000, 2767757031523198903000);
  (9652472298472928313700000, 119851112427548141950000, 2767757031523198903000);
  (227676589099524706580000, 9652472298472929424000000, 2767757031523198903000);
  (119851112427545106190000, 227676589099527343360000, 2767757031523198903000);
  (2127026585190979479600000, 964112026242689990060000, 18723604576399853656000);
  (6908861388566329697600000, 2127026585190979757200000, 18723604576399853656000);
  (964112026242690545170000, 6908861388566331918100000, 18723604576399853656000);
  (6908861388566330807800000, 964112026242689990060000, 18723604576399853656000);
  (2127026585190979202100000, 6908861388566333028300000, 18723604576399853656000);
  (964112026242687908400000, 2127026585190981700100000, 18723604576399853656000);
  (1970799949415201757200000, 1279782228464327875600000, 20368696048111800505000);
  (6749417822120469256900000, 1970799949415202312300000, 20368696048111800505000);
  (1279782228464327875600000, 6749417822120471477400000, 20368696048111800505000);
  (6749417822120470367200000, 1279782228464327875600000, 20368696048111800505000);
  (1970799949415202867400000, 6749417822120471477400000, 20368696048111800505000);
  (1279782228464326210300000, 1970799949415204255200000, 20368696048111800505000);
  (4818489601758343954300000, 363020796483312577220000, 14875534123711879435000);
  (4818489601758343399100000, 4818489601758344509400000, 14875534123711879435000);
  (363020796483312091500000, 4818489601758345619600000, 14875534123711879435000);
  (639130414360007115260000, 423991066111561523690000, 8943772853323141104300);
  (8936878519528430597800000, 639130414360006560150000, 8943772853323141104300);
  (423991066111562564520000, 8936878519528433928400000, 8943772853323141104300);
  (8936878519528431708000000, 423991066111561523690000, 8943772853323141104300);
  (639130414360006837700000, 8936878519528433928400000, 8943772853323141104300);
  (423991066111559511410000, 639130414360010168370000, 8943772853323141104300);
  (916254632757576847890000, 116869974011746882710000, 5157123690717351806300);
  (8966875393230676616300000, 916254632757576847890000, 5157123690717351806300);
  (116869974011748478660000, 8966875393230676616300000, 5157123690717351806300);
  (8966875393230676616300000, 116869974011746882710000, 5157123690717351806300);
  (916254632757577680560000, 8966875393230676616300000, 5157123690717351806300);
  (116869974011744801050000, 916254632757580039780000, 5157123690717351806300);
  (889175403557379839810000, 632415329385831864740000, 12661036341635330781000);
  (8478409267056787879100000, 889175403557379978590000, 12661036341635330781000);
  (632415329385832558630000, 8478409267056790099600000, 12661036341635330781000);
  (8478409267056787879100000, 632415329385831864740000, 12661036341635330781000);
  (889175403557380672480000, 8478409267056790099600000, 12661036341635330781000);
  (632415329385828950400000, 889175403557383309260000, 12661036341635330781000);
  (4592305589036990154400000, 148409448407795345470000, 11262392789623187558000);
  (5259284962555215159300000, 4592305589036990709500000, 11262392789623187558000);
  (148409448407794686280000, 5259284962555217379800000, 11262392789623187558000);
  (5259284962555214049100000, 148409448407795345470000, 11262392789623187558000);
  (4592305589036990154400000, 5259284962555215159300000, 11262392789623187558000);
  (148409448407794686280000, 4592305589036992374800000, 11262392789623187558000);
  (338843822348438572510000, 18400396156130721485000, 1409187542329703177500);
  (9642755781495430111900000, 338843822348438850070000, 1409187542329703177500);
  (18400396156132980963000, 9642755781495430111900000, 1409187542329703177500);
  (9642755781495431222100000, 18400396156130721485000, 1409187542329703177500);
  (338843822348439127620000, 9642755781495433442500000, 1409187542329703177500);
  (18400396156127638014000, 338843822348442041960000, 1409187542329703177500);
  (3200752104066153513900000, 2580571137398716685700000, 30546865348241108128000);
  (4218676758535129245300000, 3200752104066155179200000, 30546865348241108128000);
  (2580571137398716130600000, 4218676758535130910700000, 30546865348241108128000);
  (4218676758535129245300000, 2580571137398716685700000, 30546865348241108128000);
  (3200752104066154069000000, 4218676758535130355600000, 30546865348241108128000);
  (2580571137398715020300000, 3200752104066155734300000, 30546865348241108128000);
  (1422819983084207262600000, 1422819983084209760600000, 21224778885555982411000);
  (7154360033831582699200000, 1422819983084207817700000, 21224778885555982411000);
  (1422819983084209760600000, 7154360033831584919600000, 21224778885555982411000);
  (4220684925318889391100000, 362192254340186342580000, 16544856076511783166000);
  (5417122820340924960200000, 4220684925318889946200000, 16544856076511783166000);
  (362192254340186203800000, 5417122820340926070400000, 16544856076511783166000);
  (5417122820340924960200000, 362192254340186342580000, 16544856076511783166000);
  (4220684925318889391100000, 5417122820340924960200000, 16544856076511783166000);
  (362192254340185648690000, 4220684925318891611600000, 16544856076511783166000);
  (478764410729283981790000, 105439660443664238320000, 3751701870502994313200);
  (9415795928827050964600000, 478764410729283496070000, 3751701870502994313200);
  (105439660443665816910000, 9415795928827053185000000, 3751701870502994313200);
  (9415795928827050964600000, 105439660443664238320000, 3751701870502994313200);
  (478764410729285438960000, 9415795928827053185000000, 3751701870502994313200);
  (105439660443661688270000, 478764410729287034910000, 3751701870502994313200);
  (1746336148663415743800000, 1746336148663418241800000, 25181258544881945753000);
  (6507327702673165736900000, 1746336148663416576500000, 25181258544881945753000);
  (1746336148663419352000000, 6507327702673165736900000, 25181258544881945753000);
  (4251980784151399017600000, 1496038431697201409600000, 30050502385811218679000);
  (4251980784151399017600000, 4251980784151400683000000, 30050502385811218679000);
  (1496038431697200021800000, 4251980784151401793200000, 30050502385811218679000);
  (3617990227060762231700000, 1510268874995655541400000, 31118296166047893468000);
  (4871740897943581671800000, 3617990227060763341900000, 31118296166047893468000);
  (1510268874995654986300000, 4871740897943583892300000, 31118296166047893468000);
  (4871740897943582782000000, 1510268874995655541400000, 31118296166047893468000);
  (3617990227060762786800000, 4871740897943582782000000, 31118296166047893468000);
  (1510268874995654708700000, 3617990227060763897000000, 31118296166047893468000);
  (2099773723379177448000000, 2099773723379179113400000, 30386144984886837364000);
  (5800452553241642883500000, 2099773723379178280700000, 30386144984886837364000);
  (2099773723379179113400000, 5800452553241643993700000, 30386144984886837364000);
  (684569430922209731790000, 24820609017323636003000, 2452104355071648821700);
  (9290609960060465244400000, 684569430922209454240000, 2452104355071648821700);
  (24820609017324746226000, 9290609960060468575100000, 2452104355071648821700);
  (9290609960060466354600000, 24820609017323636003000, 2452104355071648821700);
  (684569430922210009350000, 9290609960060468575100000, 2452104355071648821700);
  (24820609017321484946000, 684569430922212646130000, 2452104355071648821700);
  (2362884725964560228600000, 1549577670219628722200000, 29453221328521188467000);
  (6087537603815811326800000, 2362884725964560783700000, 29453221328521188467000);
  (1549577670219628444700000, 6087537603815813547200000, 29453221328521188467000);
  (6087537603815811326800000, 1549577670219628722200000, 29453221328521188467000);
  (2362884725964560228600000, 6087537603815813547200000, 29453221328521188467000);
  (1549577670219626501800000, 2362884725964561893900000, 29453221328521188467000);
  (2978954189850495648500000, 1519615536650988640900000, 31190600595570041817000);
  (5501430273498515433100000, 2978954189850496758800000, 31190600595570041817000);
  (1519615536650987808200000, 5501430273498517653500000, 31190600595570041817000);
  (5501430273498515433100000, 1519615536650988640900000, 31190600595570041817000);
  (2978954189850496203600000, 5501430273498516543300000, 31190600595570041817000);
  (1519615536650986975500000, 2978954189850498424100000, 31190600595570041817000);
  (1125572515239217780100000, 23775457303721542549000, 2944590940640668731200);
  (8850652027457061032900000, 1125572515239217641400000, 2944590940640668731200);
  (23775457303722991043000, 8850652027457062143200000, 2944590940640668731200);
  (8850652027457061032900000, 23775457303721542549000, 2944590940640668731200);
  (1125572515239218196500000, 8850652027457062143200000, 2944590940640668731200);
  (23775457303719313429000, 1125572515239221110800000, 2944590940640668731200);
  (120658629713076021720000, 30492380858381752315000, 1195257809023845635400);
  (9848848989428542477500000, 120658629713075119670000, 1195257809023845635400);
  (30492380858384016129000, 9848848989428543587700000, 1195257809023845635400);
  (9848848989428541367300000, 30492380858381752315000, 1195257809023845635400);
  (120658629713076837040000, 9848848989428543587700000, 1195257809023845635400);
  (30492380858379020125000, 120658629713079612600000, 1195257809023845635400);
  (3906530970863169027800000, 150754657505242934540000, 11690668799345606179000);
  (5942714371631588887700000, 3906530970863169582900000, 11690668799345606179000);
  (150754657505242639640000, 5942714371631589997900000, 11690668799345606179000);
  (5942714371631587777500000, 150754657505242934540000, 11690668799345606179000);
  (3906530970863170138000000, 5942714371631587777500000, 11690668799345606179000);
  (150754657505241529410000, 3906530970863172358400000, 11690668799345606179000);
  (4274107273739701784400000, 28845541075684859138000, 5227164853878038444000);
  (5697047185184612727600000, 4274107273739702339600000, 5227164853878038444000);
  (28845541075684377752000, 5697047185184614948000000, 5227164853878038444000);
  (5697047185184613837800000, 28845541075684859138000, 5227164853878038444000);
  (4274107273739702339600000, 5697047185184613837800000, 5227164853878038444000);
  (28845541075683822640000, 4274107273739704560000000, 5227164853878038444000);
  (2627399736253427375800000, 2627399736253429041200000, 33835701042112384038000);
  (4745200527493144138100000, 2627399736253427931000000, 33835701042112384038000);
  (2627399736253428486100000, 4745200527493145803400000, 33835701042112384038000);
  (4118455220977197406300000, 1047651377258456695300000, 29950945601547804276000);
  (4833893401764346453600000, 4118455220977197961400000, 29950945601547804276000);
  (1047651377258456140100000, 4833893401764347563800000, 29950945601547804276000);
  (4833893401764346453600000, 1047651377258456695300000, 29950945601547804276000);
  (4118455220977197406300000, 4833893401764347008700000, 29950945601547804276000);
  (1047651377258455585000000, 4118455220977199626700000, 29950945601547804276000);
  (4986036392311143372600000, 27927215377713796897000, 5118199851502170999100);
  (4986036392311142817500000, 4986036392311143927700000, 5118199851502170999100);
  (27927215377712977240000, 4986036392311145593000000, 5118199851502170999100);
  (3222211945168436675300000, 148317675755721811030000, 11441247936306267637000);
  (6629470379075842467700000, 3222211945168436675300000, 11441247936306267637000);
  (148317675755722522270000, 6629470379075843578000000, 11441247936306267637000);
  (6629470379075841357500000, 148317675755721811030000, 11441247936306267637000);
  (3222211945168438340700000, 6629470379075841357500000, 11441247936306267637000);
  (148317675755720301820000, 3222211945168439450900000, 11441247936306267637000);
  (3545249016308812950400000, 367451935646271599100000, 18052435282779227040000);
  (6087299048044915172900000, 3545249016308812950400000, 18052435282779227040000);
  (367451935646271321540000, 6087299048044917393300000, 18052435282779227040000);
  (6087299048044915172900000, 367451935646271599100000, 18052435282779227040000);
  (3545249016308813505600000, 6087299048044916283100000, 18052435282779227040000);
  (367451935646270211320000, 3545249016308815726000000, 18052435282779227040000);
  (3320276172987797203000000, 2028329770562542766500000, 35293289042750844789000);
  (4651394056449660308100000, 3320276172987797758100000, 35293289042750844789000);
  (2028329770562541933800000, 4651394056449662528500000, 35293289042750844789000);
  (4651394056449660308100000, 2028329770562542766500000, 35293289042750844789000);
  (3320276172987797203000000, 4651394056449660863200000, 35293289042750844789000);
  (2028329770562541656300000, 3320276172987798868300000, 35293289042750844789000);
  (2530297390847722760500000, 655893176896967106120000, 21892762868513794376000);
  (6813809432255311104900000, 2530297390847722760500000, 21892762868513794376000);
  (655893176896967244890000, 6813809432255312215100000, 21892762868513794376000);
  (6813809432255309994600000, 655893176896967106120000, 21892762868513794376000);
  (2530297390847723315600000, 6813809432255311104900000, 21892762868513794376000);
  (655893176896965024450000, 2530297390847725536000000, 21892762868513794376000);
  (3570399048945097075800000, 28334078818125383800000, 5085691794751544129000);
  (6401266872236777150100000, 3570399048945097630900000, 5085691794751544129000);
  (28334078818125774113000, 6401266872236778260300000, 5085691794751544129000);
  (6401266872236777150100000, 28334078818125383800000, 5085691794751544129000);
  (3570399048945097075800000, 6401266872236778260300000, 5085691794751544129000);
  (28334078818124108778000, 3570399048945099851300000, 5085691794751544129000);
  (2870606892116553954300000, 360525157666744186510000, 17277422623602309727000);
  (6768867950216702622500000, 2870606892116553954300000, 17277422623602309727000);
  (360525157666744533460000, 6768867950216703732700000, 17277422623602309727000);
  (6768867950216701512300000, 360525157666744186510000, 17277422623602309727000);
  (2870606892116553954300000, 6768867950216703732700000, 17277422623602309727000);
  (360525157666742035460000, 2870606892116556729800000, 17277422623602309727000);
  (1361313516311360716200000, 141561971271275018060000, 8313096207885970877900);
  (8497124512417364439200000, 1361313516311360716200000, 8313096207885970877900);
  (141561971271275677250000, 8497124512417366659600000, 8313096207885970877900);
  (8497124512417363329000000, 141561971271275018060000, 8313096207885970877900);
  (1361313516311360993800000, 8497124512417366659600000, 8313096207885970877900);
  (141561971271272485360000, 1361313516311364046900000, 8313096207885970877900);
  (1322241256617750215800000, 637728096721327936120000, 16755853266343500446000);
  (8040030646660920599100000, 1322241256617750215800000, 16755853266343500446000);
  (637728096721328907570000, 8040030646660922819500000, 16755853266343500446000);
  (8040030646660921709300000, 637728096721327936120000, 16755853266343500446000);
  (1322241256617751048500000, 8040030646660922819500000, 16755853266343500446000);
  (637728096721325715680000, 1322241256617752991300000, 16755853266343500446000);
  (1079242198395523322200000, 335534395458731288240000, 11932823252664458754000);
  (8585223406145745528300000, 1079242198395523599800000, 11932823252664458754000);
  (335534395458731427020000, 8585223406145747748800000, 11932823252664458754000);
  (8585223406145744418100000, 335534395458731288240000, 11932823252664458754000);
  (1079242198395523599800000, 8585223406145747748800000, 11932823252664458754000);
  (335534395458728720850000, 1079242198395526791700000, 11932823252664458754000);
  (1528869021413865880700000, 995790446035427906370000, 20876894965844222316000);
  (7475340532550706074100000, 1528869021413865880700000, 20876894965844222316000);
  (995790446035428322700000, 7475340532550708294600000, 20876894965844222316000);
  (7475340532550706074100000, 995790446035427906370000, 20876894965844222316000);
  (1528869021413866158300000, 7475340532550708294600000, 20876894965844222316000);
  (995790446035425824700000, 1528869021413868378700000, 20876894965844222316000);
  (1881017719296066426100000, 646491520250393747470000, 19355607442713195030000);
  (7472490760453539548900000, 1881017719296066703600000, 19355607442713195030000);
  (646491520250393469920000, 7472490760453541769300000, 19355607442713195030000);
  (7472490760453539548900000, 646491520250393747470000, 19355607442713195030000);
  (1881017719296066981200000, 7472490760453541769300000, 19355607442713195030000);
  (646491520250392082140000, 1881017719296069201600000, 19355607442713195030000);
  (2549824291508879237100000, 148987268708079909770000, 10961695980219480703000);
  (7301188439783040662300000, 2549824291508879237100000, 10961695980219480703000);
  (148987268708080100590000, 7301188439783042882800000, 10961695980219480703000);
  (7301188439783040662300000, 148987268708079909770000, 10961695980219480703000);
  (2549824291508879237100000, 7301188439783042882800000, 10961695980219480703000);
  (148987268708078435250000, 2549824291508882012600000, 10961695980219480703000);
  (2230780804812776962900000, 28544472780138571352000, 4563661682607606179600);
  (7740674722407083763200000, 2230780804812777240500000, 4563661682607606179600);
  (28544472780139273915000, 7740674722407085983600000, 4563661682607606179600);
  (7740674722407083763200000, 28544472780138571352000, 4563661682607606179600);
  (2230780804812777518000000, 7740674722407085983600000, 4563661682607606179600);
  (28544472780137053469000, 2230780804812779738500000, 4563661682607606179600);
  (3995665255269702509400000, 2008669489460594703700000, 36150548664758510621000);
  (3995665255269703064500000, 3995665255269703619600000, 36150548664758510621000);
  (2008669489460593871000000, 3995665255269704729800000, 36150548664758510621000);
  (1640507360210325393800000, 28307718211817703077000, 4014173263076755912600);
  (8331184921577856616900000, 1640507360210325671400000, 4014173263076755912600);
  (28307718211818544418000, 8331184921577857727100000, 4014173263076755912600);
  (8331184921577857727100000, 28307718211817703077000, 4014173263076755912600);
  (1640507360210326504000000, 8331184921577857727100000, 4014173263076755912600);
  (28307718211816185194000, 1640507360210328446900000, 4014173263076755912600);
  (2881511174189885782200000, 28359467965889629745000, 4896798007893122736700);
  (7090129357844224822200000, 2881511174189885782200000, 4896798007893122736700);
  (28359467965889950669000, 7090129357844227042700000, 4896798007893122736700);
  (7090129357844224822200000, 28359467965889629745000, 4896798007893122736700);
  (2881511174189885227100000, 7090129357844227042700000, 4896798007893122736700);
  (28359467965888285335000, 2881511174189888002700000, 4896798007893122736700);
  (3409577888740615292400000, 1056326862781779008000000, 29775433804440395828000);
  (5534095248477606254800000, 3409577888740616402600000, 29775433804440395828000);
  (1056326862781778452800000, 5534095248477607365000000, 29775433804440395828000);
  (5534095248477606254800000, 1056326862781779008000000, 29775433804440395828000);
  (3409577888740615847500000, 5534095248477606254800000, 29775433804440395828000);
  (1056326862781777897700000, 3409577888740618067900000, 29775433804440395828000);
  (2682934480692839018800000, 2054088957827467365500000, 33762576693587712309000);
  (5262976561479694170800000, 2682934480692839573900000, 33762576693587712309000);
  (2054088957827466810400000, 5262976561479695281100000, 33762576693587712309000);
  (5262976561479694170800000, 2054088957827467365500000, 33762576693587712309000);
  (2682934480692839018800000, 5262976561479695281100000, 33762576693587712309000);
  (2054088957827465700100000, 2682934480692841239200000, 33762576693587712309000);
  (3194090035283246864500000, 674786310679263284800000, 24663373041229471813000);
  (6131123654037490267000000, 3194090035283247419600000, 24663373041229471813000);
  (674786310679262868460000, 6131123654037492487500000, 24663373041229471813000);
  (6131123654037490267000000, 674786310679263284800000, 24663373041229471813000);
  (3194090035283246864500000, 6131123654037491377300000, 24663373041229471813000);
  (674786310679262313350000, 3194090035283249084900000, 24663373041229471813000);
  (1922954651859522801100000, 149331073629515708600000, 9997585618220067825400);
  (7927714274510960779100000, 1922954651859523078600000, 9997585618220067825400);
  (149331073629515587160000, 7927714274510964109800000, 9997585618220067825400);
  (7927714274510961889300000, 149331073629515708600000, 9997585618220067825400);
  (1922954651859523633700000, 7927714274510962999500000, 9997585618220067825400);
  (149331073629514338160000, 1922954651859525576600000, 9997585618220067825400);
  (1604140534029236120400000, 353852934054426707110000, 14290849464137569957000);
  (8042006531916336964400000, 1604140534029235842800000, 14290849464137569957000);
  (353852934054427747950000, 8042006531916338074600000, 14290849464137569957000);
  (8042006531916338074600000, 353852934054426707110000, 14290849464137569957000);
  (1604140534029237508100000, 8042006531916338074600000, 14290849464137569957000);
  (353852934054424556050000, 1604140534029238895900000, 14290849464137569957000);
  (2212534989804217366900000, 362519958338577280580000, 16286914747247111836000);
  (7424945051857204658700000, 2212534989804217644400000, 16286914747247111836000);
  (362519958338578529580000, 7424945051857205768900000, 16286914747247111836000);
  (7424945051857205768900000, 362519958338577280580000, 16286914747247111836000);
  (2212534989804217922000000, 7424945051857205768900000, 16286914747247111836000);
  (362519958338575476460000, 2212534989804220697500000, 16286914747247111836000);
  (2711942240688135497000000, 1065996969730373805700000, 29361408291862646329000);
  (6222060789581491668800000, 2711942240688135497000000, 29361408291862646329000);
  (1065996969730372834200000, 6222060789581493889200000, 29361408291862646329000);
  (6222060789581490558600000, 1065996969730373805700000, 29361408291862646329000);
  (2711942240688136607200000, 6222060789581491668800000, 29361408291862646329000);
  (1065996969730371724000000, 2711942240688137717400000, 29361408291862646329000);
  (3923234112997703859600000, 665697076536746201740000, 25475392237502632493000);
  (5411068810465550216200000, 3923234112997704414700000, 25475392237502632493000);
  (665697076536745369070000, 5411068810465552436600000, 25475392237502632493000);
  (5411068810465550216200000, 665697076536746201740000, 25475392237502632493000);
  (3923234112997703304500000, 5411068810465551326400000, 25475392237502632493000);
  (665697076536745091510000, 3923234112997706080100000, 25475392237502632493000);
  (4667610577855149656100000, 664778844289701104090000, 25669351626192247334000);
  (4667610577855150211200000, 4667610577855150211200000, 25669351626192247334000);
  (664778844289700410200000, 4667610577855151876600000, 25669351626192247334000);
  (1030954855760304878000000, 1030954855760307653500000, 19847845196798072874000);
  (7938090288479388023600000, 1030954855760304739200000, 19847845196798072874000);
  (1030954855760308763700000, 7938090288479389133900000, 19847845196798072874000)].

(** quad_rules_tria.cc:14114-15093 *)
Definition tab_42 : list (Z * Z * Z) := [
  (4023719251097932492200000, 1952561497804135015600000, 17732200079885835839000);
  (4023719251097932492200000, 4023719251097934157500000, 17732200079885835839000);
  (1952561497804133905400000, 4023719251097934712600000, 17732200079885835839000);
  (13653925759540403145000, 13653925759543350006000, 173597677182810482880);
  (9972692148480916118900000, 13653925759540145105000, 173597677182810482880);
  (13653925759544160989000, 9972692148480918339400000, 173597677182810482880);
  (3305538536843531383100000, 15704256014629062489000, 2663658471702661911100);
  (6678757207141838847500000, 3305538536843532493300000, 2663658471702661911100);
  (15704256014628659166000, 6678757207141842178200000, 2663658471702661911100);
  (6678757207141839957700000, 15704256014629062489000, 2663658471702661911100);
  (3305538536843532493300000, 6678757207141839957700000, 2663658471702661911100);
  (15704256014627548943000, 3305538536843535268900000, 2663658471702661911100);
  (4975317296252053656000000, 49365407495893165110000, 5070848214163679607700);
  (4975317296252053656000000, 4975317296252054211100000, 5070848214163679607700);
  (49365407495892410505000, 4975317296252055876400000, 5070848214163679607700);
  (9699539651466831946500000, 96146691207100905274000, 2195385135849119823600);
  (204313657326066766550000, 9699539651466834167000000, 2195385135849119823600);
  (96146691207098945037000, 204313657326069784970000, 2195385135849119823600);
  (204313657326066697160000, 96146691207100905274000, 2195385135849119823600);
  (9699539651466831946500000, 204313657326065933880000, 2195385135849119823600);
  (96146691207102397136000, 9699539651466834167000000, 2195385135849119823600);
  (571983061939756801120000, 219035586156293565760000, 5185125232677132833100);
  (9208981351903949841300000, 571983061939756662340000, 5185125232677132833100);
  (219035586156294259650000, 9208981351903952061700000, 5185125232677132833100);
  (9208981351903949841300000, 219035586156293565760000, 5185125232677132833100);
  (571983061939757564400000, 9208981351903952061700000, 5185125232677132833100);
  (219035586156291171840000, 571983061939759854230000, 5185125232677132833100);
  (4799002957544191150200000, 401994084911617491350000, 14220929785061196815000);
  (4799002957544191705400000, 4799002957544191705400000, 14220929785061196815000);
  (401994084911616866850000, 4799002957544193370700000, 14220929785061196815000);
  (664663290557835906290000, 664663290557838820630000, 9354907690114397898800);
  (8670673418884324856700000, 664663290557836045070000, 9354907690114397898800);
  (664663290557838681850000, 8670673418884327077200000, 9354907690114397898800);
  (4532709716379456077500000, 14935512902909868580000, 2797759751140219282800);
  (5452354770717634524500000, 4532709716379456632600000, 2797759751140219282800);
  (14935512902908842925000, 5452354770717636744900000, 2797759751140219282800);
  (5452354770717634524500000, 14935512902909868580000, 2797759751140219282800);
  (4532709716379456077500000, 5452354770717635634700000, 2797759751140219282800);
  (14935512902908842925000, 4532709716379458297900000, 2797759751140219282800);
  (1407324739067203345200000, 554414996743645416280000, 12689602532323859818000);
  (8038260264189150960900000, 1407324739067203345200000, 12689602532323859818000);
  (554414996743645693830000, 8038260264189153181400000, 12689602532323859818000);
  (8038260264189150960900000, 554414996743645416280000, 12689602532323859818000);
  (1407324739067203345200000, 8038260264189153181400000, 12689602532323859818000);
  (554414996743643334610000, 1407324739067206398300000, 12689602532323859818000);
  (1837886303019410361200000, 1186935694213950010000000, 20290788990569787360000);
  (6975178002766639906400000, 1837886303019410361200000, 20290788990569787360000);
  (1186935694213950842600000, 6975178002766641016700000, 20290788990569787360000);
  (6975178002766638796200000, 1186935694213950010000000, 20290788990569787360000);
  (1837886303019410916300000, 6975178002766641016700000, 20290788990569787360000);
  (1186935694213947928300000, 1837886303019412859200000, 20290788990569787360000);
  (432363893877459951050000, 432363893877463073560000, 6663125002039902745900);
  (9135272212245075795800000, 432363893877459881670000, 6663125002039902745900);
  (432363893877464322560000, 9135272212245078016200000, 6663125002039902745900);
  (321121524868778346340000, 13930572171861558411000, 1133212876037456503000);
  (9664947902959358794200000, 321121524868778346340000, 1133212876037456503000);
  (13930572171864108455000, 9664947902959359904400000, 1133212876037456503000);
  (9664947902959361014700000, 13930572171861558411000, 1133212876037456503000);
  (321121524868780428010000, 9664947902959359904400000, 1133212876037456503000);
  (13930572171858800201000, 321121524868782162730000, 1133212876037456503000);
  (4903050142016466828000000, 193899715967066621490000, 10963408407929421153000);
  (4903050142016467383100000, 4903050142016466828000000, 10963408407929421153000);
  (193899715967066066380000, 4903050142016469048500000, 10963408407929421153000);
  (429640722006761482940000, 102994751818414106290000, 3409266715707482526200);
  (9467364526174824046500000, 429640722006760719660000, 3409266715707482526200);
  (102994751818415997140000, 9467364526174826266900000, 3409266715707482526200);
  (9467364526174824046500000, 102994751818414106290000, 3409266715707482526200);
  (429640722006762176830000, 9467364526174826266900000, 3409266715707482526200);
  (102994751818411139910000, 429640722006765229950000, 3409266715707482526200);
  (105248427300748837590000, 25847099922881836172000, 935465343078011708160);
  (9868904472776369729600000, 105248427300748681470000, 935465343078011708160);
  (25847099922882699197000, 9868904472776370839800000, 935465343078011708160);
  (9868904472776369729600000, 25847099922881836172000, 935465343078011708160);
  (105248427300749791690000, 9868904472776370839800000, 935465343078011708160);
  (25847099922878605249000, 105248427300751873360000, 935465343078011708160);
  (753790285629702960790000, 394743127161576515260000, 8433148349118659448800);
  (8851466587208720593300000, 753790285629702822010000, 8433148349118659448800);
  (394743127161577000980000, 8851466587208721703600000, 8433148349118659448800);
  (8851466587208720593300000, 394743127161576515260000, 8433148349118659448800);
  (753790285629703515900000, 8851466587208721703600000, 8433148349118659448800);
  (394743127161574225430000, 753790285629706291460000, 8433148349118659448800);
  (4363333620899559894800000, 122938385245525295260000, 9512748982289498779800);
  (5513727993854914410900000, 4363333620899560449900000, 9512748982289498779800);
  (122938385245525139130000, 5513727993854916631400000, 9512748982289498779800);
  (5513727993854914410900000, 122938385245525295260000, 9512748982289498779800);
  (4363333620899559894800000, 5513727993854915521200000, 9512748982289498779800);
  (122938385245524028910000, 4363333620899563225500000, 9512748982289498779800);
  (2704907465149769541000000, 25898092478456873240000, 3866835126498902822800);
  (7269194442371773590100000, 2704907465149769541000000, 3866835126498902822800);
  (25898092478456868903000, 7269194442371775810600000, 3866835126498902822800);
  (7269194442371772479900000, 25898092478456873240000, 3866835126498902822800);
  (2704907465149769541000000, 7269194442371775810600000, 3866835126498902822800);
  (25898092478454648457000, 2704907465149772871600000, 3866835126498902822800);
  (3508136433810973842100000, 375563888722968697300000, 15861939454501197341000);
  (6116299677466058293300000, 3508136433810973842100000, 15861939454501197341000);
  (375563888722967864630000, 6116299677466060513700000, 15861939454501197341000);
  (6116299677466057183000000, 375563888722968697300000, 15861939454501197341000);
  (3508136433810973842100000, 6116299677466058293300000, 15861939454501197341000);
  (375563888722967587070000, 3508136433810976062600000, 15861939454501197341000);
  (3727655119742921408000000, 170945467207073396880000, 10842623549308710515000);
  (6101399413050005993100000, 3727655119742921408000000, 10842623549308710515000);
  (170945467207073154010000, 6101399413050007103400000, 10842623549308710515000);
  (6101399413050005993100000, 170945467207073396880000, 10842623549308710515000);
  (3727655119742921408000000, 6101399413050007103400000, 10842623549308710515000);
  (170945467207071766240000, 3727655119742923628400000, 10842623549308710515000);
  (2171073522633415464600000, 857583162943158783250000, 20370587368203569092000);
  (6971343314423426029700000, 2171073522633415742200000, 20370587368203569092000);
  (857583162943158505700000, 6971343314423428250100000, 20370587368203569092000);
  (6971343314423426029700000, 857583162943158783250000, 20370587368203569092000);
  (2171073522633415464600000, 6971343314423428250100000, 20370587368203569092000);
  (857583162943157117920000, 2171073522633418240200000, 20370587368203569092000);
  (1927563650090058367000000, 579856449641143953390000, 16860445071980752468000);
  (7492579900268797610300000, 1927563650090058644500000, 16860445071980752468000);
  (579856449641144577890000, 7492579900268798720500000, 16860445071980752468000);
  (7492579900268797610300000, 579856449641143953390000, 16860445071980752468000);
  (1927563650090059477200000, 7492579900268798720500000, 16860445071980752468000);
  (579856449641141941110000, 1927563650090061420100000, 16860445071980752468000);
  (4206850306864162725200000, 338481728829903155690000, 16687327076746506782000);
  (5454667964305934813000000, 4206850306864163280300000, 16687327076746506782000);
  (338481728829903016910000, 5454667964305935923300000, 16687327076746506782000);
  (5454667964305934813000000, 338481728829903155690000, 16687327076746506782000);
  (4206850306864162170100000, 5454667964305935923300000, 16687327076746506782000);
  (338481728829902461800000, 4206850306864164945600000, 16687327076746506782000);
  (269988226283729981780000, 269988226283732757340000, 4762029778273406421300);
  (9460023547432536705800000, 269988226283729565450000, 4762029778273406421300);
  (269988226283734422670000, 9460023547432537816000000, 4762029778273406421300);
  (2124851854370910508900000, 25266913852086481454000, 3721502303561135443000);
  (7849881231777002810200000, 2124851854370910786400000, 3721502303561135443000);
  (25266913852086680947000, 7849881231777005030600000, 3721502303561135443000);
  (7849881231777002810200000, 25266913852086481454000, 3721502303561135443000);
  (2124851854370910508900000, 7849881231777005030600000, 3721502303561135443000);
  (25266913852084876835000, 2124851854370913006900000, 3721502303561135443000);
  (3192572087291873361700000, 106565421155276375540000, 8745028287546429118100);
  (6700862491552849187200000, 3192572087291873916800000, 8745028287546429118100);
  (106565421155276340850000, 6700862491552852517900000, 8745028287546429118100);
  (6700862491552850297400000, 106565421155276375540000, 8745028287546429118100);
  (3192572087291874471900000, 6700862491552851407700000, 8745028287546429118100);
  (106565421155274953070000, 3192572087291876692400000, 8745028287546429118100);
  (1385048069103227697000000, 1385048069103230195000000, 21799250209462335548000);
  (7229903861793541830500000, 1385048069103227974500000, 21799250209462335548000);
  (1385048069103231305200000, 7229903861793541830500000, 21799250209462335548000);
  (4670132073557639595900000, 659735852884720808120000, 22662661275163753505000);
  (4670132073557640151100000, 4670132073557640706200000, 22662661275163753505000);
  (659735852884719975450000, 4670132073557641816400000, 22662661275163753505000);
  (2516382355125725833700000, 134296732422585305550000, 9515841977190134725800);
  (7349320912451688947400000, 2516382355125726388900000, 9515841977190134725800);
  (134296732422585773930000, 7349320912451690057700000, 9515841977190134725800);
  (7349320912451688947400000, 134296732422585305550000, 9515841977190134725800);
  (2516382355125726944000000, 7349320912451688947400000, 9515841977190134725800);
  (134296732422582998370000, 2516382355125729164400000, 9515841977190134725800);
  (1522119814568093643100000, 883417782932650746950000, 19790722453782963637000);
  (7594462402499255748700000, 1522119814568093920700000, 19790722453782963637000);
  (883417782932651163290000, 7594462402499256858900000, 19790722453782963637000);
  (7594462402499255748700000, 883417782932650746950000, 19790722453782963637000);
  (1522119814568093643100000, 7594462402499257969200000, 19790722453782963637000);
  (883417782932648248950000, 1522119814568096141100000, 19790722453782963637000);
  (1111420947940332804000000, 329221182111608043350000, 10816650059587544237000);
  (8559357869948058805700000, 1111420947940333081600000, 10816650059587544237000);
  (329221182111609222960000, 8559357869948059915900000, 10816650059587544237000);
  (8559357869948059915900000, 329221182111608043350000, 10816650059587544237000);
  (1111420947940334191800000, 8559357869948059915900000, 10816650059587544237000);
  (329221182111605684130000, 1111420947940336273500000, 10816650059587544237000);
  (3581500588512502858400000, 1948007607773277194400000, 31333706982709106162000);
  (4470491803714220502300000, 3581500588512503413500000, 31333706982709106162000);
  (1948007607773275806600000, 4470491803714222167600000, 31333706982709106162000);
  (4470491803714220502300000, 1948007607773277194400000, 31333706982709106162000);
  (3581500588512502858400000, 4470491803714221057400000, 31333706982709106162000);
  (1948007607773275806600000, 3581500588512504523700000, 31333706982709106162000);
  (1637998569561500694600000, 314610159618917972770000, 12157354723764043913000);
  (8047391270819581610100000, 1637998569561500694600000, 12157354723764043913000);
  (314610159618918805440000, 8047391270819582720400000, 12157354723764043913000);
  (8047391270819581610100000, 314610159618917972770000, 12157354723764043913000);
  (1637998569561501249800000, 8047391270819582720400000, 12157354723764043913000);
  (314610159618915613540000, 1637998569561503747800000, 12157354723764043913000);
  (1021127733366743173300000, 673683101645258797240000, 14132890488012272469000);
  (8305189164987998307100000, 1021127733366743173300000, 14132890488012272469000);
  (673683101645259907460000, 8305189164987999417300000, 14132890488012272469000);
  (8305189164987997196800000, 673683101645258797240000, 14132890488012272469000);
  (1021127733366744005900000, 8305189164987999417300000, 14132890488012272469000);
  (673683101645256299240000, 1021127733366746365200000, 14132890488012272469000);
  (2335557030193515792900000, 1865652441999727795300000, 32376781127416410198000);
  (5798790527806756411900000, 2335557030193516625500000, 32376781127416410198000);
  (1865652441999727240200000, 5798790527806758632300000, 32376781127416410198000);
  (5798790527806756411900000, 1865652441999727795300000, 32376781127416410198000);
  (2335557030193515792900000, 5798790527806758632300000, 32376781127416410198000);
  (1865652441999725574800000, 2335557030193517735700000, 32376781127416410198000);
  (3214164628317113248100000, 638834834123953448910000, 21242412256270932006000);
  (6147000537558933164200000, 3214164628317113803200000, 21242412256270932006000);
  (638834834123953587690000, 6147000537558934274400000, 21242412256270932006000);
  (6147000537558933164200000, 638834834123953448910000, 21242412256270932006000);
  (3214164628317113803200000, 6147000537558934274400000, 21242412256270932006000);
  (638834834123951922360000, 3214164628317116578800000, 21242412256270932006000);
  (2233361848957125528300000, 325712217949498672450000, 14550429545311270238000);
  (7440925933093376354300000, 2233361848957125805900000, 14550429545311270238000);
  (325712217949498672450000, 7440925933093378574800000, 14550429545311270238000);
  (7440925933093376354300000, 325712217949498672450000, 14550429545311270238000);
  (2233361848957125528300000, 7440925933093377464500000, 14550429545311270238000);
  (325712217949497007120000, 2233361848957128303900000, 14550429545311270238000);
  (1905881189463202729500000, 132734827561577940070000, 8771971654657036631900);
  (7961383982975218653900000, 1905881189463202452000000, 8771971654657036631900);
  (132734827561579171730000, 7961383982975220874300000, 8771971654657036631900);
  (7961383982975219764100000, 132734827561577940070000, 8771971654657036631900);
  (1905881189463203284600000, 7961383982975220874300000, 8771971654657036631900);
  (132734827561576396170000, 1905881189463205505100000, 8771971654657036631900);
  (2273558402454795013300000, 1362337755091280744300000, 26639071817662891666000);
  (6364103842453923132200000, 2273558402454795845900000, 26639071817662891666000);
  (1362337755091280744300000, 6364103842453925352600000, 26639071817662891666000);
  (6364103842453924242400000, 1362337755091280744300000, 26639071817662891666000);
  (2273558402454796678600000, 6364103842453924242400000, 26639071817662891666000);
  (1362337755091279356500000, 2273558402454797788800000, 26639071817662891666000);
  (1065804258588587960500000, 1065804258588590597300000, 18480353307769384341000);
  (7868391482822821858500000, 1065804258588588376800000, 18480353307769384341000);
  (1065804258588590736100000, 7868391482822822968800000, 18480353307769384341000);
  (1567679227871600355900000, 26153775338892213537000, 3558677575266900304000);
  (8406166996789506962200000, 1567679227871600633500000, 3558677575266900304000);
  (26153775338892404356000, 8406166996789509182600000, 3558677575266900304000);
  (8406166996789506962200000, 26153775338892213537000, 3558677575266900304000);
  (1567679227871601743700000, 8406166996789506962200000, 3558677575266900304000);
  (26153775338890322688000, 1567679227871604241700000, 3558677575266900304000);
  (1340333349867784684700000, 134812112051568063630000, 7842598090717185169800);
  (8524854538080647303700000, 1340333349867784684700000, 7842598090717185169800);
  (134812112051568844250000, 8524854538080648414000000, 7842598090717185169800);
  (8524854538080647303700000, 134812112051568063630000, 7842598090717185169800);
  (1340333349867784962200000, 8524854538080648414000000, 7842598090717185169800);
  (134812112051565513580000, 1340333349867788292900000, 7842598090717185169800);
  (2957211757454535905300000, 1918841043522062639300000, 34548418516926666412000);
  (5123947199023402010500000, 2957211757454537015600000, 34548418516926666412000);
  (1918841043522062084200000, 5123947199023403120700000, 34548418516926666412000);
  (5123947199023402010500000, 1918841043522062639300000, 34548418516926666412000);
  (2957211757454536460400000, 5123947199023402010500000, 34548418516926666412000);
  (1918841043522060974000000, 2957211757454538680900000, 34548418516926666412000);
  (1067192718130003659100000, 25472816321698366418000, 3038834446692079941000);
  (8907334465548297775000000, 1067192718130003381600000, 3038834446692079941000);
  (25472816321698843467000, 8907334465548301105600000, 3038834446692079941000);
  (8907334465548297775000000, 25472816321698366418000, 3038834446692079941000);
  (1067192718130002826400000, 8907334465548301105600000, 3038834446692079941000);
  (25472816321696137298000, 1067192718130006573500000, 3038834446692079941000);
  (4125664194839165355200000, 1010372943557596853200000, 29299530252759001941000);
  (4863962861603237652900000, 4125664194839165910300000, 29299530252759001941000);
  (1010372943557596436800000, 4863962861603239318200000, 29299530252759001941000);
  (4863962861603237652900000, 1010372943557596853200000, 29299530252759001941000);
  (4125664194839165355200000, 4863962861603238208000000, 29299530252759001941000);
  (1010372943557595881700000, 4125664194839167020500000, 29299530252759001941000);
  (3078519829928860751500000, 2497507411652887809900000, 38825930203148432789000);
  (4423972758418251993700000, 3078519829928861306600000, 38825930203148432789000);
  (2497507411652886699600000, 4423972758418253103900000, 38825930203148432789000);
  (4423972758418250883500000, 2497507411652887809900000, 38825930203148432789000);
  (3078519829928860751500000, 4423972758418253103900000, 38825930203148432789000);
  (2497507411652886422100000, 3078519829928862416900000, 38825930203148432789000);
  (870205486996966370850000, 137126252885580324910000, 6550204164930561621600);
  (8992668260117453460400000, 870205486996966648410000, 6550204164930561621600);
  (137126252885581001450000, 8992668260117455680800000, 6550204164930561621600);
  (8992668260117453460400000, 137126252885580324910000, 6550204164930561621600);
  (870205486996966648410000, 8992668260117455680800000, 6550204164930561621600);
  (137126252885577740170000, 870205486996969840300000, 6550204164930561621600);
  (3894283316812197082200000, 33445954334026476579000, 5285486245861350856600);
  (6072270728853776944300000, 3894283316812197637300000, 5285486245861350856600);
  (33445954334025973509000, 6072270728853779164800000, 5285486245861350856600);
  (6072270728853776944300000, 33445954334026476579000, 5285486245861350856600);
  (3894283316812196527000000, 6072270728853778054600000, 5285486245861350856600);
  (33445954334025695953000, 3894283316812199857700000, 5285486245861350856600);
  (3117353910725872978600000, 3117353910725874643900000, 40486688045141949049000);
  (3765292178548252377500000, 3117353910725874088800000, 40486688045141949049000);
  (3117353910725872978600000, 3765292178548253487800000, 40486688045141949049000);
  (2612939703141770042500000, 556746304306052139380000, 20205988253753004100000);
  (6830313992552178303800000, 2612939703141770042500000, 20205988253753004100000);
  (556746304306052208770000, 6830313992552180524200000, 20205988253753004100000);
  (6830313992552177193600000, 556746304306052139380000, 20205988253753004100000);
  (2612939703141770042500000, 6830313992552179414000000, 20205988253753004100000);
  (556746304306050543430000, 2612939703141772263000000, 20205988253753004100000);
  (649755331098118837920000, 28037585935402663598000, 2621239456729690885600);
  (9322207082966478264300000, 649755331098118560360000, 2621239456729690885600);
  (28037585935404285564000, 9322207082966479374500000, 2621239456729690885600);
  (9322207082966478264300000, 28037585935402663598000, 2621239456729690885600);
  (649755331098119115470000, 9322207082966479374500000, 2621239456729690885600);
  (28037585935400746728000, 649755331098122307370000, 2621239456729690885600);
  (2719500060981309697000000, 963505000772398451090000, 26024340031600545070000);
  (6316994938246290880500000, 2719500060981310807200000, 26024340031600545070000);
  (963505000772398867430000, 6316994938246291990700000, 26024340031600545070000);
  (6316994938246291990700000, 963505000772398451090000, 26024340031600545070000);
  (2719500060981311362300000, 6316994938246291990700000, 26024340031600545070000);
  (963505000772396369420000, 2719500060981313027700000, 26024340031600545070000);
  (2930903642725461999400000, 291991066004359950400000, 15166556631349360686000);
  (6777105291270177911400000, 2930903642725462554500000, 15166556631349360686000);
  (291991066004360089180000, 6777105291270180131800000, 15166556631349360686000);
  (6777105291270177911400000, 291991066004359950400000, 15166556631349360686000);
  (2930903642725462554500000, 6777105291270179021600000, 15166556631349360686000);
  (291991066004358423850000, 2930903642725465330100000, 15166556631349360686000);
  (3946648265878192063400000, 635745506621691741640000, 24342761801989343078000);
  (5417606227500116888900000, 3946648265878192618500000, 24342761801989343078000);
  (635745506621691602870000, 5417606227500117999100000, 24342761801989343078000);
  (5417606227500115778600000, 635745506621691741640000, 24342761801989343078000);
  (3946648265878192618500000, 5417606227500116888900000, 24342761801989343078000);
  (635745506621691047760000, 3946648265878194283800000, 24342761801989343078000);
  (3568522181929827952200000, 1439285800655438485300000, 33014363090444823201000);
  (4992192017414733284900000, 3568522181929828507300000, 33014363090444823201000);
  (1439285800655437930200000, 4992192017414735505400000, 33014363090444823201000);
  (4992192017414733840000000, 1439285800655438485300000, 33014363090444823201000);
  (3568522181929828507300000, 4992192017414734395200000, 33014363090444823201000);
  (1439285800655437375100000, 3568522181929830172600000, 33014363090444823201000);
  (2448605758688817135600000, 2448605758688818800900000, 36453005263933861008000);
  (5102788482622363508400000, 2448605758688817968200000, 36453005263933861008000);
  (2448605758688818245800000, 5102788482622365728900000, 36453005263933861008000);
  (3413613516388762647600000, 992086997532997810770000, 28265683441562015898000);
  (5594299486078240235500000, 3413613516388763757800000, 28265683441562015898000);
  (992086997532997671990000, 5594299486078241345800000, 28265683441562015898000);
  (5594299486078240235500000, 992086997532997810770000, 28265683441562015898000);
  (3413613516388762647600000, 5594299486078240235500000, 28265683441562015898000);
  (992086997532996561770000, 3413613516388764868000000, 28265683441562015898000);
  (2895129410795145852300000, 1403889214214628922100000, 30959645061719681496000);
  (5700981374990226058200000, 2895129410795146407400000, 30959645061719681496000);
  (1403889214214628089500000, 5700981374990227168500000, 30959645061719681496000);
  (5700981374990226058200000, 1403889214214628922100000, 30959645061719681496000);
  (2895129410795146407400000, 5700981374990226058200000, 30959645061719681496000);
  (1403889214214627256800000, 2895129410795148072700000, 30959645061719681496000);
  (1748351458111906398000000, 1748351458111908618400000, 30277633910126854934000);
  (6503297083776183873400000, 1748351458111906953100000, 30277633910126854934000);
  (1748351458111908618400000, 6503297083776187204100000, 30277633910126854934000);
  (4275693341501903832500000, 1448613316996192612600000, 33794723196148837227000);
  (4275693341501903832500000, 4275693341501904387600000, 33794723196148837227000);
  (1448613316996191224800000, 4275693341501906052900000, 33794723196148837227000);
  (3742701566784476519000000, 2514596866431046962000000, 39610222882956562518000);
  (3742701566784477074100000, 3742701566784477629200000, 39610222882956562518000);
  (2514596866431045851800000, 3742701566784478184300000, 39610222882956562518000)].

(** quad_rules_tria.cc:15096-16120 *)
Definition tab_43 : list (Z * Z * Z) := [
  (4117801708599337917600000, 1764396582801323887200000, 15399827845908164309000);
  (4117801708599338472700000, 4117801708599339027800000, 15399827845908164309000);
  (1764396582801323054600000, 4117801708599340138100000, 15399827845908164309000);
  (4755758670991314662800000, 488482658017371021430000, 12436741101232418570000);
  (4755758670991314662800000, 4755758670991315217900000, 12436741101232418570000);
  (488482658017370119370000, 4755758670991316883200000, 12436741101232418570000);
  (2297394365272492355900000, 1454537953878325962100000, 19563191704087845059000);
  (6248067680849180849400000, 2297394365272492633400000, 19563191704087845059000);
  (1454537953878326517200000, 6248067680849183069800000, 19563191704087845059000);
  (6248067680849181959600000, 1454537953878325962100000, 19563191704087845059000);
  (2297394365272492633400000, 6248067680849183069800000, 19563191704087845059000);
  (1454537953878324574300000, 2297394365272494298800000, 19563191704087845059000);
  (4991798367344779663300000, 16403265310440135610000, 3043078610903900442200);
  (4991798367344780218400000, 4991798367344780773500000, 3043078610903900442200);
  (16403265310439285596000, 4991798367344782438900000, 3043078610903900442200);
  (2962479881688698246700000, 2962479881688699912000000, 29390411668795777406000);
  (4075040236622601286200000, 2962479881688699912000000, 29390411668795777406000);
  (2962479881688698246700000, 4075040236622603506700000, 29390411668795777406000);
  (3605580760887838187600000, 324154748417785493200000, 13287798860385602144000);
  (6070264490694377013100000, 3605580760887838742700000, 13287798860385602144000);
  (324154748417785354420000, 6070264490694378123300000, 13287798860385602144000);
  (6070264490694375902900000, 324154748417785493200000, 13287798860385602144000);
  (3605580760887838742700000, 6070264490694377013100000, 13287798860385602144000);
  (324154748417784244200000, 3605580760887840963100000, 13287798860385602144000);
  (959172276669436746350000, 124129082244383796150000, 5201929288081813497100);
  (8916698641086179266700000, 959172276669436885130000, 5201929288081813497100);
  (124129082244384680860000, 8916698641086181487100000, 5201929288081813497100);
  (8916698641086179266700000, 124129082244383796150000, 5201929288081813497100);
  (959172276669437162690000, 8916698641086181487100000, 5201929288081813497100);
  (124129082244381280800000, 959172276669440077020000, 5201929288081813497100);
  (1898015101110884783600000, 1378581178914930760500000, 19344111227620813462000);
  (6723403719974183623300000, 1898015101110884783600000, 19344111227620813462000);
  (1378581178914931038000000, 6723403719974185843700000, 19344111227620813462000);
  (6723403719974184733500000, 1378581178914930760500000, 19344111227620813462000);
  (1898015101110884783600000, 6723403719974185843700000, 19344111227620813462000);
  (1378581178914928817600000, 1898015101110887281600000, 19344111227620813462000);
  (4010584512926051448100000, 1353361311535962174800000, 27180039607925298231000);
  (4636054175537985822000000, 4010584512926052558300000, 27180039607925298231000);
  (1353361311535961619700000, 4636054175537988042400000, 27180039607925298231000);
  (4636054175537986377100000, 1353361311535962174800000, 27180039607925298231000);
  (4010584512926052003200000, 4636054175537987487300000, 27180039607925298231000);
  (1353361311535961064600000, 4010584512926054223700000, 27180039607925298231000);
  (2775825322761021340900000, 1435267918924766628000000, 25665105385067254681000);
  (5788906758314211753500000, 2775825322761021896100000, 25665105385067254681000);
  (1435267918924766905600000, 5788906758314212863700000, 25665105385067254681000);
  (5788906758314211753500000, 1435267918924766628000000, 25665105385067254681000);
  (2775825322761021340900000, 5788906758314212863700000, 25665105385067254681000);
  (1435267918924764962700000, 2775825322761023561400000, 25665105385067254681000);
  (3531888048870006624500000, 2936223902259986196000000, 34342444832574773629000);
  (3531888048870007179600000, 3531888048870007734700000, 34342444832574773629000);
  (2936223902259984530600000, 3531888048870008844900000, 34342444832574773629000);
  (3061183766903350367300000, 354515915965141689690000, 13624426302032404540000);
  (6584300317131508428800000, 3061183766903349812200000, 13624426302032404540000);
  (354515915965141203970000, 6584300317131510649200000, 13624426302032404540000);
  (6584300317131508428800000, 354515915965141689690000, 13624426302032404540000);
  (3061183766903349257000000, 6584300317131510649200000, 13624426302032404540000);
  (354515915965140093750000, 3061183766903352587700000, 13624426302032404540000);
  (4951059808027699071800000, 97880383944601821733000, 8071536219578769261500);
  (4951059808027699071800000, 4951059808027699626900000, 8071536219578769261500);
  (97880383944601301316000, 4951059808027701292200000, 8071536219578769261500);
  (4182891701734247624800000, 354185331313221704600000, 15409639138513015009000);
  (5462922966952530323700000, 4182891701734248179900000, 15409639138513015009000);
  (354185331313220941320000, 5462922966952533654400000, 15409639138513015009000);
  (5462922966952531433900000, 354185331313221704600000, 15409639138513015009000);
  (4182891701734247624800000, 5462922966952531433900000, 15409639138513015009000);
  (354185331313220663760000, 4182891701734249845200000, 15409639138513015009000);
  (329098159605345705340000, 329098159605348411500000, 5418112146355242046300);
  (9341803680789305675000000, 329098159605345219610000, 5418112146355242046300);
  (329098159605349938060000, 9341803680789306785200000, 5418112146355242046300);
  (965099243357523811640000, 557938681257981461400000, 10980073304482553670000);
  (8476962075384494310600000, 965099243357523534080000, 10980073304482553670000);
  (557938681257983404290000, 8476962075384495420800000, 10980073304482553670000);
  (8476962075384494310600000, 557938681257981461400000, 10980073304482553670000);
  (965099243357523950420000, 8476962075384496531100000, 10980073304482553670000);
  (557938681257978824620000, 965099243357527003530000, 10980073304482553670000);
  (1328397411105292080800000, 639762347898086281010000, 13535858145947343625000);
  (8031840240996621638200000, 1328397411105292080800000, 13535858145947343625000);
  (639762347898087391230000, 8031840240996622748400000, 13535858145947343625000);
  (8031840240996621638200000, 639762347898086281010000, 13535858145947343625000);
  (1328397411105292635900000, 8031840240996622748400000, 13535858145947343625000);
  (639762347898084199340000, 1328397411105295133900000, 13535858145947343625000);
  (969643297980663232400000, 302625797417711110690000, 8866252831514993609400);
  (8727730904601626038500000, 969643297980662954850000, 8866252831514993609400);
  (302625797417711006610000, 8727730904601628259000000, 8866252831514993609400);
  (8727730904601626038500000, 302625797417711110690000, 8866252831514993609400);
  (969643297980662954850000, 8727730904601628259000000, 8866252831514993609400);
  (302625797417708924940000, 969643297980666563070000, 8866252831514993609400);
  (4865637511306883378200000, 268724977386232723180000, 13583025341475886069000);
  (4865637511306883933300000, 4865637511306884488400000, 13583025341475886069000);
  (268724977386232133370000, 4865637511306886153800000, 13583025341475886069000);
  (4287537536910129287700000, 146376163589685189680000, 10597047660427997944000);
  (5566086299500185852200000, 4287537536910129842800000, 10597047660427997944000);
  (146376163589684860080000, 5566086299500186962400000, 10597047660427997944000);
  (5566086299500184742000000, 146376163589685189680000, 10597047660427997944000);
  (4287537536910129842800000, 5566086299500185852200000, 10597047660427997944000);
  (146376163589684304970000, 4287537536910132063300000, 10597047660427997944000);
  (627150483897616628500000, 627150483897619404060000, 10121646522748268919000);
  (8745699032204764522500000, 627150483897616489730000, 10121646522748268919000);
  (627150483897620514280000, 8745699032204765632800000, 10121646522748268919000);
  (1368534453260830396900000, 136052509293985018910000, 6911329136998260952800);
  (8495413037445184167900000, 1368534453260830396900000, 6911329136998260952800);
  (136052509293986267910000, 8495413037445185278100000, 6911329136998260952800);
  (8495413037445184167900000, 136052509293985018910000, 6911329136998260952800);
  (1368534453260830674500000, 8495413037445186388300000, 6911329136998260952800);
  (136052509293982659690000, 1368534453260834005100000, 6911329136998260952800);
  (3635619090992528446000000, 24760406221922721948000, 4143898011379905073700);
  (6339620502785547895300000, 3635619090992529001100000, 4143898011379905073700);
  (24760406221922548475000, 6339620502785551226000000, 4143898011379905073700);
  (6339620502785549005500000, 24760406221922721948000, 4143898011379905073700);
  (3635619090992527890900000, 6339620502785550115700000, 4143898011379905073700);
  (24760406221921438252000, 3635619090992531221600000, 4143898011379905073700);
  (1447435597702213527800000, 1447435597702216580900000, 21227159605321619003000);
  (7105128804595569613800000, 1447435597702213805300000, 21227159605321619003000);
  (1447435597702216303300000, 7105128804595571834200000, 21227159605321619003000);
  (3361435723276197107300000, 1429259733779294216900000, 28804649851841561577000);
  (5209304542944508398300000, 3361435723276198217500000, 28804649851841561577000);
  (1429259733779293939400000, 5209304542944509508500000, 28804649851841561577000);
  (5209304542944509508500000, 1429259733779294216900000, 28804649851841561577000);
  (3361435723276197662400000, 5209304542944509508500000, 28804649851841561577000);
  (1429259733779292829100000, 3361435723276199327700000, 28804649851841561577000);
  (133646206082615737200000, 133646206082618772960000, 2360510527896034791000);
  (9732707587834764639800000, 133646206082615563730000, 2360510527896034791000);
  (133646206082620455650000, 9732707587834765750000000, 2360510527896034791000);
  (940988534499003353990000, 24207777457972610123000, 2433203267894671988300);
  (9034803688043023806000000, 940988534499003076440000, 2433203267894671988300);
  (24207777457974088975000, 9034803688043024916300000, 2433203267894671988300);
  (9034803688043023806000000, 24207777457972610123000, 2433203267894671988300);
  (940988534499004325440000, 9034803688043024916300000, 2433203267894671988300);
  (24207777457970133805000, 940988534499006684660000, 2433203267894671988300);
  (2427105866699005298800000, 1951503399895133938900000, 30305853022483276310000);
  (5621390733405861039900000, 2427105866699005576300000, 30305853022483276310000);
  (1951503399895133661300000, 5621390733405862150100000, 30305853022483276310000);
  (5621390733405861039900000, 1951503399895133938900000, 30305853022483276310000);
  (2427105866699005298800000, 5621390733405862150100000, 30305853022483276310000);
  (1951503399895131996000000, 2427105866699007241700000, 30305853022483276310000);
  (4252384428310576058900000, 640551018216570233750000, 19795801765006594553000);
  (5107064553472853152300000, 4252384428310577169100000, 19795801765006594553000);
  (640551018216569678640000, 5107064553472855372700000, 19795801765006594553000);
  (5107064553472853152300000, 640551018216570233750000, 19795801765006594553000);
  (4252384428310576614000000, 5107064553472854262500000, 19795801765006594553000);
  (640551018216569123530000, 4252384428310579389500000, 19795801765006594553000);
  (3642781269741873218000000, 131876112324832255040000, 9757652807423508817600);
  (6225342617933294908600000, 3642781269741873218000000, 9757652807423508817600);
  (131876112324832428510000, 6225342617933296018900000, 9757652807423508817600);
  (6225342617933294908600000, 131876112324832255040000, 9757652807423508817600);
  (3642781269741872662800000, 6225342617933296018900000, 9757652807423508817600);
  (131876112324831040730000, 3642781269741875438400000, 9757652807423508817600);
  (1776637264896364920600000, 618730821070126515980000, 15879320097892501550000);
  (7604631914033508355300000, 1776637264896364920600000, 15879320097892501550000);
  (618730821070127001700000, 7604631914033510575700000, 15879320097892501550000);
  (7604631914033508355300000, 618730821070126515980000, 15879320097892501550000);
  (1776637264896365198100000, 7604631914033509465500000, 15879320097892501550000);
  (618730821070124781260000, 1776637264896367973700000, 15879320097892501550000);
  (588456479492050557600000, 26124723427688270085000, 2088844892012401734100);
  (9385418797080260500100000, 588456479492050210660000, 2088844892012401734100);
  (26124723427690121902000, 9385418797080261610300000, 2088844892012401734100);
  (9385418797080261610300000, 26124723427688270085000, 2088844892012401734100);
  (588456479492050488210000, 9385418797080263830800000, 2088844892012401734100);
  (26124723427685438149000, 588456479492053749490000, 2088844892012401734100);
  (2500996019098292721900000, 341904035600949715580000, 14018992565018751489000);
  (7157099945300757770600000, 2500996019098292721900000, 14018992565018751489000);
  (341904035600950062520000, 7157099945300759991100000, 14018992565018751489000);
  (7157099945300756660400000, 341904035600949715580000, 14018992565018751489000);
  (2500996019098293277100000, 7157099945300758880900000, 14018992565018751489000);
  (341904035600948119630000, 2500996019098295497500000, 14018992565018751489000);
  (319725865365346195720000, 26508313305474455121000, 1537161500620599767000);
  (9653765821329178820100000, 319725865365346056950000, 1537161500620599767000);
  (26508313305475539323000, 9653765821329181040500000, 1537161500620599767000);
  (9653765821329178820100000, 26508313305474455121000, 1537161500620599767000);
  (319725865365346750830000, 9653765821329181040500000, 1537161500620599767000);
  (26508313305471514765000, 319725865365349248840000, 1537161500620599767000);
  (2417239613576790402400000, 25915690897239996617000, 3790239372578391358900);
  (7556844695525968269600000, 2417239613576790680000000, 3790239372578391358900);
  (25915690897240772905000, 7556844695525970490000000, 3790239372578391358900);
  (7556844695525969379800000, 25915690897239996617000, 3790239372578391358900);
  (2417239613576790402400000, 7556844695525970490000000, 3790239372578391358900);
  (25915690897238274903000, 2417239613576793178000000, 3790239372578391358900);
  (1844047074392018148400000, 142733464909807362260000, 8142800935957091078600);
  (8013219460698174367900000, 1844047074392018148400000, 8142800935957091078600);
  (142733464909807206130000, 8013219460698177698500000, 8142800935957091078600);
  (8013219460698174367900000, 142733464909807362260000, 8142800935957091078600);
  (1844047074392018981100000, 8013219460698175478100000, 8142800935957091078600);
  (142733464909805679580000, 1844047074392020924000000, 8142800935957091078600);
  (612563890152719517370000, 138564076854345488020000, 5007907575658477076700);
  (9248872032992935254800000, 612563890152719447980000, 5007907575658477076700);
  (138564076854346684970000, 9248872032992936365000000, 5007907575658477076700);
  (9248872032992935254800000, 138564076854345488020000, 5007907575658477076700);
  (612563890152720835760000, 9248872032992936365000000, 5007907575658477076700);
  (138564076854343007360000, 612563890152722639870000, 5007907575658477076700);
  (132571416922718544880000, 24938262659978606590000, 948517546105485172700);
  (9842490320417303095700000, 132571416922718544880000, 948517546105485172700);
  (24938262659979226754000, 9842490320417305316200000, 948517546105485172700);
  (9842490320417301985500000, 24938262659978606590000, 948517546105485172700);
  (132571416922718787750000, 9842490320417305316200000, 948517546105485172700);
  (24938262659975757307000, 132571416922722395970000, 948517546105485172700);
  (25649413700201358947000, 25649413700204555175000, 428662883399411019100);
  (9948701172599593300900000, 25649413700201350273000, 428662883399411019100);
  (25649413700206125100000, 9948701172599594411100000, 428662883399411019100);
  (1877722427785784020700000, 1877722427785786241100000, 26676376711980945462000);
  (6244555144428429738200000, 1877722427785784853300000, 26676376711980945462000);
  (1877722427785785686000000, 6244555144428430848400000, 26676376711980945462000);
  (1379731400814552255700000, 1004409310583719433500000, 19612968594132154654000);
  (7615859288601728449600000, 1379731400814552533300000, 19612968594132154654000);
  (1004409310583719849900000, 7615859288601729559800000, 19612968594132154654000);
  (7615859288601727339300000, 1004409310583719433500000, 19612968594132154654000);
  (1379731400814552255700000, 7615859288601729559800000, 19612968594132154654000);
  (1004409310583717490600000, 1379731400814554753700000, 19612968594132154654000);
  (332056799273112990270000, 136974423527236825040000, 3676322245355566581200);
  (9530968777199649855100000, 332056799273113129050000, 3676322245355566581200);
  (136974423527239097530000, 9530968777199649855100000, 3676322245355566581200);
  (9530968777199649855100000, 136974423527236825040000, 3676322245355566581200);
  (332056799273113822930000, 9530968777199653185800000, 3676322245355566581200);
  (136974423527233962750000, 332056799273116320940000, 3676322245355566581200);
  (3825643087869354808100000, 2348713824261289828700000, 34748404345282895254000);
  (3825643087869355363200000, 3825643087869355918300000, 34748404345282895254000);
  (2348713824261288996000000, 3825643087869356473400000, 34748404345282895254000);
  (1944661967811064651200000, 341431958895440298970000, 13138750491332939433000);
  (7713906073293494980400000, 1944661967811064651200000, 13138750491332939433000);
  (341431958895440645920000, 7713906073293497200900000, 13138750491332939433000);
  (7713906073293494980400000, 341431958895440298970000, 13138750491332939433000);
  (1944661967811064928700000, 7713906073293496090700000, 13138750491332939433000);
  (341431958895438564250000, 1944661967811067426700000, 13138750491332939433000);
  (2394826350852045371300000, 138046252946412654340000, 9208169595139563271300);
  (7467127396201541644800000, 2394826350852045648800000, 9208169595139563271300);
  (138046252946413261500000, 7467127396201542755000000, 9208169595139563271300);
  (7467127396201541644800000, 138046252946412654340000, 9208169595139563271300);
  (2394826350852046204000000, 7467127396201542755000000, 9208169595139563271300);
  (138046252946411041050000, 2394826350852048424400000, 9208169595139563271300);
  (3645542277763407779100000, 1864972142995550974400000, 29625163863368801295000);
  (4489485579241042079200000, 3645542277763408334200000, 29625163863368801295000);
  (1864972142995550419300000, 4489485579241043189400000, 29625163863368801295000);
  (4489485579241041524100000, 1864972142995550974400000, 29625163863368801295000);
  (3645542277763408334200000, 4489485579241042079200000, 29625163863368801295000);
  (1864972142995550141700000, 3645542277763409444400000, 29625163863368801295000);
  (1373564023661998090300000, 25417593646837681985000, 3061694204071451473100);
  (8601018382691164587700000, 1373564023661997812700000, 3061694204071451473100);
  (25417593646838154697000, 8601018382691166808100000, 3061694204071451473100);
  (8601018382691164587700000, 25417593646837681985000, 3061694204071451473100);
  (1373564023661997812700000, 8601018382691166808100000, 3061694204071451473100);
  (25417593646834962806000, 1373564023662001421000000, 3061694204071451473100);
  (2322320373188903885900000, 630349337046809815590000, 19124817242394290089000);
  (7047330289764286437300000, 2322320373188904441000000, 19124817242394290089000);
  (630349337046810509480000, 7047330289764286437300000, 19124817242394290089000);
  (7047330289764286437300000, 630349337046809815590000, 19124817242394290089000);
  (2322320373188905273700000, 7047330289764286437300000, 19124817242394290089000);
  (630349337046807733920000, 2322320373188907494100000, 19124817242394290089000);
  (2926613950722468660000000, 638769125793660075270000, 20641516111031283504000);
  (6434616923483870154500000, 2926613950722469215100000, 20641516111031283504000);
  (638769125793660075270000, 6434616923483873485200000, 20641516111031283504000);
  (6434616923483871264700000, 638769125793660075270000, 20641516111031283504000);
  (2926613950722469770200000, 6434616923483871264700000, 20641516111031283504000);
  (638769125793658687500000, 2926613950722471435600000, 20641516111031283504000);
  (3176481163981567101800000, 2419528451754751619000000, 33460160208706149661000);
  (4403990384263680724100000, 3176481163981568212100000, 33460160208706149661000);
  (2419528451754750786300000, 4403990384263682389400000, 33460160208706149661000);
  (4403990384263681834300000, 2419528451754751619000000, 33460160208706149661000);
  (3176481163981567101800000, 4403990384263682389400000, 33460160208706149661000);
  (2419528451754750231200000, 3176481163981568767200000, 33460160208706149661000);
  (3003015966157783212000000, 145992712589763495160000, 10236414736964902835000);
  (6850991321252453136700000, 3003015966157783212000000, 10236414736964902835000);
  (145992712589763651290000, 6850991321252455357200000, 10236414736964902835000);
  (6850991321252453136700000, 145992712589763495160000, 10236414736964902835000);
  (3003015966157783767100000, 6850991321252453136700000, 10236414736964902835000);
  (145992712589762541060000, 3003015966157785987500000, 10236414736964902835000);
  (3005613537168109750100000, 28181145969260871544000, 4390078395825454068500);
  (6966205316862629226500000, 3005613537168110305200000, 4390078395825454068500);
  (28181145969260468220000, 6966205316862632557200000, 4390078395825454068500);
  (6966205316862629226500000, 28181145969260871544000, 4390078395825454068500);
  (3005613537168110860300000, 6966205316862629226500000, 4390078395825454068500);
  (28181145969259080442000, 3005613537168113080800000, 4390078395825454068500);
  (605239793987312202360000, 341344995593797426170000, 7888925592729389632600);
  (9053415210418889191900000, 605239793987312271750000, 7888925592729389632600);
  (341344995593798605780000, 9053415210418891412300000, 7888925592729389632600);
  (9053415210418890302100000, 341344995593797426170000, 7888925592729389632600);
  (605239793987313312580000, 9053415210418891412300000, 7888925592729389632600);
  (341344995593794720000000, 605239793987315463640000, 7888925592729389632600);
  (3007859192338893650200000, 1933554772764183304900000, 31537179554942031817000);
  (5058586034896923600000000, 3007859192338894205300000, 31537179554942031817000);
  (1933554772764182749800000, 5058586034896924710200000, 31537179554942031817000);
  (5058586034896923600000000, 1933554772764183304900000, 31537179554942031817000);
  (3007859192338893650200000, 5058586034896924710200000, 31537179554942031817000);
  (1933554772764182194700000, 3007859192338895315500000, 31537179554942031817000);
  (1895507039776851976300000, 973629697501508795110000, 21363199105265836229000);
  (7130863262721638395900000, 1895507039776852531400000, 21363199105265836229000);
  (973629697501508517550000, 7130863262721641726600000, 21363199105265836229000);
  (7130863262721639506100000, 973629697501508795110000, 21363199105265836229000);
  (1895507039776852531400000, 7130863262721640616300000, 21363199105265836229000);
  (973629697501506713440000, 1895507039776855029400000, 21363199105265836229000);
  (4301399033621489120800000, 27883024051114269244000, 4849186731196299484700);
  (5670717942327396787800000, 4301399033621489675900000, 4849186731196299484700);
  (27883024051114091435000, 5670717942327399008200000, 4849186731196299484700);
  (5670717942327396787800000, 27883024051114269244000, 4849186731196299484700);
  (4301399033621488565700000, 5670717942327397898000000, 4849186731196299484700);
  (27883024051112981212000, 4301399033621491341300000, 4849186731196299484700);
  (1870185722176646858600000, 27559624464837196092000, 3690091352289314634600);
  (8102254653358516023300000, 1870185722176647136200000, 3690091352289314634600);
  (27559624464836840474000, 8102254653358518243800000, 3690091352289314634600);
  (8102254653358516023300000, 27559624464837196092000, 3690091352289314634600);
  (1870185722176647691300000, 8102254653358517133600000, 3690091352289314634600);
  (27559624464835452695000, 1870185722176649911800000, 3690091352289314634600);
  (3791895225090074483800000, 978271071588677626480000, 26309406800637592273000);
  (5229833703321247195800000, 3791895225090075594000000, 26309406800637592273000);
  (978271071588676655040000, 5229833703321249416300000, 26309406800637592273000);
  (5229833703321248306000000, 978271071588677626480000, 26309406800637592273000);
  (3791895225090075038900000, 5229833703321249416300000, 26309406800637592273000);
  (978271071588676099930000, 3791895225090077259400000, 26309406800637592273000);
  (3129669769821592506500000, 995736856368709677410000, 26501359874991259509000);
  (5874593373809697816100000, 3129669769821593061600000, 26501359874991259509000);
  (995736856368709122300000, 5874593373809700036500000, 26501359874991259509000);
  (5874593373809697816100000, 995736856368709677410000, 26501359874991259509000);
  (3129669769821593616800000, 5874593373809697816100000, 26501359874991259509000);
  (995736856368708289630000, 3129669769821595282100000, 26501359874991259509000);
  (1418044870172889826400000, 341143516662648707550000, 12279005051395847602000);
  (8240811613164461535400000, 1418044870172889548900000, 12279005051395847602000);
  (341143516662649193270000, 8240811613164463755900000, 12279005051395847602000);
  (8240811613164461535400000, 341143516662648707550000, 12279005051395847602000);
  (1418044870172890936600000, 8240811613164462645600000, 12279005051395847602000);
  (341143516662645862600000, 1418044870172893157100000, 12279005051395847602000);
  (4528922608459510224000000, 942154783080979690850000, 26664027102005064852000);
  (4528922608459510224000000, 4528922608459511334200000, 26664027102005064852000);
  (942154783080978996960000, 4528922608459512444400000, 26664027102005064852000);
  (2481814600155884953400000, 1004974432729284217200000, 25278051975788423320000);
  (6513210967114830829400000, 2481814600155885508500000, 25278051975788423320000);
  (1004974432729284772300000, 6513210967114831939600000, 25278051975788423320000);
  (6513210967114830829400000, 1004974432729284217200000, 25278051975788423320000);
  (2481814600155885508500000, 6513210967114831939600000, 25278051975788423320000);
  (1004974432729282413100000, 2481814600155887451400000, 25278051975788423320000);
  (3587978354079986997900000, 616738036965516905900000, 22170954845651055787000);
  (5795283608954495679900000, 3587978354079986997900000, 22170954845651055787000);
  (616738036965516767120000, 5795283608954497900400000, 22170954845651055787000);
  (5795283608954496790100000, 616738036965516905900000, 22170954845651055787000);
  (3587978354079987553000000, 5795283608954496790100000, 22170954845651055787000);
  (616738036965515379340000, 3587978354079989773400000, 22170954845651055787000);
  (928670462140478714110000, 928670462140481073330000, 16453530729269982141000);
  (8142659075719039796200000, 928670462140479130440000, 16453530729269982141000);
  (928670462140481212110000, 8142659075719042016700000, 16453530729269982141000);
  (2524849326490907208700000, 2524849326490908874000000, 36571045715601698499000);
  (4950301347018184472400000, 2524849326490908318900000, 36571045715601698499000);
  (2524849326490908874000000, 4950301347018185027500000, 36571045715601698499000)].
