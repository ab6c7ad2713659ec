(** Points and weights of lib/lf/quad/quad_rules_tria.cc, rules 44 to 46: for every
    column (points(0, i), points(1, i), weights(i)) times 10^25.  The decimal literals
    are taken exactly as written; their rounding to double is not modelled. *)
From Coq Require Import List ZArith.
Import ListNotations.
Local Open Scope Z_scope.

(** quad_rules_tria.cc:16123-17192 *)
Definition tab_44 : list (Z * Z * Z) := [
  (17123075799636998297000, 17123075799640144652000, 221520454570737544240);
  (9965753848400722425500000, 17123075799636939751000, 221520454570737544240);
  (17123075799641007677000, 9965753848400724646000000, 221520454570737544240);
  (197551676157197361740000, 107567195566842938040000, 2059878232184790395600);
  (9694881128275959492100000, 197551676157196980100000, 2059878232184790395600);
  (107567195566843909480000, 9694881128275961712500000, 2059878232184790395600);
  (9694881128275960602300000, 107567195566842938040000, 2059878232184790395600);
  (197551676157197708680000, 9694881128275961712500000, 2059878232184790395600);
  (107567195566840405340000, 197551676157200831190000, 2059878232184790395600);
  (995165813818446182150000, 7805858998619334297400, 1366204230018411042600);
  (8997028327182934326300000, 995165813818446320930000, 1366204230018411042600);
  (7805858998620185396100, 8997028327182935436600000, 1366204230018411042600);
  (8997028327182934326300000, 7805858998619334297400, 1366204230018411042600);
  (995165813818447708710000, 8997028327182935436600000, 1366204230018411042600);
  (7805858998617340449600, 995165813818449512820000, 1366204230018411042600);
  (1534945447552138742000000, 19383329127905903674000, 2696642219649486712700);
  (8445671223319954901100000, 1534945447552138742000000, 2696642219649486712700);
  (19383329127906634426000, 8445671223319957121600000, 2696642219649486712700);
  (8445671223319954901100000, 19383329127905903674000, 2696642219649486712700);
  (1534945447552139574700000, 8445671223319957121600000, 2696642219649486712700);
  (19383329127903581313000, 1534945447552142350200000, 2696642219649486712700);
  (4606074520039988851000000, 17861424805254105894000, 3354894852910194594400);
  (5376064055154757825900000, 4606074520039989406200000, 3354894852910194594400);
  (17861424805253878212000, 5376064055154758936100000, 3354894852910194594400);
  (5376064055154756715600000, 17861424805254105894000, 3354894852910194594400);
  (4606074520039989406200000, 5376064055154757825900000, 3354894852910194594400);
  (17861424805252767989000, 4606074520039992181700000, 3354894852910194594400);
  (296420604264443915410000, 17542251710527551750000, 1129657680569700343100);
  (9686037144025027023600000, 296420604264443707240000, 1129657680569700343100);
  (17542251710528922182000, 9686037144025029244100000, 1129657680569700343100);
  (9686037144025029244100000, 17542251710527551750000, 1129657680569700343100);
  (296420604264444054190000, 9686037144025031464500000, 1129657680569700343100);
  (17542251710524446595000, 296420604264446899130000, 1129657680569700343100);
  (3338406248248118046700000, 5172942596600699867100, 1610331547091688848200);
  (6656420809155281226300000, 3338406248248118601800000, 1610331547091688848200);
  (5172942596600726972200, 6656420809155283446800000, 1610331547091688848200);
  (6656420809155281226300000, 5172942596600699867100, 1610331547091688848200);
  (3338406248248118601800000, 6656420809155282336500000, 1610331547091688848200);
  (5172942596599061637600, 3338406248248121377400000, 1610331547091688848200);
  (291673514653004867240000, 291673514653007816270000, 5614886914118581750000);
  (9416652970693987212400000, 291673514653004589680000, 5614886914118581750000);
  (291673514653008614240000, 9416652970693989432900000, 5614886914118581750000);
  (495499879123024178360000, 495499879123027023310000, 8725757827664733842100);
  (9009000241753948312600000, 495499879123024108970000, 8725757827664733842100);
  (495499879123028619250000, 9009000241753949422800000, 8725757827664733842100);
  (1194266872274119678500000, 75458709257061103853000, 4838836513975668021000);
  (8730274418468818575800000, 1194266872274119817300000, 4838836513975668021000);
  (75458709257061884479000, 8730274418468820796200000, 4838836513975668021000);
  (8730274418468819686000000, 75458709257061103853000, 4838836513975668021000);
  (1194266872274119539700000, 8730274418468820796200000, 4838836513975668021000);
  (75458709257059317088000, 1194266872274123009200000, 4838836513975668021000);
  (1733118066994289163700000, 114925464528052804350000, 6733324460908809332500);
  (8151956468477656869700000, 1733118066994289163700000, 6733324460908809332500);
  (114925464528054521730000, 8151956468477657979900000, 6733324460908809332500);
  (8151956468477657979900000, 114925464528052804350000, 6733324460908809332500);
  (1733118066994290829000000, 8151956468477657979900000, 6733324460908809332500);
  (114925464528051191060000, 1733118066994292494300000, 6733324460908809332500);
  (593978633857566162830000, 242629677211045335920000, 6687541419906179677300);
  (9163391688931388223700000, 593978633857566301610000, 6687541419906179677300);
  (242629677211045891030000, 9163391688931390444100000, 6687541419906179677300);
  (9163391688931388223700000, 242629677211045335920000, 6687541419906179677300);
  (593978633857566995500000, 9163391688931390444100000, 6687541419906179677300);
  (242629677211043531800000, 593978633857569493500000, 6687541419906179677300);
  (2594461646278431454800000, 97976933024596420813000, 6047140183441160592900);
  (7307561420696971898900000, 2594461646278432009900000, 6047140183441160592900);
  (97976933024596091215000, 7307561420696975229600000, 6047140183441160592900);
  (7307561420696971898900000, 97976933024596420813000, 6047140183441160592900);
  (2594461646278432565000000, 7307561420696971898900000, 6047140183441160592900);
  (97976933024594703436000, 2594461646278434785500000, 6047140183441160592900);
  (2696648795311177848600000, 18991508282083366041000, 2986880708809415484000);
  (7284359696406738082800000, 2696648795311178403700000, 2986880708809415484000);
  (18991508282084068604000, 7284359696406740303200000, 2986880708809415484000);
  (7284359696406739193000000, 18991508282083366041000, 2986880708809415484000);
  (2696648795311179513900000, 7284359696406739193000000, 2986880708809415484000);
  (18991508282081570602000, 2696648795311181179300000, 2986880708809415484000);
  (3234284104109564350600000, 76746798561443466125000, 7341005318667856481900);
  (6688969097328991697500000, 3234284104109564905700000, 7341005318667856481900);
  (76746798561443396736000, 6688969097328993918000000, 7341005318667856481900);
  (6688969097328991697500000, 76746798561443466125000, 7341005318667856481900);
  (3234284104109563795500000, 6688969097328993918000000, 7341005318667856481900);
  (76746798561442008957000, 3234284104109567681300000, 7341005318667856481900);
  (2093976094351924777100000, 27072043077685922427000, 4005272426006207674300);
  (7878951862570389153000000, 2093976094351925054700000, 4005272426006207674300);
  (27072043077686069878000, 7878951862570391373500000, 4005272426006207674300);
  (7878951862570389153000000, 27072043077685922427000, 4005272426006207674300);
  (2093976094351924777100000, 7878951862570391373500000, 4005272426006207674300);
  (27072043077683571877000, 2093976094351927552700000, 4005272426006207674300);
  (107937373867395408620000, 27063965571698933577000, 927835211688663732360);
  (9864998660560905241500000, 107937373867394940250000, 927835211688663732360);
  (27063965571700876467000, 9864998660560906351700000, 927835211688663732360);
  (9864998660560905241500000, 27063965571698933577000, 927835211688663732360);
  (107937373867397212730000, 9864998660560906351700000, 927835211688663732360);
  (27063965571696756499000, 107937373867398791330000, 927835211688663732360);
  (416577600266789249690000, 104627340296394866210000, 3607110132130616087600);
  (9478795059436815329000000, 416577600266788972140000, 3607110132130616087600);
  (104627340296396531550000, 9478795059436816439200000, 3607110132130616087600);
  (9478795059436816439200000, 104627340296394866210000, 3607110132130616087600);
  (416577600266790359920000, 9478795059436816439200000, 3607110132130616087600);
  (104627340296392819240000, 416577600266792788530000, 3607110132130616087600);
  (1393007744184822371800000, 215128602849198879990000, 7660833620237148021800);
  (8391863652965978470600000, 1393007744184822649400000, 7660833620237148021800);
  (215128602849199990210000, 8391863652965979580900000, 7660833620237148021800);
  (8391863652965978470600000, 215128602849198879990000, 7660833620237148021800);
  (1393007744184822649400000, 8391863652965979580900000, 7660833620237148021800);
  (215128602849196937100000, 1393007744184825980000000, 7660833620237148021800);
  (4877239805831533603400000, 245520388336932966770000, 13648263582449668679000);
  (4877239805831533603400000, 4877239805831534713600000, 13648263582449668679000);
  (245520388336932238180000, 4877239805831535823800000, 13648263582449668679000);
  (971407574555290531660000, 228245356349519729070000, 7545133102141476141200);
  (8800347069095190155600000, 971407574555290531660000, 7545133102141476141200);
  (228245356349520145400000, 8800347069095191265800000, 7545133102141476141200);
  (8800347069095190155600000, 228245356349519729070000, 7545133102141476141200);
  (971407574555290809220000, 8800347069095191265800000, 7545133102141476141200);
  (228245356349517439230000, 971407574555294001110000, 7545133102141476141200);
  (1511248097389705780100000, 1000885303047900215500000, 17008612364745089376000);
  (7487866599562393865600000, 1511248097389706335200000, 17008612364745089376000);
  (1000885303047900909400000, 7487866599562394975800000, 17008612364745089376000);
  (7487866599562393865600000, 1000885303047900215500000, 17008612364745089376000);
  (1511248097389706335200000, 7487866599562394975800000, 17008612364745089376000);
  (1000885303047898272600000, 1511248097389708833200000, 17008612364745089376000);
  (4960618044654749314600000, 78763910690500937156000, 6022530067059622509200);
  (4960618044654749869700000, 4960618044654749869700000, 6022530067059622509200);
  (78763910690500260614000, 4960618044654752090100000, 6022530067059622509200);
  (3939323955351544670500000, 31595695366355078249000, 5179940819031930232900);
  (6029080349282099904300000, 3939323955351545225600000, 5179940819031930232900);
  (31595695366354870082000, 6029080349282102124800000, 5179940819031930232900);
  (6029080349282099904300000, 31595695366355078249000, 5179940819031930232900);
  (3939323955351544115400000, 6029080349282102124800000, 5179940819031930232900);
  (31595695366353482303000, 3939323955351547446000000, 5179940819031930232900);
  (1276374594173247667400000, 435675752808351648970000, 11887438463899313666000);
  (8287949653018399365200000, 1276374594173247667400000, 11887438463899313666000);
  (435675752808352134690000, 8287949653018402695900000, 11887438463899313666000);
  (8287949653018401585700000, 435675752808351648970000, 11887438463899313666000);
  (1276374594173247389900000, 8287949653018402695900000, 11887438463899313666000);
  (435675752808349359140000, 1276374594173250720500000, 11887438463899313666000);
  (2153427859170523039900000, 628153762458395631410000, 16976956170923394006000);
  (7218418378371082022600000, 2153427859170523317500000, 16976956170923394006000);
  (628153762458395492630000, 7218418378371083132800000, 16976956170923394006000);
  (7218418378371080912400000, 628153762458395631410000, 16976956170923394006000);
  (2153427859170523595000000, 7218418378371083132800000, 16976956170923394006000);
  (628153762458393827290000, 2153427859170525815500000, 16976956170923394006000);
  (1805238872560285257100000, 346911866169311577930000, 13520441912409104229000);
  (7847849261270403165000000, 1805238872560285257100000, 13520441912409104229000);
  (346911866169312133050000, 7847849261270404275200000, 13520441912409104229000);
  (7847849261270403165000000, 346911866169311577930000, 13520441912409104229000);
  (1805238872560285812200000, 7847849261270404275200000, 13520441912409104229000);
  (346911866169309635040000, 1805238872560288032600000, 13520441912409104229000);
  (3706974787497283041500000, 159521357680311760830000, 10085016951456447949000);
  (6133503854822405232400000, 3706974787497283596600000, 10085016951456447949000);
  (159521357680312281250000, 6133503854822406342600000, 10085016951456447949000);
  (6133503854822404122200000, 159521357680311760830000, 10085016951456447949000);
  (3706974787497284151700000, 6133503854822405232400000, 10085016951456447949000);
  (159521357680310338360000, 3706974787497286372200000, 10085016951456447949000);
  (2389043466345938671000000, 365656909809639746320000, 13959405662128856335000);
  (7245299623844421166300000, 2389043466345938948600000, 13959405662128856335000);
  (365656909809640162660000, 7245299623844423386700000, 13959405662128856335000);
  (7245299623844421166300000, 365656909809639746320000, 13959405662128856335000);
  (2389043466345939226200000, 7245299623844423386700000, 13959405662128856335000);
  (365656909809637803430000, 2389043466345941724200000, 13959405662128856335000);
  (765961156051737368510000, 765961156051740560400000, 11828966553896248532000);
  (8468077687896521377200000, 765961156051736952180000, 11828966553896248532000);
  (765961156051742086960000, 8468077687896522487400000, 11828966553896248532000);
  (4035445047649169336700000, 1228672484069712050900000, 21502294328652488825000);
  (4735882468281119028800000, 4035445047649169891800000, 21502294328652488825000);
  (1228672484069711357000000, 4735882468281121249200000, 21502294328652488825000);
  (4735882468281119028800000, 1228672484069712050900000, 21502294328652488825000);
  (4035445047649169336700000, 4735882468281119583900000, 21502294328652488825000);
  (1228672484069711079400000, 4035445047649171002000000, 21502294328652488825000);
  (2510886184010616695200000, 1220611920335108041600000, 24919282645968808890000);
  (6268501895654274846900000, 2510886184010617805400000, 24919282645968808890000);
  (1220611920335107902800000, 6268501895654277067400000, 24919282645968808890000);
  (6268501895654274846900000, 1220611920335108041600000, 24919282645968808890000);
  (2510886184010616695200000, 6268501895654277067400000, 24919282645968808890000);
  (1220611920335105959900000, 2510886184010619470700000, 24919282645968808890000);
  (3100924603530019196800000, 878278870328067923220000, 23266481378334956560000);
  (6020796526141912741200000, 3100924603530019751900000, 23266481378334956560000);
  (878278870328067506890000, 6020796526141914961600000, 23266481378334956560000);
  (6020796526141912741200000, 878278870328067923220000, 23266481378334956560000);
  (3100924603530019196800000, 6020796526141914961600000, 23266481378334956560000);
  (878278870328066396670000, 3100924603530021972400000, 23266481378334956560000);
  (4171889370681111097700000, 656811030561964964700000, 20639380211282527637000);
  (5171299598756924353900000, 4171889370681111097700000, 20639380211282527637000);
  (656811030561964548370000, 5171299598756926574300000, 20639380211282527637000);
  (5171299598756924353900000, 656811030561964964700000, 20639380211282527637000);
  (4171889370681111097700000, 5171299598756924353900000, 20639380211282527637000);
  (656811030561963993260000, 4171889370681113318200000, 20639380211282527637000);
  (4759518460527712435700000, 480963078944574851100000, 17555971341706073669000);
  (4759518460527713545900000, 4759518460527712990800000, 17555971341706073669000);
  (480963078944574018440000, 4759518460527715211200000, 17555971341706073669000);
  (842771975158688041450000, 457201471848305632250000, 10289108811762464040000);
  (8700026552993006534500000, 842771975158687902670000, 10289108811762464040000);
  (457201471848305840420000, 8700026552993008754900000, 10289108811762464040000);
  (8700026552993006534500000, 457201471848305632250000, 10289108811762464040000);
  (842771975158687625120000, 8700026552993008754900000, 10289108811762464040000);
  (457201471848303273030000, 842771975158691094570000, 10289108811762464040000);
  (2875172818904951910200000, 528034108950670294510000, 19469102292144066166000);
  (6596793072144377934100000, 2875172818904953020400000, 19469102292144066166000);
  (528034108950670155740000, 6596793072144379044300000, 19469102292144066166000);
  (6596793072144377934100000, 528034108950670294510000, 19469102292144066166000);
  (2875172818904952465300000, 6596793072144379044300000, 19469102292144066166000);
  (528034108950668767960000, 2875172818904954685800000, 19469102292144066166000);
  (1090955419572376544600000, 1090955419572378903800000, 14717340235978872490000);
  (7818089160855243857600000, 1090955419572376267100000, 14717340235978872490000);
  (1090955419572380291600000, 7818089160855246078100000, 14717340235978872490000);
  (3421421849069924414600000, 332627075502785821140000, 13853806982777720509000);
  (6245951075427289556100000, 3421421849069924969700000, 13853806982777720509000);
  (332627075502785474190000, 6245951075427291776500000, 13853806982777720509000);
  (6245951075427289556100000, 332627075502785821140000, 13853806982777720509000);
  (3421421849069924414600000, 6245951075427291776500000, 13853806982777720509000);
  (332627075502784919080000, 3421421849069926635100000, 13853806982777720509000);
  (2312470036938409356800000, 2312470036938411299700000, 33616214492365476679000);
  (5375059926123180176200000, 2312470036938410189500000, 33616214492365476679000);
  (2312470036938411022100000, 5375059926123180176200000, 33616214492365476679000);
  (1959081982236504926300000, 1959081982236507424300000, 24899294062594610685000);
  (6081836035526987371800000, 1959081982236505759000000, 24899294062594610685000);
  (1959081982236506314100000, 6081836035526989592300000, 24899294062594610685000);
  (2907813356274842608900000, 230909511650298354680000, 12400719992533822209000);
  (6861277132074860007900000, 2907813356274842608900000, 12400719992533822209000);
  (230909511650299048570000, 6861277132074860007900000, 12400719992533822209000);
  (6861277132074858897700000, 230909511650298354680000, 12400719992533822209000);
  (2907813356274843719100000, 6861277132074860007900000, 12400719992533822209000);
  (230909511650296828120000, 2907813356274845384400000, 12400719992533822209000);
  (777385297161002769560000, 84121228886458298407000, 4314510904167740161200);
  (9138493473952539192200000, 777385297161002214450000, 4314510904167740161200);
  (84121228886460674978000, 9138493473952539192200000, 4314510904167740161200);
  (9138493473952539192200000, 84121228886458298407000, 4314510904167740161200);
  (777385297161003463450000, 9138493473952539192200000, 4314510904167740161200);
  (84121228886456303475000, 777385297161006100230000, 4314510904167740161200);
  (583538087981567143990000, 18558446904390871364000, 1604665887871476229700);
  (9397903465114041399200000, 583538087981567143990000, 1604665887871476229700);
  (18558446904392567056000, 9397903465114042509400000, 1604665887871476229700);
  (9397903465114042509400000, 18558446904390871364000, 1604665887871476229700);
  (583538087981568254210000, 9397903465114042509400000, 1604665887871476229700);
  (18558446904388126164000, 583538087981571029770000, 1604665887871476229700);
  (3537362173911874352300000, 1518612214991534037400000, 24905043053087203009000);
  (4944025611096591887900000, 3537362173911874907400000, 24905043053087203009000);
  (1518612214991533482200000, 4944025611096593553200000, 24905043053087203009000);
  (4944025611096592443000000, 1518612214991534037400000, 24905043053087203009000);
  (3537362173911874907400000, 4944025611096592998100000, 24905043053087203009000);
  (1518612214991532094500000, 3537362173911876572800000, 24905043053087203009000);
  (1941036834219221352000000, 1466938464955037657600000, 25097889590407645478000);
  (6592024700825740435300000, 1941036834219221907100000, 25097889590407645478000);
  (1466938464955038212700000, 6592024700825741545500000, 25097889590407645478000);
  (6592024700825740435300000, 1466938464955037657600000, 25097889590407645478000);
  (1941036834219222462200000, 6592024700825741545500000, 25097889590407645478000);
  (1466938464955035992300000, 1941036834219224127600000, 25097889590407645478000);
  (1152446802620742671900000, 730582724234847963320000, 13846164091467650509000);
  (8116970473144409226100000, 1152446802620742810600000, 13846164091467650509000);
  (730582724234848934760000, 8116970473144410336300000, 13846164091467650509000);
  (8116970473144409226100000, 730582724234847963320000, 13846164091467650509000);
  (1152446802620742949400000, 8116970473144410336300000, 13846164091467650509000);
  (730582724234845742870000, 1152446802620745447400000, 13846164091467650509000);
  (2526489188568273869300000, 833205145800466895340000, 18507903298394157068000);
  (6640305665631258680300000, 2526489188568273869300000, 18507903298394157068000);
  (833205145800467450460000, 6640305665631260900700000, 18507903298394157068000);
  (6640305665631259790500000, 833205145800466895340000, 18507903298394157068000);
  (2526489188568273869300000, 6640305665631260900700000, 18507903298394157068000);
  (833205145800465785120000, 2526489188568276089700000, 18507903298394157068000);
  (3706381279110350646100000, 976700995193537646610000, 25375187295810005400000);
  (5316917725696111984800000, 3706381279110351201200000, 25375187295810005400000);
  (976700995193537369050000, 5316917725696113095100000, 25375187295810005400000);
  (5316917725696111984800000, 976700995193537646610000, 25375187295810005400000);
  (3706381279110351201200000, 5316917725696113095100000, 25375187295810005400000);
  (976700995193536258830000, 3706381279110353421700000, 25375187295810005400000);
  (1975107662353284554400000, 1021274732358202347300000, 21338383457740923987000);
  (7003617605288512404400000, 1975107662353284832000000, 21338383457740923987000);
  (1021274732358203318800000, 7003617605288513514600000, 21338383457740923987000);
  (7003617605288513514600000, 1021274732358202347300000, 21338383457740923987000);
  (1975107662353285387100000, 7003617605288513514600000, 21338383457740923987000);
  (1021274732358200404400000, 1975107662353287330000000, 21338383457740923987000);
  (2191021787766395945200000, 169401226467935060730000, 8646136519940681884300);
  (7639576985765668126800000, 2191021787766395945200000, 8646136519940681884300);
  (169401226467935650530000, 7639576985765670347200000, 8646136519940681884300);
  (7639576985765668126800000, 169401226467935060730000, 8646136519940681884300);
  (2191021787766396222700000, 7639576985765670347200000, 8646136519940681884300);
  (169401226467933291310000, 2191021787766398720700000, 8646136519940681884300);
  (1647494714555341466200000, 646074146543942490210000, 16123699561219760786000);
  (7706431138900715627200000, 1647494714555341743800000, 16123699561219760786000);
  (646074146543943461650000, 7706431138900716737400000, 16123699561219760786000);
  (7706431138900716737400000, 646074146543942490210000, 16123699561219760786000);
  (1647494714555342576500000, 7706431138900716737400000, 16123699561219760786000);
  (646074146543940130980000, 1647494714555344241800000, 16123699561219760786000);
  (3487568874306149480100000, 1942934918619254047700000, 26439738564809512483000);
  (4569496207074597027300000, 3487568874306150590300000, 26439738564809512483000);
  (1942934918619252937500000, 4569496207074598137500000, 26439738564809512483000);
  (4569496207074595917100000, 1942934918619254047700000, 26439738564809512483000);
  (3487568874306150590300000, 4569496207074597027300000, 26439738564809512483000);
  (1942934918619252937500000, 3487568874306151700500000, 26439738564809512483000);
  (3558533300586623204800000, 587895877753212212080000, 20097921431825372697000);
  (5853570821660165624000000, 3558533300586623759900000, 20097921431825372697000);
  (587895877753212281470000, 5853570821660166734200000, 20097921431825372697000);
  (5853570821660164513700000, 587895877753212212080000, 20097921431825372697000);
  (3558533300586623759900000, 5853570821660165624000000, 20097921431825372697000);
  (587895877753210893690000, 3558533300586625425200000, 20097921431825372697000);
  (3487165289854693983600000, 2435849758851731383700000, 30304166036500268522000);
  (4076984951293575187800000, 3487165289854695093800000, 30304166036500268522000);
  (2435849758851730273400000, 4076984951293576298100000, 30304166036500268522000);
  (4076984951293575187800000, 2435849758851731383700000, 30304166036500268522000);
  (3487165289854693428500000, 4076984951293575743000000, 30304166036500268522000);
  (2435849758851729718300000, 3487165289854695648900000, 30304166036500268522000);
  (4223218082071513723700000, 1553563835856973107700000, 24604186226233845138000);
  (4223218082071513723700000, 4223218082071514278800000, 24604186226233845138000);
  (1553563835856972552600000, 4223218082071514833900000, 24604186226233845138000);
  (4548817499595059210500000, 902365000809881301350000, 25107375142988008938000);
  (4548817499595059765700000, 4548817499595060320800000, 25107375142988008938000);
  (902365000809880468680000, 4548817499595061431000000, 25107375142988008938000);
  (2907043355496960468400000, 1861259659561632917600000, 28995685292816440574000);
  (5231696984941406336500000, 2907043355496961578600000, 28995685292816440574000);
  (1861259659561632084900000, 5231696984941408556900000, 28995685292816440574000);
  (5231696984941406336500000, 1861259659561632917600000, 28995685292816440574000);
  (2907043355496960468400000, 5231696984941408556900000, 28995685292816440574000);
  (1861259659561630697100000, 2907043355496962688800000, 28995685292816440574000);
  (1439001195404208122100000, 1439001195404210620100000, 22232966203806566081000);
  (7121997609191581535300000, 1439001195404208122100000, 22232966203806566081000);
  (1439001195404210342600000, 7121997609191583755700000, 22232966203806566081000);
  (2898629348171136710400000, 2383570195525562263100000, 31965737605550237702000);
  (4717800456303300471500000, 2898629348171137820600000, 31965737605550237702000);
  (2383570195525561985500000, 4717800456303302136800000, 31965737605550237702000);
  (4717800456303301581700000, 2383570195525562263100000, 31965737605550237702000);
  (2898629348171136710400000, 4717800456303302136800000, 31965737605550237702000);
  (2383570195525560875300000, 2898629348171138375700000, 31965737605550237702000);
  (4023404478547353835300000, 1953191042905292607000000, 23233063822922024773000);
  (4023404478547353280100000, 4023404478547354390400000, 23233063822922024773000);
  (1953191042905292051900000, 4023404478547354945500000, 23233063822922024773000);
  (3093835754454579700700000, 1312296167919729805700000, 28273375044942186153000);
  (5593868077625689938500000, 3093835754454580255800000, 28273375044942186153000);
  (1312296167919729805700000, 5593868077625692159000000, 28273375044942186153000);
  (5593868077625689938500000, 1312296167919729805700000, 28273375044942186153000);
  (3093835754454579145500000, 5593868077625692159000000, 28273375044942186153000);
  (1312296167919728417900000, 3093835754454581921100000, 28273375044942186153000);
  (2469795390992444439300000, 1684589785524792104900000, 26555247084499877287000);
  (5845614823482763178200000, 2469795390992444994400000, 26555247084499877287000);
  (1684589785524792104900000, 5845614823482764288400000, 26555247084499877287000);
  (5845614823482763178200000, 1684589785524792104900000, 26555247084499877287000);
  (2469795390992444716900000, 5845614823482764288400000, 26555247084499877287000);
  (1684589785524790439600000, 2469795390992446659800000, 26555247084499877287000);
  (4353451951214651893800000, 131254695112234757300000, 9866152107379504588400);
  (5515293353673113019300000, 4353451951214652448900000, 9866152107379504588400);
  (131254695112234531780000, 5515293353673115239700000, 9866152107379504588400);
  (5515293353673113019300000, 131254695112234757300000, 9866152107379504588400);
  (4353451951214652448900000, 5515293353673113019300000, 9866152107379504588400);
  (131254695112233421560000, 4353451951214655224500000, 9866152107379504588400);
  (2942957656908339325600000, 2942957656908340435800000, 32127360250871644411000);
  (4114084686183320238600000, 2942957656908340435800000, 32127360250871644411000);
  (2942957656908339325600000, 4114084686183321903900000, 32127360250871644411000);
  (3516157887957689354200000, 2967684224084621291700000, 31327939418134159201000);
  (3516157887957689354200000, 3516157887957691019500000, 31327939418134159201000);
  (2967684224084619071200000, 3516157887957691019500000, 31327939418134159201000);
  (4137012893148830916500000, 344134405185802239040000, 17777397357834714454000);
  (5518852701665367677100000, 4137012893148830916500000, 17777397357834714454000);
  (344134405185801961480000, 5518852701665368787300000, 17777397357834714454000);
  (5518852701665366566900000, 344134405185802239040000, 17777397357834714454000);
  (4137012893148830916500000, 5518852701665367677100000, 17777397357834714454000);
  (344134405185801406370000, 4137012893148833692100000, 17777397357834714454000)].

(** quad_rules_tria.cc:17195-18312 *)
Definition tab_45 : list (Z * Z * Z) := [
  (126048038307361616460000, 72924295508433809032000, 971532123877306627580);
  (9801027666184203290800000, 126048038307361633810000, 971532123877306627580);
  (72924295508435266200000, 9801027666184205511300000, 971532123877306627580);
  (9801027666184204401000000, 72924295508433809032000, 971532123877306627580);
  (126048038307362553210000, 9801027666184205511300000, 971532123877306627580);
  (72924295508431024801000, 126048038307365484890000, 971532123877306627580);
  (46054766314412793130000, 13499971821104976046000, 296832401489166389260);
  (9940445261864481185700000, 46054766314412888539000, 296832401489166389260);
  (13499971821106515613000, 9940445261864482295900000, 296832401489166389260);
  (9940445261864482295900000, 13499971821104976046000, 296832401489166389260);
  (46054766314413408956000, 9940445261864484516300000, 296832401489166389260);
  (13499971821102118089000, 46054766314416097778000, 296832401489166389260);
  (679464966039111523120000, 68591759380605367077000, 2403443537513318042200);
  (9251943274580282095000000, 679464966039111384340000, 2403443537513318042200);
  (68591759380606798224000, 9251943274580284315400000, 2403443537513318042200);
  (9251943274580283205200000, 68591759380605367077000, 2403443537513318042200);
  (679464966039112217010000, 9251943274580284315400000, 2403443537513318042200);
  (68591759380603120611000, 679464966039114576240000, 2403443537513318042200);
  (693380043634408277380000, 12297679959348988867000, 1150624667501121291700);
  (9294322276406241645200000, 693380043634408416150000, 1150624667501121291700);
  (12297679959349938628000, 9294322276406243865700000, 1150624667501121291700);
  (9294322276406242755400000, 12297679959348988867000, 1150624667501121291700);
  (693380043634408416150000, 9294322276406243865700000, 1150624667501121291700);
  (12297679959346885514000, 693380043634411191710000, 1150624667501121291700);
  (4682708598709479641500000, 87801002006947515000000, 6472313585340723962300);
  (5229490399283572843500000, 4682708598709480196700000, 6472313585340723962300);
  (87801002006946959888000, 5229490399283575063900000, 6472313585340723962300);
  (5229490399283571733200000, 87801002006947515000000, 6472313585340723962300);
  (4682708598709479641500000, 5229490399283573953700000, 6472313585340723962300);
  (87801002006946682332000, 4682708598709482417100000, 6472313585340723962300);
  (2504951703352215064400000, 16830263611802771025000, 2302604491453431314800);
  (7478218033035981537900000, 2504951703352215064400000, 2302604491453431314800);
  (16830263611803397694000, 7478218033035983758300000, 2302604491453431314800);
  (7478218033035982648100000, 16830263611802771025000, 2302604491453431314800);
  (2504951703352215064400000, 7478218033035983758300000, 2302604491453431314800);
  (16830263611800344581000, 2504951703352217840000000, 2302604491453431314800);
  (179231013398374397490000, 17579725835351468592000, 775345040014331513080);
  (9803189260766274060200000, 179231013398374154630000, 775345040014331513080);
  (17579725835353832153000, 9803189260766274060200000, 775345040014331513080);
  (9803189260766274060200000, 17579725835351468592000, 775345040014331513080);
  (179231013398373772990000, 9803189260766277390900000, 775345040014331513080);
  (17579725835348974927000, 179231013398377381220000, 775345040014331513080);
  (3594568419950527893300000, 14756136531629470907000, 2632160084498377078900);
  (6390675443517842557700000, 3594568419950528448400000, 2632160084498377078900);
  (14756136531630104081000, 6390675443517843668000000, 2632160084498377078900);
  (6390675443517842557700000, 14756136531629470907000, 2632160084498377078900);
  (3594568419950528448400000, 6390675443517842557700000, 2632160084498377078900);
  (14756136531628438746000, 3594568419950530113700000, 2632160084498377078900);
  (2211539847849474937900000, 1536631274625925303000000, 20388014004386009227000);
  (6251828877524598926400000, 2211539847849475493000000, 20388014004386009227000);
  (1536631274625925858100000, 6251828877524600036600000, 20388014004386009227000);
  (6251828877524600036600000, 1536631274625925303000000, 20388014004386009227000);
  (2211539847849475215500000, 6251828877524601146800000, 20388014004386009227000);
  (1536631274625923360100000, 2211539847849476880800000, 20388014004386009227000);
  (2389731948786961157600000, 2276252161372492588400000, 13636685777816597107000);
  (5334015889840546531500000, 2389731948786961712700000, 13636685777816597107000);
  (2276252161372492310900000, 5334015889840547641800000, 13636685777816597107000);
  (5334015889840546531500000, 2276252161372492588400000, 13636685777816597107000);
  (2389731948786961157600000, 5334015889840547641800000, 13636685777816597107000);
  (2276252161372491200600000, 2389731948786963100500000, 13636685777816597107000);
  (1298066533002766587100000, 1298066533002769085100000, 16012085751762885569000);
  (7403866933994464050200000, 1298066533002766587100000, 16012085751762885569000);
  (1298066533002769640200000, 7403866933994465160400000, 16012085751762885569000);
  (2265228859811757589100000, 1142030377515118599900000, 19089191800209103118000);
  (6592740762673122700800000, 2265228859811757866600000, 19089191800209103118000);
  (1142030377515119155000000, 6592740762673124921300000, 19089191800209103118000);
  (6592740762673123811100000, 1142030377515118599900000, 19089191800209103118000);
  (2265228859811758144200000, 6592740762673124921300000, 19089191800209103118000);
  (1142030377515116795800000, 2265228859811760087100000, 19089191800209103118000);
  (2395905240377901868100000, 803750594685513908290000, 16217949642443299681000);
  (6800344164936583668500000, 2395905240377902145600000, 16217949642443299681000);
  (803750594685514463400000, 6800344164936585889000000, 16217949642443299681000);
  (6800344164936584778800000, 803750594685513908290000, 16217949642443299681000);
  (2395905240377902423200000, 6800344164936584778800000, 16217949642443299681000);
  (803750594685512242950000, 2395905240377904643600000, 16217949642443299681000);
  (1782914029925922738700000, 306183636824900254350000, 9424828591924543997100);
  (7910902333249176798800000, 1782914029925923016200000, 9424828591924543997100);
  (306183636824901017630000, 7910902333249177909000000, 9424828591924543997100);
  (7910902333249176798800000, 306183636824900254350000, 9424828591924543997100);
  (1782914029925923293800000, 7910902333249177909000000, 9424828591924543997100);
  (306183636824898519620000, 1782914029925925514200000, 9424828591924543997100);
  (2063496656308830279300000, 2063496656308833054900000, 23186744205609894146000);
  (5873006687382336110700000, 2063496656308831389600000, 23186744205609894146000);
  (2063496656308831944700000, 5873006687382338331100000, 23186744205609894146000);
  (1750845888069398337300000, 1750845888069400835300000, 20435302327436507402000);
  (6498308223861201105000000, 1750845888069399169900000, 20435302327436507402000);
  (1750845888069401667900000, 6498308223861201105000000, 20435302327436507402000);
  (2825866891204175113100000, 269421027814230988620000, 10903611938034914620000);
  (6904712080981594279900000, 2825866891204175113100000, 10903611938034914620000);
  (269421027814230606980000, 6904712080981596500400000, 10903611938034914620000);
  (6904712080981593169700000, 269421027814230988620000, 10903611938034914620000);
  (2825866891204175113100000, 6904712080981594279900000, 10903611938034914620000);
  (269421027814229496760000, 2825866891204177333600000, 10903611938034914620000);
  (1372571102587295532900000, 327972135469326506190000, 9172906195805227052100);
  (8299456761943376781300000, 1372571102587295810400000, 9172906195805227052100);
  (327972135469327685800000, 8299456761943379001800000, 9172906195805227052100);
  (8299456761943377891600000, 327972135469326506190000, 9172906195805227052100);
  (1372571102587295532900000, 8299456761943380112000000, 9172906195805227052100);
  (327972135469324493910000, 1372571102587298586000000, 9172906195805227052100);
  (4995045768679594044800000, 9908462640811379045600, 2415567615160131738600);
  (4995045768679594044800000, 4995045768679594600000000, 2415567615160131738600);
  (9908462640810800081700, 4995045768679596820400000, 2415567615160131738600);
  (1002544152365696106300000, 327271127336489636720000, 8136698977163551831100);
  (8670184720297813285600000, 1002544152365696245000000, 8136698977163551831100);
  (327271127336490330610000, 8670184720297815506000000, 8136698977163551831100);
  (8670184720297813285600000, 327271127336489636720000, 8136698977163551831100);
  (1002544152365697494000000, 8670184720297815506000000, 8136698977163551831100);
  (327271127336487485660000, 1002544152365699853300000, 8136698977163551831100);
  (517074765599652777510000, 151601013138725621010000, 4142664105863625378100);
  (9331324221261620977000000, 517074765599652846900000, 4142664105863625378100);
  (151601013138727425120000, 9331324221261622087200000, 4142664105863625378100);
  (9331324221261622087200000, 151601013138725621010000, 4142664105863625378100);
  (517074765599653818350000, 9331324221261622087200000, 4142664105863625378100);
  (151601013138723261790000, 517074765599656038790000, 4142664105863625378100);
  (2606148551376569200100000, 1708846529529775559700000, 25537450433838460549000);
  (5685004919093654685000000, 2606148551376569200100000, 25537450433838460549000);
  (1708846529529775559700000, 5685004919093656905500000, 25537450433838460549000);
  (5685004919093655795200000, 1708846529529775559700000, 25537450433838460549000);
  (2606148551376569200100000, 5685004919093656905500000, 25537450433838460549000);
  (1708846529529773616800000, 2606148551376570865500000, 25537450433838460549000);
  (2272143249599573033800000, 286632862041672348270000, 11195566794457779188000);
  (7441223888358753368900000, 2272143249599573311400000, 11195566794457779188000);
  (286632862041673042160000, 7441223888358755589300000, 11195566794457779188000);
  (7441223888358755589300000, 286632862041672348270000, 11195566794457779188000);
  (2272143249599573589000000, 7441223888358755589300000, 11195566794457779188000);
  (286632862041670266610000, 2272143249599576364500000, 11195566794457779188000);
  (3110404872350508997900000, 126956715659609486320000, 8200861822105200366400);
  (6762638411989881914700000, 3110404872350508997900000, 8200861822105200366400);
  (126956715659609087330000, 6762638411989884135200000, 8200861822105200366400);
  (6762638411989880804500000, 126956715659609486320000, 8200861822105200366400);
  (3110404872350510108200000, 6762638411989881914700000, 8200861822105200366400);
  (126956715659607977110000, 3110404872350511773500000, 8200861822105200366400);
  (552204190605027900320000, 552204190605031161600000, 8463050702776201989600);
  (8895591618789940868700000, 552204190605028247260000, 8463050702776201989600);
  (552204190605030675880000, 8895591618789943089100000, 8463050702776201989600);
  (1856238762990532198400000, 879015352488810713940000, 18358356965888702073000);
  (7264745884520656948900000, 1856238762990532198400000, 18358356965888702073000);
  (879015352488811685380000, 7264745884520658059100000, 18358356965888702073000);
  (7264745884520656948900000, 879015352488810713940000, 18358356965888702073000);
  (1856238762990533031100000, 7264745884520658059100000, 18358356965888702073000);
  (879015352488808077160000, 1856238762990534696400000, 18358356965888702073000);
  (658626437608177683900000, 307203461767424183810000, 7065024707997161809000);
  (9034170100624399069000000, 658626437608177267570000, 7065024707997161809000);
  (307203461767425189950000, 9034170100624400179300000, 7065024707997161809000);
  (9034170100624397958800000, 307203461767424183810000, 7065024707997161809000);
  (658626437608177961460000, 9034170100624400179300000, 7065024707997161809000);
  (307203461767421789900000, 658626437608180875790000, 7065024707997161809000);
  (3015904700953622730200000, 28145506398763843817000, 3822210004310395070300);
  (6955949792647613261200000, 3015904700953623285300000, 3822210004310395070300);
  (28145506398764563727000, 6955949792647615481700000, 3822210004310395070300);
  (6955949792647613261200000, 28145506398763843817000, 3822210004310395070300);
  (3015904700953622175100000, 6955949792647615481700000, 3822210004310395070300);
  (28145506398761788169000, 3015904700953625505700000, 3822210004310395070300);
  (2925426576542363155100000, 798394163722915967130000, 19770158130266025746000);
  (6276179259734721016500000, 2925426576542363155100000, 19770158130266025746000);
  (798394163722916383460000, 6276179259734722126800000, 19770158130266025746000);
  (6276179259734721016500000, 798394163722915967130000, 19770158130266025746000);
  (2925426576542363710200000, 6276179259734722126800000, 19770158130266025746000);
  (798394163722914163020000, 2925426576542365930700000, 19770158130266025746000);
  (273024847528849125280000, 133211979027671369860000, 3224167724785580732900);
  (9593763173443479175300000, 273024847528848778330000, 3224167724785580732900);
  (133211979027673121930000, 9593763173443480285500000, 3224167724785580732900);
  (9593763173443479175300000, 133211979027671369860000, 3224167724785580732900);
  (273024847528850478360000, 9593763173443480285500000, 3224167724785580732900);
  (133211979027668681040000, 273024847528853253920000, 3224167724785580732900);
  (2991527658365938924200000, 2991527658365940589600000, 34168776878490659220000);
  (4016944683268121041300000, 2991527658365940589600000, 34168776878490659220000);
  (2991527658365938924200000, 4016944683268122151500000, 34168776878490659220000);
  (3715719205775442346400000, 96021860181155580666000, 7773784512690392906700);
  (6188258934043402437200000, 3715719205775442346400000, 7773784512690392906700);
  (96021860181155216374000, 6188258934043404657600000, 7773784512690392906700);
  (6188258934043402437200000, 96021860181155580666000, 7773784512690392906700);
  (3715719205775442346400000, 6188258934043403547400000, 7773784512690392906700);
  (96021860181154383707000, 3715719205775444566900000, 7773784512690392906700);
  (2010073039936871031100000, 25024373852327069963000, 3132398962406130697000);
  (7964902586210802493100000, 2010073039936871308600000, 3132398962406130697000);
  (25024373852327030932000, 7964902586210804713600000, 3132398962406130697000);
  (7964902586210802493100000, 25024373852327069963000, 3132398962406130697000);
  (2010073039936871586200000, 7964902586210802493100000, 3132398962406130697000);
  (25024373852325226819000, 2010073039936874084200000, 3132398962406130697000);
  (2931831293722664266700000, 2017308280659965424900000, 29959028750869334118000);
  (5050860425617370586000000, 2931831293722664821800000, 29959028750869334118000);
  (2017308280659965147300000, 5050860425617371696200000, 29959028750869334118000);
  (5050860425617370586000000, 2017308280659965424900000, 29959028750869334118000);
  (2931831293722664266700000, 5050860425617371696200000, 29959028750869334118000);
  (2017308280659964314600000, 2931831293722665932000000, 29959028750869334118000);
  (2333318911036225684600000, 526776823006486205610000, 15292089072820073351000);
  (7139904265957287554700000, 2333318911036225962200000, 15292089072820073351000);
  (526776823006486760730000, 7139904265957289775100000, 15292089072820073351000);
  (7139904265957288664900000, 526776823006486205610000, 15292089072820073351000);
  (2333318911036226239700000, 7139904265957288664900000, 15292089072820073351000);
  (526776823006484262720000, 2333318911036229015300000, 15292089072820073351000);
  (1792991418970043271400000, 557691461107685942930000, 14982039520765651902000);
  (7649317119922270924400000, 1792991418970043271400000, 14982039520765651902000);
  (557691461107686636820000, 7649317119922272034700000, 14982039520765651902000);
  (7649317119922270924400000, 557691461107685942930000, 14982039520765651902000);
  (1792991418970043549000000, 7649317119922272034700000, 14982039520765651902000);
  (557691461107683722490000, 1792991418970046047000000, 14982039520765651902000);
  (3669822772564582114000000, 2660354454870835772000000, 34462523992934810009000);
  (3669822772564581558900000, 3669822772564583224200000, 34462523992934810009000);
  (2660354454870834661800000, 3669822772564583779300000, 34462523992934810009000);
  (2934353311290929800000000, 482367013092171934010000, 16166867916586153894000);
  (6583279675616897641500000, 2934353311290930355100000, 16166867916586153894000);
  (482367013092171448290000, 6583279675616900972200000, 16166867916586153894000);
  (6583279675616898751800000, 482367013092171934010000, 16166867916586153894000);
  (2934353311290930355100000, 6583279675616899862000000, 16166867916586153894000);
  (482367013092170615620000, 2934353311290932020400000, 16166867916586153894000);
  (3298405962756192355600000, 2336975835531221734600000, 33231821824899888777000);
  (4364618201712586187400000, 3298405962756193465800000, 33231821824899888777000);
  (2336975835531220346800000, 4364618201712587852700000, 33231821824899888777000);
  (4364618201712586187400000, 2336975835531221734600000, 33231821824899888777000);
  (3298405962756192355600000, 4364618201712587297600000, 33231821824899888777000);
  (2336975835531220624400000, 3298405962756194020900000, 33231821824899888777000);
  (1381756936115275946600000, 926621506087761254160000, 15974524664544324445000);
  (7691621557796961550200000, 1381756936115276224200000, 15974524664544324445000);
  (926621506087762503160000, 7691621557796963770700000, 15974524664544324445000);
  (7691621557796962660400000, 926621506087761254160000, 15974524664544324445000);
  (1381756936115277056800000, 7691621557796963770700000, 15974524664544324445000);
  (926621506087758756150000, 1381756936115278999700000, 15974524664544324445000);
  (3585128657761010861900000, 1734547681030723931300000, 30809958414888733748000);
  (4680323661208265484400000, 3585128657761011972100000, 30809958414888733748000);
  (1734547681030722821000000, 4680323661208267149700000, 30809958414888733748000);
  (4680323661208264929300000, 1734547681030723931300000, 30809958414888733748000);
  (3585128657761011417000000, 4680323661208266594600000, 30809958414888733748000);
  (1734547681030722543500000, 3585128657761013082400000, 30809958414888733748000);
  (4203377834665487644500000, 178508936465828042810000, 10919088656448762507000);
  (5618113228868684139200000, 4203377834665488199700000, 10919088656448762507000);
  (178508936465827106050000, 5618113228868687469800000, 10919088656448762507000);
  (5618113228868684139200000, 178508936465828042810000, 10919088656448762507000);
  (4203377834665487644500000, 5618113228868685249400000, 10919088656448762507000);
  (178508936465827106050000, 4203377834665490420100000, 10919088656448762507000);
  (2790511330034806114500000, 1199466924958471625300000, 24191143767986287433000);
  (6010021745006721705100000, 2790511330034807224700000, 24191143767986287433000);
  (1199466924958471070200000, 6010021745006723925500000, 24191143767986287433000);
  (6010021745006721705100000, 1199466924958471625300000, 24191143767986287433000);
  (2790511330034806669600000, 6010021745006722815300000, 24191143767986287433000);
  (1199466924958469682400000, 2790511330034808890100000, 24191143767986287433000);
  (934626722493710621050000, 139846172517608963860000, 5854717597540563854900);
  (8925527104988680848800000, 934626722493710759830000, 5854717597540563854900);
  (139846172517609779180000, 8925527104988681959000000, 5854717597540563854900);
  (8925527104988680848800000, 139846172517608963860000, 5854717597540563854900);
  (934626722493711037390000, 8925527104988681959000000, 5854717597540563854900);
  (139846172517606656680000, 934626722493713951720000, 5854717597540563854900);
  (3874089876890198791400000, 1193577643150774969500000, 27037484282199210697000);
  (4932332479959025683900000, 3874089876890199901600000, 27037484282199210697000);
  (1193577643150774692000000, 4932332479959027904400000, 27037484282199210697000);
  (4932332479959026794200000, 1193577643150774969500000, 27037484282199210697000);
  (3874089876890198791400000, 4932332479959027349300000, 27037484282199210697000);
  (1193577643150773859300000, 3874089876890201011900000, 27037484282199210697000);
  (4071846956615201573700000, 735846549853617637460000, 22666945618745127158000);
  (5192306493531181343900000, 4071846956615202128800000, 22666945618745127158000);
  (735846549853617082350000, 5192306493531183564400000, 22666945618745127158000);
  (5192306493531181343900000, 735846549853617637460000, 22666945618745127158000);
  (4071846956615202128800000, 5192306493531181343900000, 22666945618745127158000);
  (735846549853616527240000, 4071846956615203794200000, 22666945618745127158000);
  (1876405833897097086300000, 127167478485407797750000, 7634222222683195637600);
  (7996426687617494977200000, 1876405833897097086300000, 7634222222683195637600);
  (127167478485408214080000, 7996426687617497197600000, 7634222222683195637600);
  (7996426687617494977200000, 127167478485407797750000, 7634222222683195637600);
  (1876405833897096808700000, 7996426687617497197600000, 7634222222683195637600);
  (127167478485405577300000, 1876405833897099861800000, 7634222222683195637600);
  (2649216423903805184300000, 2649216423903806294500000, 31573284965164529967000);
  (4701567152192388521200000, 2649216423903805739400000, 31573284965164529967000);
  (2649216423903806294500000, 4701567152192389631400000, 31573284965164529967000);
  (1522255260382762986900000, 24403804076878502990000, 2992778793760558883800);
  (8453340935540357703500000, 1522255260382763264500000, 2992778793760558883800);
  (24403804076879032081000, 8453340935540361034100000, 2992778793760558883800);
  (8453340935540358813700000, 24403804076878502990000, 2992778793760558883800);
  (1522255260382763264500000, 8453340935540361034100000, 2992778793760558883800);
  (24403804076876534079000, 1522255260382766040000000, 2992778793760558883800);
  (1741420017865633607100000, 1298906259772944771200000, 21106687157036330832000);
  (6959673722361421344100000, 1741420017865634162200000, 21106687157036330832000);
  (1298906259772944493700000, 6959673722361423564600000, 21106687157036330832000);
  (6959673722361421344100000, 1298906259772944771200000, 21106687157036330832000);
  (1741420017865633607100000, 6959673722361423564600000, 21106687157036330832000);
  (1298906259772942550800000, 1741420017865636382700000, 21106687157036330832000);
  (3984690684139450267400000, 2030618631721099465200000, 32791537500989464265000);
  (3984690684139450267400000, 3984690684139451377600000, 32791537500989464265000);
  (2030618631721098077400000, 3984690684139451932700000, 32791537500989464265000);
  (3214081551755261223500000, 1438806303873045311400000, 27572811156697505687000);
  (5347112144371692910000000, 3214081551755262333700000, 27572811156697505687000);
  (1438806303873044756300000, 5347112144371695130500000, 27572811156697505687000);
  (5347112144371692910000000, 1438806303873045311400000, 27572811156697505687000);
  (3214081551755261778600000, 5347112144371694020300000, 27572811156697505687000);
  (1438806303873043368500000, 3214081551755263999000000, 27572811156697505687000);
  (888043361734264791170000, 588598092883567541870000, 11685889049553343285000);
  (8523358545382166973100000, 888043361734264513620000, 11685889049553343285000);
  (588598092883568790870000, 8523358545382169193500000, 11685889049553343285000);
  (8523358545382166973100000, 588598092883567541870000, 11685889049553343285000);
  (888043361734265346290000, 8523358545382169193500000, 11685889049553343285000);
  (588598092883564696920000, 888043361734267983070000, 11685889049553343285000);
  (1304289155517122100700000, 602973413848093622860000, 13939944763398509891000);
  (8092737430634784345800000, 1304289155517122100700000, 13939944763398509891000);
  (602973413848094108580000, 8092737430634785456000000, 13939944763398509891000);
  (8092737430634784345800000, 602973413848093622860000, 13939944763398509891000);
  (1304289155517122655900000, 8092737430634785456000000, 13939944763398509891000);
  (602973413848091333020000, 1304289155517125431400000, 13939944763398509891000);
  (4526201907514941780200000, 947596184970116300890000, 25084297429841086527000);
  (4526201907514941780200000, 4526201907514942335300000, 25084297429841086527000);
  (947596184970115329450000, 4526201907514944000600000, 25084297429841086527000);
  (1368379127222100200000000, 132254525993588060300000, 7152874976852851250700);
  (8499366346784311687700000, 1368379127222100200000000, 7152874976852851250700);
  (132254525993589222570000, 8499366346784312797900000, 7152874976852851250700);
  (8499366346784311687700000, 132254525993588060300000, 7152874976852851250700);
  (1368379127222100755100000, 8499366346784312797900000, 7152874976852851250700);
  (132254525993585891900000, 1368379127222103530700000, 7152874976852851250700);
  (3528533591796705892700000, 572712595019886847040000, 19860211209387248869000);
  (5898753813183408301100000, 3528533591796706447900000, 19860211209387248869000);
  (572712595019885806200000, 5898753813183410521500000, 19860211209387248869000);
  (5898753813183407190800000, 572712595019886847040000, 19860211209387248869000);
  (3528533591796705892700000, 5898753813183409411300000, 19860211209387248869000);
  (572712595019885528650000, 3528533591796708113200000, 19860211209387248869000);
  (2463869002171421573900000, 109336475862860226650000, 8115107146955448120400);
  (7426794521965718320900000, 2463869002171421851400000, 8115107146955448120400);
  (109336475862859550110000, 7426794521965721651600000, 8115107146955448120400);
  (7426794521965718320900000, 109336475862860226650000, 8115107146955448120400);
  (2463869002171422684100000, 7426794521965718320900000, 8115107146955448120400);
  (109336475862857884780000, 2463869002171424904500000, 8115107146955448120400);
  (4268610495333074461600000, 1462779009333851076800000, 29412545630876536784000);
  (4268610495333074461600000, 4268610495333075016700000, 29412545630876536784000);
  (1462779009333849689100000, 4268610495333076682000000, 29412545630876536784000);
  (3333333333333332593200000, 3333333333333334258500000, 34707348271925167991000);
  (3435200440594712856200000, 959251650895475566070000, 24154274389475475192000);
  (5605547908509811438900000, 3435200440594713411400000, 24154274389475475192000);
  (959251650895475149740000, 5605547908509813659400000, 24154274389475475192000);
  (5605547908509811438900000, 959251650895475566070000, 24154274389475475192000);
  (3435200440594712856200000, 5605547908509812549100000, 24154274389475475192000);
  (959251650895474317070000, 3435200440594715076700000, 24154274389475475192000);
  (4162089636364642020200000, 396704297157567664640000, 17698394080732534044000);
  (5441206066477789482500000, 4162089636364642575300000, 17698394080732534044000);
  (396704297157567387090000, 5441206066477792813200000, 17698394080732534044000);
  (5441206066477789482500000, 396704297157567664640000, 17698394080732534044000);
  (4162089636364642575300000, 5441206066477791703000000, 17698394080732534044000);
  (396704297157566831980000, 4162089636364644240600000, 17698394080732534044000);
  (945724371334943636480000, 945724371334946550820000, 15685717310821363935000);
  (8108551257330108841300000, 945724371334943636480000, 15685717310821363935000);
  (945724371334947799820000, 8108551257330111061700000, 15685717310821363935000);
  (4729894708688973104000000, 540210582622053375750000, 20465325739098374005000);
  (4729894708688974214200000, 4729894708688973659100000, 20465325739098374005000);
  (540210582622052404300000, 4729894708688975879500000, 20465325739098374005000);
  (390118106999857716670000, 27950477505294156824000, 1835329947090308595000);
  (9581931415494847614800000, 390118106999857161550000, 1835329947090308595000);
  (27950477505295778791000, 9581931415494849835200000, 1835329947090308595000);
  (9581931415494847614800000, 27950477505294156824000, 1835329947090308595000);
  (390118106999858826890000, 9581931415494849835200000, 1835329947090308595000);
  (27950477505291303204000, 390118106999861671840000, 1835329947090308595000);
  (1071807141346060726600000, 26666116526768831804000, 2854849547020912197700);
  (8901526742127170432900000, 1071807141346060310300000, 2854849547020912197700);
  (26666116526771199702000, 8901526742127170432900000, 2854849547020912197700);
  (8901526742127171543100000, 26666116526768831804000, 2854849547020912197700);
  (1071807141346060032700000, 8901526742127173763600000, 2854849547020912197700);
  (26666116526766273087000, 1071807141346063779700000, 2854849547020912197700);
  (4264238197063260904500000, 25395300762577864562000, 4380567695844115325500);
  (5710366502174161196200000, 4264238197063261459600000, 4380567695844115325500);
  (25395300762577344145000, 5710366502174163416700000, 4380567695844115325500);
  (5710366502174161196200000, 25395300762577864562000, 4380567695844115325500);
  (4264238197063261459600000, 5710366502174162306500000, 4380567695844115325500);
  (25395300762576789033000, 4264238197063263680100000, 4380567695844115325500);
  (340851411567991424700000, 340851411567994477810000, 6256573426602302177200);
  (9318297176864013264800000, 340851411567991285920000, 6256573426602302177200);
  (340851411567995588040000, 9318297176864015485300000, 6256573426602302177200);
  (3519601313638296424800000, 287313755582887971060000, 15435554874620842098000);
  (6193084930778816055200000, 3519601313638295869700000, 15435554874620842098000);
  (287313755582887520030000, 6193084930778818275600000, 15435554874620842098000);
  (6193084930778816055200000, 287313755582887971060000, 15435554874620842098000);
  (3519601313638296979900000, 6193084930778817165400000, 15435554874620842098000);
  (287313755582886409810000, 3519601313638298645300000, 15435554874620842098000);
  (4869989968257814605400000, 260020063484370789200000, 15279028851494166896000);
  (4869989968257815160500000, 4869989968257815715600000, 15279028851494166896000);
  (260020063484369956530000, 4869989968257816825800000, 15279028851494166896000)].

(** quad_rules_tria.cc:18315-19477 *)
Definition tab_46 : list (Z * Z * Z) := [
  (4791627094810211318100000, 416745810379577918960000, 7531811939497908090600);
  (4791627094810211318100000, 4791627094810211873200000, 7531811939497908090600);
  (416745810379576808740000, 4791627094810213538500000, 7531811939497908090600);
  (3979697646407098221600000, 1541231491660772501300000, 22268540934664970282000);
  (4479070861932128999600000, 3979697646407099886900000, 22268540934664970282000);
  (1541231491660771391100000, 4479070861932131220100000, 22268540934664970282000);
  (4479070861932128444500000, 1541231491660772501300000, 22268540934664970282000);
  (3979697646407098776700000, 4479070861932130109800000, 22268540934664970282000);
  (1541231491660771391100000, 3979697646407100442000000, 22268540934664970282000);
  (4143076079881757856100000, 1131367059240234174100000, 21600047623208142034000);
  (4725556860878007969800000, 4143076079881758966300000, 21600047623208142034000);
  (1131367059240233341500000, 4725556860878009080000000, 21600047623208142034000);
  (4725556860878007414700000, 1131367059240234174100000, 21600047623208142034000);
  (4143076079881758966300000, 4725556860878008524900000, 21600047623208142034000);
  (1131367059240233619000000, 4143076079881760076500000, 21600047623208142034000);
  (3297282498766236913400000, 730183277797032820320000, 15434398279694607533000);
  (5972534223436729572400000, 3297282498766238023600000, 15434398279694607533000);
  (730183277797032959100000, 5972534223436731792800000, 15434398279694607533000);
  (5972534223436730682600000, 730183277797032820320000, 15434398279694607533000);
  (3297282498766236913400000, 5972534223436730682600000, 15434398279694607533000);
  (730183277797031571320000, 3297282498766239133800000, 15434398279694607533000);
  (2257592423300577577600000, 1098033768073635591000000, 17151129077401620904000);
  (6644373808625786415000000, 2257592423300578132700000, 17151129077401620904000);
  (1098033768073635174600000, 6644373808625789745700000, 17151129077401620904000);
  (6644373808625786415000000, 1098033768073635591000000, 17151129077401620904000);
  (2257592423300578410300000, 6644373808625787525300000, 17151129077401620904000);
  (1098033768073633648100000, 2257592423300580353200000, 17151129077401620904000);
  (486830795833199034270000, 486830795833202018000000, 6237345908226707641800);
  (9026338408333598462000000, 486830795833199173050000, 6237345908226707641800);
  (486830795833201879220000, 9026338408333600682500000, 6237345908226707641800);
  (4868494344525785000300000, 263011310948430311610000, 10947581916500527446000);
  (4868494344525785555400000, 4868494344525785000300000, 10947581916500527446000);
  (263011310948429721800000, 4868494344525787220800000, 10947581916500527446000);
  (3286993475605236581000000, 1028358753710729572900000, 18913809911956275429000);
  (5684647770684033707400000, 3286993475605237136100000, 18913809911956275429000);
  (1028358753710729711600000, 5684647770684034817600000, 18913809911956275429000);
  (5684647770684033707400000, 1028358753710729572900000, 18913809911956275429000);
  (3286993475605236581000000, 5684647770684034817600000, 18913809911956275429000);
  (1028358753710728601400000, 3286993475605238801400000, 18913809911956275429000);
  (570245183292808974220000, 104550153444100853150000, 3352153200313035224900);
  (9325204663263090276700000, 570245183292808766050000, 3352153200313035224900);
  (104550153444102345010000, 9325204663263091386900000, 3352153200313035224900);
  (9325204663263090276700000, 104550153444100853150000, 3352153200313035224900);
  (570245183292810153830000, 9325204663263091386900000, 3352153200313035224900);
  (104550153444097522480000, 570245183292812027330000, 3352153200313035224900);
  (2181534906276070828700000, 1475222615460564101800000, 20870573836702641969000);
  (6343242478263364514400000, 2181534906276071383900000, 20870573836702641969000);
  (1475222615460564656900000, 6343242478263365624600000, 20870573836702641969000);
  (6343242478263364514400000, 1475222615460564101800000, 20870573836702641969000);
  (2181534906276071939000000, 6343242478263365624600000, 20870573836702641969000);
  (1475222615460562714000000, 2181534906276073049200000, 20870573836702641969000);
  (2023063458834635786100000, 521260968074300848340000, 12791833284880090721000);
  (7455675573091063990100000, 2023063458834636063600000, 12791833284880090721000);
  (521260968074300778950000, 7455675573091065100300000, 12791833284880090721000);
  (7455675573091062879900000, 521260968074300848340000, 12791833284880090721000);
  (2023063458834636341200000, 7455675573091065100300000, 12791833284880090721000);
  (521260968074298974840000, 2023063458834638839200000, 12791833284880090721000);
  (2132832098088079941800000, 800841957661688891300000, 15919934760616411603000);
  (7066325944250231305700000, 2132832098088080219300000, 15919934760616411603000);
  (800841957661689307630000, 7066325944250232415900000, 15919934760616411603000);
  (7066325944250231305700000, 800841957661688891300000, 15919934760616411603000);
  (2132832098088080496900000, 7066325944250232415900000, 15919934760616411603000);
  (800841957661687087190000, 2132832098088083272500000, 15919934760616411603000);
  (82133588712219682965000, 21607803546683061746000, 658585463976954320470);
  (9896258607741097446100000, 82133588712219353367000, 658585463976954320470);
  (21607803546684345442000, 9896258607741098556300000, 658585463976954320470);
  (9896258607741097446100000, 21607803546683061746000, 658585463976954320470);
  (82133588712220428896000, 9896258607741098556300000, 658585463976954320470);
  (21607803546680459661000, 82133588712223204453000, 658585463976954320470);
  (4615153616123003343900000, 113638023497272810940000, 8228361915530007500100);
  (5271208360379724400200000, 4615153616123003899000000, 8228361915530007500100);
  (113638023497272255820000, 5271208360379726620700000, 8228361915530007500100);
  (5271208360379723290000000, 113638023497272810940000, 8228361915530007500100);
  (4615153616123003343900000, 5271208360379724400200000, 8228361915530007500100);
  (113638023497271978270000, 4615153616123006119500000, 8228361915530007500100);
  (3546224673127056914400000, 1297785236176510481600000, 22977415466292751105000);
  (5155990090696431771300000, 3546224673127058024700000, 22977415466292751105000);
  (1297785236176509648900000, 5155990090696433991700000, 22977415466292751105000);
  (5155990090696432881500000, 1297785236176510481600000, 22977415466292751105000);
  (3546224673127058024700000, 5155990090696432881500000, 22977415466292751105000);
  (1297785236176509093800000, 3546224673127059690000000, 22977415466292751105000);
  (3109206435860316086700000, 489372786072454005190000, 14344300784078093183000);
  (6401420778067229422300000, 3109206435860316641900000, 14344300784078093183000);
  (489372786072454490910000, 6401420778067231642800000, 14344300784078093183000);
  (6401420778067229422300000, 489372786072454005190000, 14344300784078093183000);
  (3109206435860316086700000, 6401420778067231642800000, 14344300784078093183000);
  (489372786072452825580000, 3109206435860318862300000, 14344300784078093183000);
  (3049557841332306562500000, 1584175590074659578700000, 23633670304601113281000);
  (5366266568593034413900000, 3049557841332307117600000, 23633670304601113281000);
  (1584175590074659578700000, 5366266568593035524200000, 23633670304601113281000);
  (5366266568593034413900000, 1584175590074659578700000, 23633670304601113281000);
  (3049557841332306007400000, 5366266568593035524200000, 23633670304601113281000);
  (1584175590074657913300000, 3049557841332308783000000, 23633670304601113281000);
  (2507944375639041267900000, 1755000854384091146800000, 24043658844147552944000);
  (5737054769976868140400000, 2507944375639042378100000, 24043658844147552944000);
  (1755000854384090591700000, 5737054769976869250700000, 24043658844147552944000);
  (5737054769976868140400000, 1755000854384091146800000, 24043658844147552944000);
  (2507944375639041823000000, 5737054769976868140400000, 24043658844147552944000);
  (1755000854384089203900000, 2507944375639043488300000, 24043658844147552944000);
  (1962948092294495017200000, 1962948092294496960100000, 22663082591709128935000);
  (6074103815411007190100000, 1962948092294495294800000, 22663082591709128935000);
  (1962948092294496405000000, 6074103815411009410500000, 22663082591709128935000);
  (1657987165670959384100000, 1657987165670961882100000, 20560667756080457276000);
  (6684025668658077901100000, 1657987165670960216800000, 20560667756080457276000);
  (1657987165670962714800000, 6684025668658079011300000, 20560667756080457276000);
  (4338692218644805143100000, 531263813104962887010000, 15963835418467235694000);
  (5130043968250231900500000, 4338692218644805698200000, 15963835418467235694000);
  (531263813104962401290000, 5130043968250234121000000, 15963835418467235694000);
  (5130043968250231900500000, 531263813104962887010000, 15963835418467235694000);
  (4338692218644805698200000, 5130043968250231900500000, 15963835418467235694000);
  (531263813104962401290000, 4338692218644807363500000, 15963835418467235694000);
  (770376986253196172070000, 509089773583295684970000, 8743825251447149768400);
  (8720533240163508281700000, 770376986253196033290000, 8743825251447149768400);
  (509089773583296101300000, 8720533240163509392000000, 8743825251447149768400);
  (8720533240163508281700000, 509089773583295684970000, 8743825251447149768400);
  (770376986253196727180000, 8720533240163509392000000, 8743825251447149768400);
  (509089773583292909410000, 770376986253199225190000, 8743825251447149768400);
  (2768361860195224233300000, 111213995971377495320000, 7153351661915038038600);
  (7120424143833398167300000, 2768361860195224788400000, 7153351661915038038600);
  (111213995971378154510000, 7120424143833399277500000, 7153351661915038038600);
  (7120424143833398167300000, 111213995971377495320000, 7153351661915038038600);
  (2768361860195225898600000, 7120424143833398167300000, 7153351661915038038600);
  (111213995971375934070000, 2768361860195227564000000, 7153351661915038038600);
  (1736371621034214218800000, 117797536807179720200000, 6340876394676651017400);
  (8145830842158605644700000, 1736371621034214218800000, 6340876394676651017400);
  (117797536807180414090000, 8145830842158607865100000, 6340876394676651017400);
  (8145830842158605644700000, 117797536807179720200000, 6340876394676651017400);
  (1736371621034215051400000, 8145830842158607865100000, 6340876394676651017400);
  (117797536807177499750000, 1736371621034217549400000, 6340876394676651017400);
  (3354336886613769608300000, 118081263036933694490000, 7895168719558379177800);
  (6527581850349297720700000, 3354336886613769608300000, 7895168719558379177800);
  (118081263036933781230000, 6527581850349298830900000, 7895168719558379177800);
  (6527581850349296610500000, 118081263036933694490000, 7895168719558379177800);
  (3354336886613770163400000, 6527581850349297720700000, 7895168719558379177800);
  (118081263036932115900000, 3354336886613772383800000, 7895168719558379177800);
  (3750642184523966249400000, 512438839908936349940000, 16077226042160266180000);
  (5736918975567097955800000, 3750642184523967359600000, 16077226042160266180000);
  (512438839908935794830000, 5736918975567099066000000, 16077226042160266180000);
  (5736918975567097955800000, 512438839908936349940000, 16077226042160266180000);
  (3750642184523966804500000, 5736918975567097955800000, 16077226042160266180000);
  (512438839908935239720000, 3750642184523969024900000, 16077226042160266180000);
  (3467112861299004311600000, 1825412564761328404500000, 26988529110084772712000);
  (4707474573939667839000000, 3467112861299005421900000, 26988529110084772712000);
  (1825412564761327571800000, 4707474573939668949200000, 26988529110084772712000);
  (4707474573939667283900000, 1825412564761328404500000, 26988529110084772712000);
  (3467112861299004866700000, 4707474573939668394100000, 26988529110084772712000);
  (1825412564761326739100000, 3467112861299006532100000, 26988529110084772712000);
  (2559685112606641110800000, 539018714502928694700000, 15313526015054393543000);
  (6901296172890429847500000, 2559685112606641666000000, 15313526015054393543000);
  (539018714502929041640000, 6901296172890432068000000, 15313526015054393543000);
  (6901296172890430957700000, 539018714502928694700000, 15313526015054393543000);
  (2559685112606641666000000, 6901296172890430957700000, 15313526015054393543000);
  (539018714502926543640000, 2559685112606643886400000, 15313526015054393543000);
  (2920069207885316320300000, 273433134615536990730000, 11596092048187249448000);
  (6806497657499146480800000, 2920069207885316320300000, 11596092048187249448000);
  (273433134615537754010000, 6806497657499147591100000, 11596092048187249448000);
  (6806497657499146480800000, 273433134615536990730000, 11596092048187249448000);
  (2920069207885316875400000, 6806497657499147591100000, 11596092048187249448000);
  (273433134615534700900000, 2920069207885319095800000, 11596092048187249448000);
  (2364172395795755554600000, 297423818792802684140000, 11480501450886414737000);
  (7338403785411441449000000, 2364172395795755832200000, 11480501450886414737000);
  (297423818792802996390000, 7338403785411443669400000, 11480501450886414737000);
  (7338403785411441449000000, 297423818792802684140000, 11480501450886414737000);
  (2364172395795755554600000, 7338403785411443669400000, 11480501450886414737000);
  (297423818792800637170000, 2364172395795758607800000, 11480501450886414737000);
  (4661508981294354425600000, 21912946810573653324000, 3669051660355998720400);
  (5316578071895071699900000, 4661508981294355535900000, 3669051660355998720400);
  (21912946810573319389000, 5316578071895073920300000, 3669051660355998720400);
  (5316578071895071699900000, 21912946810573653324000, 3669051660355998720400);
  (4661508981294354425600000, 5316578071895072810100000, 3669051660355998720400);
  (21912946810573041834000, 4661508981294357201200000, 3669051660355998720400);
  (2234826291455856428500000, 125736658366042697300000, 7218801383704027485900);
  (7639437050178101706900000, 2234826291455856428500000, 7218801383704027485900);
  (125736658366042419740000, 7639437050178103927300000, 7218801383704027485900);
  (7639437050178101706900000, 125736658366042697300000, 7218801383704027485900);
  (2234826291455856428500000, 7639437050178102817100000, 7218801383704027485900);
  (125736658366040754410000, 2234826291455859204000000, 7218801383704027485900);
  (3973680138780005810500000, 115196691295125427930000, 8293331619821299894500);
  (5911123169924867859500000, 3973680138780006365600000, 8293331619821299894500);
  (115196691295124664660000, 5911123169924871190200000, 8293331619821299894500);
  (5911123169924868969700000, 115196691295125427930000, 8293331619821299894500);
  (3973680138780005810500000, 5911123169924870079900000, 8293331619821299894500);
  (115196691295124387100000, 3973680138780008586100000, 8293331619821299894500);
  (2856792432449899443700000, 2106680376667663390200000, 27853646540566229066000);
  (5036527190882436055800000, 2856792432449900553900000, 27853646540566229066000);
  (2106680376667662835100000, 5036527190882438276300000, 27853646540566229066000);
  (5036527190882436055800000, 2106680376667663390200000, 27853646540566229066000);
  (2856792432449899443700000, 5036527190882438276300000, 27853646540566229066000);
  (2106680376667662002400000, 2856792432449901109100000, 27853646540566229066000);
  (2290071177870446061900000, 2290071177870448004800000, 26681419989316580536000);
  (5419857644259105100600000, 2290071177870447172200000, 26681419989316580536000);
  (2290071177870448004800000, 5419857644259106210800000, 26681419989316580536000);
  (2998981018797285957900000, 2998981018797287623200000, 32378109639113060621000);
  (4002037962405426974000000, 2998981018797287068100000, 32378109639113060621000);
  (2998981018797285957900000, 4002037962405428084300000, 32378109639113060621000);
  (4009919122964067939000000, 21708502824680378854000, 3607187172322990492700);
  (5968372374211252662200000, 4009919122964068494100000, 3607187172322990492700);
  (21708502824679953846000, 5968372374211253772500000, 3607187172322990492700);
  (5968372374211252662200000, 21708502824680378854000, 3607187172322990492700);
  (4009919122964067383900000, 5968372374211252662200000, 3607187172322990492700);
  (21708502824679676291000, 4009919122964070159500000, 3607187172322990492700);
  (1562735104040767486500000, 557664223797979460850000, 13110639122073867828000);
  (7879600672161253260800000, 1562735104040767764000000, 13110639122073867828000);
  (557664223797980085350000, 7879600672161254371100000, 13110639122073867828000);
  (7879600672161253260800000, 557664223797979460850000, 13110639122073867828000);
  (1562735104040768319100000, 7879600672161254371100000, 13110639122073867828000);
  (557664223797977448570000, 1562735104040770817100000, 13110639122073867828000);
  (477858936846818488360000, 20979082703016307954000, 1517898016861911119800);
  (9501161980450164579200000, 477858936846818141420000, 1517898016861911119800);
  (20979082703018181455000, 9501161980450166799600000, 1517898016861911119800);
  (9501161980450165689400000, 20979082703016307954000, 1517898016861911119800);
  (477858936846819459810000, 9501161980450166799600000, 1517898016861911119800);
  (20979082703013463007000, 477858936846821680260000, 1517898016861911119800);
  (1822491599313740828800000, 290781975795925198840000, 10500435005742030353000);
  (7886726424890334596900000, 1822491599313740828800000, 10500435005742030353000);
  (290781975795925129450000, 7886726424890336817300000, 10500435005742030353000);
  (7886726424890333486700000, 290781975795925198840000, 10500435005742030353000);
  (1822491599313741939000000, 7886726424890334596900000, 10500435005742030353000);
  (290781975795923325330000, 1822491599313743881900000, 10500435005742030353000);
  (3660812614114253849000000, 2678374771771492857100000, 32641584727157056320000);
  (3660812614114253849000000, 3660812614114254404100000, 32641584727157056320000);
  (2678374771771491191800000, 3660812614114255514300000, 32641584727157056320000);
  (893475681919859154870000, 115829668440252560310000, 4831493093706654162200);
  (8990694649639887625600000, 893475681919858877310000, 4831493093706654162200);
  (115829668440253774620000, 8990694649639889846100000, 4831493093706654162200);
  (8990694649639888735800000, 115829668440252560310000, 4831493093706654162200);
  (893475681919859709980000, 8990694649639889846100000, 4831493093706654162200);
  (115829668440250166390000, 893475681919862485540000, 4831493093706654162200);
  (1652198812399127692000000, 874623616502727824210000, 16023361851144860175000);
  (7473177571098144067500000, 1652198812399127692000000, 16023361851144860175000);
  (874623616502728795650000, 7473177571098146287900000, 16023361851144860175000);
  (7473177571098144067500000, 874623616502727824210000, 16023361851144860175000);
  (1652198812399128247100000, 7473177571098146287900000, 16023361851144860175000);
  (874623616502725603760000, 1652198812399130190000000, 16023361851144860175000);
  (805280047391684350440000, 20785035982192664322000, 1961475226936707394900);
  (9173934916626123037300000, 805280047391684072890000, 1961475226936707394900);
  (20785035982194832727000, 9173934916626123037300000, 1961475226936707394900);
  (9173934916626121927100000, 20785035982192664322000, 1961475226936707394900);
  (805280047391685460670000, 9173934916626123037300000, 1961475226936707394900);
  (20785035982190253057000, 805280047391687958670000, 1961475226936707394900);
  (3305415015675990386700000, 2364777837447837594000000, 31287906040182397217000);
  (4329807146876172296900000, 3305415015675991496900000, 31287906040182397217000);
  (2364777837447836761300000, 4329807146876173407100000, 31287906040182397217000);
  (4329807146876172296900000, 2364777837447837594000000, 31287906040182397217000);
  (3305415015675990941800000, 4329807146876172852000000, 31287906040182397217000);
  (2364777837447836206200000, 3305415015675992052000000, 31287906040182397217000);
  (1750740132522936032300000, 1228090180537128872600000, 18906202570454584602000);
  (7021169686939935372600000, 1750740132522936587400000, 18906202570454584602000);
  (1228090180537129705300000, 7021169686939935372600000, 18906202570454584602000);
  (7021169686939934262400000, 1228090180537128872600000, 18906202570454584602000);
  (1750740132522936587400000, 7021169686939936482900000, 18906202570454584602000);
  (1228090180537126374600000, 1750740132522938807800000, 18906202570454584602000);
  (1133949730294223634500000, 550050284444838430420000, 11531809823860795627000);
  (8315999985260937865700000, 1133949730294223357000000, 11531809823860795627000);
  (550050284444839610030000, 8315999985260938975900000, 11531809823860795627000);
  (8315999985260937865700000, 550050284444838430420000, 11531809823860795627000);
  (1133949730294224189600000, 8315999985260938975900000, 11531809823860795627000);
  (550050284444836071200000, 1133949730294226271300000, 11531809823860795627000);
  (945442284064488130960000, 287935332271121169350000, 7982151686494688615900);
  (8766622383664390838500000, 945442284064487853400000, 7982151686494688615900);
  (287935332271122002010000, 8766622383664393058900000, 7982151686494688615900);
  (8766622383664390838500000, 287935332271121169350000, 7982151686494688615900);
  (945442284064488269730000, 8766622383664393058900000, 7982151686494688615900);
  (287935332271118393790000, 945442284064491045290000, 7982151686494688615900);
  (589589423608462975810000, 262933317918677932070000, 6244180067969696277000);
  (9147477258472858086000000, 589589423608462906420000, 6244180067969696277000);
  (262933317918678244320000, 9147477258472861416600000, 6244180067969696277000);
  (9147477258472859196200000, 262933317918677932070000, 6244180067969696277000);
  (589589423608462559480000, 9147477258472861416600000, 6244180067969696277000);
  (262933317918676023870000, 589589423608466445260000, 6244180067969696277000);
  (3554461171023696741700000, 283073273852235927920000, 12778142041472658787000);
  (6162465555124068128400000, 3554461171023697296800000, 12778142041472658787000);
  (283073273852235685060000, 6162465555124070348800000, 12778142041472658787000);
  (6162465555124067018200000, 283073273852235927920000, 12778142041472658787000);
  (3554461171023695631500000, 6162465555124069238600000, 12778142041472658787000);
  (283073273852234852390000, 3554461171023698962100000, 12778142041472658787000);
  (4206278444454288889500000, 281269388071388806720000, 13391424658452744448000);
  (5512452167474322095600000, 4206278444454289444600000, 13391424658452744448000);
  (281269388071388459770000, 5512452167474324316000000, 13391424658452744448000);
  (5512452167474322095600000, 281269388071388806720000, 13391424658452744448000);
  (4206278444454289444600000, 5512452167474323205800000, 13391424658452744448000);
  (281269388071387627100000, 4206278444454291665100000, 13391424658452744448000);
  (307693439520817652030000, 307693439520820566370000, 4858548500685609260400);
  (9384613120958361642800000, 307693439520817374480000, 4858548500685609260400);
  (307693439520821399040000, 9384613120958363863300000, 4858548500685609260400);
  (2763424771664457213500000, 21009010930692672073000, 3206950079168929628400);
  (7215566217404849602700000, 2763424771664457213500000, 3206950079168929628400);
  (21009010930693738928000, 7215566217404850712900000, 3206950079168929628400);
  (7215566217404850712900000, 21009010930692672073000, 3206950079168929628400);
  (2763424771664458323700000, 7215566217404850712900000, 3206950079168929628400);
  (21009010930690685814000, 2763424771664460544200000, 3206950079168929628400);
  (1358344051381372708000000, 305221004022598642320000, 9553586770292666436800);
  (8336434944596028406800000, 1358344051381372708000000, 9553586770292666436800);
  (305221004022599995410000, 8336434944596029517100000, 9553586770292666436800);
  (8336434944596029517100000, 305221004022598642320000, 9553586770292666436800);
  (1358344051381373818200000, 8336434944596029517100000, 9553586770292666436800);
  (305221004022596109630000, 1358344051381376038600000, 9553586770292666436800);
  (1214324449203872946500000, 881430419815303345390000, 15142824283244876813000);
  (7904245130980822597900000, 1214324449203872946500000, 15142824283244876813000);
  (881430419815304455610000, 7904245130980824818300000, 15142824283244876813000);
  (7904245130980823708100000, 881430419815303345390000, 15142824283244876813000);
  (1214324449203874056700000, 7904245130980824818300000, 15142824283244876813000);
  (881430419815300847390000, 1214324449203875860800000, 15142824283244876813000);
  (824986937635582839870000, 824986937635585615420000, 12193489507377076181000);
  (8350026124728830989600000, 824986937635582701090000, 12193489507377076181000);
  (824986937635586725650000, 8350026124728833210000000, 12193489507377076181000);
  (1292544813329482011900000, 125808072722038699620000, 5970097372568830551600);
  (8581647113948479566000000, 1292544813329482011900000, 5970097372568830551600);
  (125808072722038977180000, 8581647113948480676300000, 5970097372568830551600);
  (8581647113948479566000000, 125808072722038699620000, 5970097372568830551600);
  (1292544813329483122100000, 8581647113948479566000000, 5970097372568830551600);
  (125808072722036340400000, 1292544813329485620100000, 5970097372568830551600);
  (2729393183303263081800000, 838760556578321686550000, 19948930721100494555000);
  (6431846260118415648000000, 2729393183303263636900000, 19948930721100494555000);
  (838760556578321825330000, 6431846260118416758200000, 19948930721100494555000);
  (6431846260118414537700000, 838760556578321686550000, 19948930721100494555000);
  (2729393183303263636900000, 6431846260118416758200000, 19948930721100494555000);
  (838760556578320437550000, 2729393183303265302300000, 19948930721100494555000);
  (4608230043475881054800000, 783539913048237890440000, 20941020358881930544000);
  (4608230043475881054800000, 4608230043475881609900000, 20941020358881930544000);
  (783539913048236780210000, 4608230043475883830300000, 20941020358881930544000);
  (2762244316742869521000000, 1247916004447047894100000, 23870799382237615528000);
  (5989839678810082723700000, 2762244316742870631200000, 23870799382237615528000);
  (1247916004447047755300000, 5989839678810083833900000, 23870799382237615528000);
  (5989839678810082723700000, 1247916004447047894100000, 23870799382237615528000);
  (2762244316742869521000000, 5989839678810083833900000, 23870799382237615528000);
  (1247916004447046090000000, 2762244316742872296500000, 23870799382237615528000);
  (1665310619918010659500000, 22302492894394911581000, 2840506487653304042900);
  (8312386887187594997100000, 1665310619918010659500000, 2840506487653304042900);
  (22302492894394898570000, 8312386887187597217500000, 2840506487653304042900);
  (8312386887187593886800000, 22302492894394911581000, 2840506487653304042900);
  (1665310619918010104400000, 8312386887187597217500000, 2840506487653304042900);
  (22302492894392678124000, 1665310619918013435000000, 2840506487653304042900);
  (3373238618789555776100000, 22846671110010245524000, 3646448949457662173100);
  (6603914710100433627100000, 3373238618789556331200000, 3646448949457662173100);
  (22846671110011151917000, 6603914710100434737300000, 3646448949457662173100);
  (6603914710100433627100000, 22846671110010245524000, 3646448949457662173100);
  (3373238618789556331200000, 6603914710100434737300000, 3646448949457662173100);
  (22846671110009209027000, 3373238618789558551600000, 3646448949457662173100);
  (2666157086976967405300000, 2666157086976969070600000, 29931371482375471182000);
  (4667685826046064079300000, 2666157086976968515500000, 29931371482375471182000);
  (2666157086976968515500000, 4667685826046065189500000, 29931371482375471182000);
  (1284394349475122543100000, 1284394349475125318700000, 18867400782665308748000);
  (7431211301049752693300000, 1284394349475122820700000, 18867400782665308748000);
  (1284394349475125318700000, 7431211301049753803500000, 18867400782665308748000);
  (3899848376803787819400000, 831933025800658670910000, 21997780849930203238000);
  (5268218597395553093300000, 3899848376803788929700000, 21997780849930203238000);
  (831933025800657977020000, 5268218597395556424000000, 21997780849930203238000);
  (5268218597395553093300000, 831933025800658670910000, 21997780849930203238000);
  (3899848376803787819400000, 5268218597395554203500000, 21997780849930203238000);
  (831933025800656866800000, 3899848376803790595000000, 21997780849930203238000);
  (3333333333333332593200000, 3333333333333334258500000, 33175235616035771841000);
  (2190574020296069124300000, 24070310918325697747000, 3394794992886660824600);
  (7785355668785605143300000, 2190574020296069401900000, 3394794992886660824600);
  (24070310918326565108000, 7785355668785606253500000, 3394794992886660824600);
  (7785355668785605143300000, 24070310918325697747000, 3394794992886660824600);
  (2190574020296069401900000, 7785355668785606253500000, 3394794992886660824600);
  (24070310918323789551000, 2190574020296072177400000, 3394794992886660824600);
  (1203413424430903183600000, 24170636184783437367000, 2657220567030895721200);
  (8772415939384312633100000, 1203413424430903322400000, 2657220567030895721200);
  (24170636184784322076000, 8772415939384314853600000, 2657220567030895721200);
  (8772415939384312633100000, 24170636184783437367000, 2657220567030895721200);
  (1203413424430903599900000, 8772415939384314853600000, 2657220567030895721200);
  (24170636184781199574000, 1203413424430906514300000, 2657220567030895721200);
  (3975115754020482894400000, 2049768491959033656100000, 32408236272432663222000);
  (3975115754020484004600000, 3975115754020484559700000, 32408236272432663222000);
  (2049768491959032545900000, 3975115754020485114900000, 32408236272432663222000);
  (321434597854267645190000, 128868718184530495210000, 3237623317066694642600);
  (9549696683961200749400000, 321434597854267992130000, 3237623317066694642600);
  (128868718184532160540000, 9549696683961201859600000, 3237623317066694642600);
  (9549696683961201859600000, 128868718184530495210000, 3237623317066694642600);
  (321434597854268755410000, 9549696683961204080000000, 3237623317066694642600);
  (128868718184527615570000, 321434597854271184030000, 3237623317066694642600);
  (128796984358850331170000, 128796984358853471020000, 2246733551400219590300);
  (9742406031282295764100000, 128796984358850261780000, 2246733551400219590300);
  (128796984358854338380000, 9742406031282297984600000, 2246733551400219590300);
  (239783625881974243880000, 25873987120107176142000, 1306639730011501020300);
  (9734342386997918428200000, 239783625881973792850000, 1306639730011501020300);
  (25873987120109687154000, 9734342386997918428200000, 1306639730011501020300);
  (9734342386997918428200000, 25873987120107176142000, 1306639730011501020300);
  (239783625881975215320000, 9734342386997920648600000, 1306639730011501020300);
  (25873987120104031956000, 239783625881977643930000, 1306639730011501020300);
  (4929222424057992310600, 4929222424060967361300, 70476100679752367505);
  (9990141555151880181600000, 4929222424057761375500, 70476100679752367505);
  (4929222424062684737600, 9990141555151881291900000, 70476100679752367505)].
