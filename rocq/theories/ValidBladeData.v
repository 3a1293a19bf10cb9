(** Points of tests/test_datasets/blade_{up,down}_after_transformation_{reflect,no_reflect}.npy
    and planar_to_cylindrical_blade_{up,down}.npy: (place in the array, point, x, y, z), the
    coordinates times 10^10; of the 240 points of every section 0, 24, ..., 216 and 239. *)
From Coq Require Import List ZArith.
Import ListNotations.
Open Scope Z_scope.

Definition rows_up_reflect : list (nat * nat * Z * Z * Z) := [
  (0%nat, 0%nat, -1171444395, -1780104657, 12877547414);
  (0%nat, 24%nat, -1153842302, -2108384527, 12827888162);
  (0%nat, 48%nat, -1237418794, -2395123802, 12777456006);
  (0%nat, 72%nat, -1343076347, -2671931939, 12722451796);
  (0%nat, 96%nat, -1461687447, -2942383522, 12662637135);
  (0%nat, 120%nat, -1589018717, -3208085387, 12597943806);
  (0%nat, 144%nat, -1722636097, -3469920233, 12528353985);
  (0%nat, 168%nat, -1861116151, -3728366028, 12453886412);
  (0%nat, 192%nat, -2003757554, -3983615605, 12374603295);
  (0%nat, 216%nat, -2150452345, -4235633054, 12290622955);
  (0%nat, 239%nat, -2295222271, -4473903187, 12205908007);
  (1%nat, 0%nat, 96327492, 1816182120, 11861765573);
  (1%nat, 24%nat, 98668430, 814012685, 11972359139);
  (1%nat, 48%nat, -199228673, -54540486, 11999876055);
  (1%nat, 72%nat, -562649273, -892478649, 11966765723);
  (1%nat, 96%nat, -964508317, -1708398761, 11877768043);
  (1%nat, 120%nat, -1392243654, -2504580789, 11735717919);
  (1%nat, 144%nat, -1838632437, -3281058229, 11542731778);
  (1%nat, 168%nat, -2299450753, -4036642282, 11300686665);
  (1%nat, 192%nat, -2772617486, -4769320796, 11011520292);
  (1%nat, 216%nat, -3257812271, -5476482837, 10677459236);
  (1%nat, 239%nat, -3735216380, -6127430332, 10317683729);
  (2%nat, 0%nat, 646011189, 2583355714, 10692346480);
  (2%nat, 24%nat, 589161816, 1562163895, 10888509722);
  (2%nat, 48%nat, 230868256, 688138976, 10978454570);
  (2%nat, 72%nat, -193212027, -155062571, 10998907018);
  (2%nat, 96%nat, -655885174, -976775515, 10956546426);
  (2%nat, 120%nat, -1144538567, -1779299641, 10855141307);
  (2%nat, 144%nat, -1651920342, -2562452759, 10697375185);
  (2%nat, 168%nat, -2173789617, -3324697958, 10485532103);
  (2%nat, 192%nat, -2708056918, -4063578606, 10221904368);
  (2%nat, 216%nat, -3254400589, -4775967631, 9909093460);
  (2%nat, 239%nat, -3790455634, -5430491006, 9566073773);
  (3%nat, 0%nat, 1366086712, 3191252370, 9477125530);
  (3%nat, 24%nat, 1238903685, 2163322747, 9763197975);
  (3%nat, 48%nat, 811940579, 1295484560, 9915730924);
  (3%nat, 72%nat, 319553923, 458157809, 9989499058);
  (3%nat, 96%nat, -211212548, -358599939, 9993568236);
  (3%nat, 120%nat, -767815841, -1157037608, 9932837660);
  (3%nat, 144%nat, -1343044127, -1936716025, 9810664149);
  (3%nat, 168%nat, -1932679937, -2695721424, 9629801971);
  (3%nat, 192%nat, -2534645328, -3431127825, 9392942129);
  (3%nat, 216%nat, -3148620423, -4139268228, 9103101589);
  (3%nat, 239%nat, -3749420045, -4788455654, 8778991539);
  (4%nat, 0%nat, 2157164050, 3627627282, 8236523557);
  (4%nat, 24%nat, 1947403940, 2607614281, 8613962373);
  (4%nat, 48%nat, 1443156334, 1759391770, 8826354887);
  (4%nat, 72%nat, 874640222, 940915882, 8950680270);
  (4%nat, 96%nat, 268421887, 141811496, 8998882681);
  (4%nat, 120%nat, -363177124, -640060898, 8977211262);
  (4%nat, 144%nat, -1013072307, -1403997399, 8889813907);
  (4%nat, 168%nat, -1677120649, -2147722075, 8739982259);
  (4%nat, 192%nat, -2353280896, -2867862835, 8530847716);
  (4%nat, 216%nat, -3041238817, -3560239106, 8265875484);
  (4%nat, 239%nat, -3712719605, -4193341404, 7963409312);
  (5%nat, 0%nat, 2761271505, 4050988155, 6898513968);
  (5%nat, 24%nat, 2522859176, 3052064353, 7394924150);
  (5%nat, 48%nat, 1985580627, 2211788188, 7688172280);
  (5%nat, 72%nat, 1383077965, 1392720829, 7877837818);
  (5%nat, 96%nat, 742312487, 587123566, 7978426281);
  (5%nat, 120%nat, 75788948, -205054489, 7997371609);
  (5%nat, 144%nat, -609302807, -981290959, 7939588658);
  (5%nat, 168%nat, -1308758164, -1737639804, 7809008126);
  (5%nat, 192%nat, -2020505518, -2469156591, 7609419539);
  (5%nat, 216%nat, -2744225965, -3170182947, 7345062293);
  (5%nat, 239%nat, -3450160394, -3807765737, 7035689028);
  (6%nat, 0%nat, 3216952138, 4081763974, 5686756796);
  (6%nat, 24%nat, 2943823683, 3164618235, 6243812251);
  (6%nat, 48%nat, 2389216391, 2390899829, 6579027132);
  (6%nat, 72%nat, 1773179583, 1631426316, 6807234988);
  (6%nat, 96%nat, 1121106006, 880284712, 6944429338);
  (6%nat, 120%nat, 444772915, 138522194, 6998629266);
  (6%nat, 144%nat, -249048133, -590542253, 6975045509);
  (6%nat, 168%nat, -956397141, -1302316165, 6877788351);
  (6%nat, 192%nat, -1675323024, -1991291257, 6710794225);
  (6%nat, 216%nat, -2405525432, -2651302474, 6478471671);
  (6%nat, 239%nat, -3116952138, -3250596950, 6199485420);
  (7%nat, 0%nat, 3257484333, 3622426791, 4783097756);
  (7%nat, 24%nat, 2981852955, 2866244602, 5271113913);
  (7%nat, 48%nat, 2476621047, 2238983268, 5566592667);
  (7%nat, 72%nat, 1921281466, 1625368239, 5775653910);
  (7%nat, 96%nat, 1336546917, 1018915671, 5912851330);
  (7%nat, 120%nat, 732024035, 419325712, 5985329226);
  (7%nat, 144%nat, 113236334, -171653507, 5997544087);
  (7%nat, 168%nat, -516586038, -751094099, 5952802504);
  (7%nat, 192%nat, -1155851595, -1315179747, 5854084235);
  (7%nat, 216%nat, -1804315343, -1859399448, 5704615122);
  (7%nat, 239%nat, -2435262111, -2357689158, 5517363667);
  (8%nat, 0%nat, 2969784113, 2874852854, 4090870454);
  (8%nat, 24%nat, 2698167378, 2252058853, 4464104717);
  (8%nat, 48%nat, 2248171121, 1753057506, 4682604978);
  (8%nat, 72%nat, 1759245587, 1271636499, 4835591031);
  (8%nat, 96%nat, 1247482736, 800206744, 4935551557);
  (8%nat, 120%nat, 720346081, 336969101, 4988632260);
  (8%nat, 144%nat, 182126911, -117913807, 4998609440);
  (8%nat, 168%nat, -364665234, -563144370, 4968185626);
  (8%nat, 192%nat, -918793908, -996566921, 4899679007);
  (8%nat, 216%nat, -1480068770, -1415334147, 4795500939);
  (8%nat, 239%nat, -2025339669, -1799786303, 4664843970);
  (9%nat, 0%nat, 2391347461, 1957296597, 3488407951);
  (9%nat, 24%nat, 2133624990, 1458440295, 3724641178);
  (9%nat, 48%nat, 1747426827, 1080229248, 3851376997);
  (9%nat, 72%nat, 1333190324, 724216441, 3933892544);
  (9%nat, 96%nat, 902505519, 381707144, 3981745805);
  (9%nat, 120%nat, 460747919, 49560935, 3999692952);
  (9%nat, 144%nat, 11008270, -273423201, 3990644027);
  (9%nat, 168%nat, -444905959, -587333763, 3956644924);
  (9%nat, 192%nat, -906104235, -891437029, 3899402521);
  (9%nat, 216%nat, -1372449466, -1184338442, 3820646863);
  (9%nat, 239%nat, -1824680795, -1452755769, 3726862042)].
Definition rows_down_reflect : list (nat * nat * Z * Z * Z) := [
  (0%nat, 0%nat, -1171444395, -1780104657, 12877547414);
  (0%nat, 24%nat, -1414742464, -2004305935, 12844561406);
  (0%nat, 48%nat, -1556861947, -2268159357, 12800603624);
  (0%nat, 72%nat, -1676900369, -2539802119, 12749486468);
  (0%nat, 96%nat, -1783985244, -2815406040, 12691473076);
  (0%nat, 120%nat, -1882349949, -3093110465, 12626664946);
  (0%nat, 144%nat, -1974428544, -3371779337, 12555122624);
  (0%nat, 168%nat, -2061644466, -3650682293, 12476879369);
  (0%nat, 192%nat, -2144699037, -3929375293, 12391933255);
  (0%nat, 216%nat, -2223700222, -4207644127, 12300232961);
  (0%nat, 239%nat, -2295222271, -4473903187, 12205908007);
  (1%nat, 0%nat, 96327492, 1816182120, 11861765573);
  (1%nat, 24%nat, -675528534, 1172149971, 11942615478);
  (1%nat, 48%nat, -1147146518, 385418312, 11993808933);
  (1%nat, 72%nat, -1553241006, -433374634, 11992171881);
  (1%nat, 96%nat, -1920897049, -1267894624, 11932830478);
  (1%nat, 120%nat, -2262676799, -2108077800, 11813382580);
  (1%nat, 144%nat, -2585803103, -2946112733, 11632730538);
  (1%nat, 168%nat, -2894499875, -3775470138, 11390602497);
  (1%nat, 192%nat, -3190848229, -4590553132, 11087236894);
  (1%nat, 216%nat, -3475168532, -5386513174, 10723128080);
  (1%nat, 239%nat, -3735216380, -6127430332, 10317683729);
  (2%nat, 0%nat, 646011189, 2583355714, 10692346480);
  (2%nat, 24%nat, -188145326, 1972853512, 10821638001);
  (2%nat, 48%nat, -720857656, 1195717560, 10934818678);
  (2%nat, 72%nat, -1187783262, 377291399, 10993527696);
  (2%nat, 96%nat, -1616116004, -463876792, 10990214662);
  (2%nat, 120%nat, -2018468500, -1316141741, 10920978478);
  (2%nat, 144%nat, -2402092614, -2170283694, 10783778034);
  (2%nat, 168%nat, -2771229228, -3018461256, 10577754565);
  (2%nat, 192%nat, -3127967817, -3853850898, 10302807057);
  (2%nat, 216%nat, -3472630035, -4670459545, 9959257384);
  (2%nat, 239%nat, -3790455634, -5430491006, 9566073773);
  (3%nat, 0%nat, 1366086712, 3191252370, 9477125530);
  (3%nat, 24%nat, 465887628, 2629105550, 9648202113);
  (3%nat, 48%nat, -134531376, 1875443173, 9822561423);
  (3%nat, 72%nat, -669526830, 1070191465, 9942569599);
  (3%nat, 96%nat, -1166142469, 234030879, 9997261102);
  (3%nat, 120%nat, -1636921286, -619779953, 9980775161);
  (3%nat, 144%nat, -2089075110, -1480505148, 9889798001);
  (3%nat, 168%nat, -2526821411, -2338835226, 9722646234);
  (3%nat, 192%nat, -2952238130, -3186535942, 9478712396);
  (3%nat, 216%nat, -3365645144, -4016270163, 9158033303);
  (3%nat, 239%nat, -3749420045, -4788455654, 8778991539);
  (4%nat, 0%nat, 2157164050, 3627627282, 8236523557);
  (4%nat, 24%nat, 1188035392, 3129364132, 8438428771);
  (4%nat, 48%nat, 513394230, 2414948451, 8669949480);
  (4%nat, 72%nat, -96978425, 1637920961, 8849701403);
  (4%nat, 96%nat, -669648858, 820813252, 8962492154);
  (4%nat, 120%nat, -1216938614, -21591119, 8999974101);
  (4%nat, 144%nat, -1745932199, -877009211, 8957167791);
  (4%nat, 168%nat, -2260772624, -1734555050, 8831269375);
  (4%nat, 192%nat, -2763501145, -2584426722, 8620947658);
  (4%nat, 216%nat, -3254431991, -3417756061, 8325799872);
  (4%nat, 239%nat, -3712719605, -4193341404, 7963409312);
  (5%nat, 0%nat, 2761271505, 4050988155, 6898513968);
  (5%nat, 24%nat, 1752199603, 3582041109, 7153249716);
  (5%nat, 48%nat, 1041993922, 2887626687, 7460671023);
  (5%nat, 72%nat, 397012353, 2119685547, 7714073709);
  (5%nat, 96%nat, -209706400, 1301553456, 7893412355);
  (5%nat, 120%nat, -790667092, 449714479, 7987349804);
  (5%nat, 144%nat, -1353059568, -421303823, 7988898741);
  (5%nat, 168%nat, -1901088441, -1298043847, 7893990257);
  (5%nat, 192%nat, -2436825318, -2167957319, 7700646795);
  (5%nat, 216%nat, -2960589102, -3019354124, 7408339940);
  (5%nat, 239%nat, -3450160394, -3807765737, 7035689028);
  (6%nat, 0%nat, 3216952138, 4081763974, 5686756796);
  (6%nat, 24%nat, 2217999400, 3682508728, 5953077311);
  (6%nat, 48%nat, 1500525498, 3060431008, 6295535088);
  (6%nat, 72%nat, 844481113, 2359581674, 6590324296);
  (6%nat, 96%nat, 224473497, 1602195393, 6814174192);
  (6%nat, 120%nat, -371274607, 804692277, 6953594059);
  (6%nat, 144%nat, -949534752, -17888885, 6999977142);
  (6%nat, 168%nat, -1514266938, -851213908, 6948052596);
  (6%nat, 192%nat, -2067422248, -1681628489, 6795007404);
  (6%nat, 216%nat, -2609301034, -2496198601, 6539800650);
  (6%nat, 239%nat, -3116952138, -3250596950, 6199485420);
  (7%nat, 0%nat, 3257484333, 3622426791, 4783097756);
  (7%nat, 24%nat, 2389802618, 3323374736, 4995516026);
  (7%nat, 48%nat, 1751721433, 2831051699, 5290098891);
  (7%nat, 72%nat, 1163747921, 2271079533, 5553575223);
  (7%nat, 96%nat, 605169376, 1661488663, 5765366894);
  (7%nat, 120%nat, 66379165, 1015092405, 5913508891);
  (7%nat, 144%nat, -458146228, 343452598, 5990161960);
  (7%nat, 168%nat, -971636949, -342483086, 5990217470);
  (7%nat, 192%nat, -1475684485, -1032333264, 5910523499);
  (7%nat, 216%nat, -1970533830, -1716305284, 5749286579);
  (7%nat, 239%nat, -2435262111, -2357689158, 5517363667);
  (8%nat, 0%nat, 2969784113, 2874852854, 4090870454);
  (8%nat, 24%nat, 2238196072, 2659874115, 4233800856);
  (8%nat, 48%nat, 1684987553, 2277593500, 4451131075);
  (8%nat, 72%nat, 1170708310, 1840886718, 4648777914);
  (8%nat, 96%nat, 679266385, 1364896634, 4810099498);
  (8%nat, 120%nat, 203198264, 859693936, 4925538177);
  (8%nat, 144%nat, -261787342, 333993721, 4988832348);
  (8%nat, 168%nat, -718199973, -204177508, 4995829415);
  (8%nat, 192%nat, -1167276076, -747372718, 4943827871);
  (8%nat, 216%nat, -1609205990, -1288700749, 4831071349);
  (8%nat, 239%nat, -2025339669, -1799786303, 4664843970);
  (9%nat, 0%nat, 2391347461, 1957296597, 3488407951);
  (9%nat, 24%nat, 1802336224, 1818943834, 3562505204);
  (9%nat, 48%nat, 1341800679, 1537378047, 3692758960);
  (9%nat, 72%nat, 909303474, 1214719578, 3811096476);
  (9%nat, 96%nat, 493254570, 863934214, 3905588006);
  (9%nat, 120%nat, 88278462, 492908799, 3969513939);
  (9%nat, 144%nat, -308715597, 107992552, 3998541935);
  (9%nat, 168%nat, -699535076, -285281471, 3989813841);
  (9%nat, 192%nat, -1085070509, -682012307, 3941428575);
  (9%nat, 216%nat, -1465458986, -1077851996, 3852042974);
  (9%nat, 239%nat, -1824680795, -1452755769, 3726862042)].
Definition rows_up_no_reflect : list (nat * nat * Z * Z * Z) := [
  (0%nat, 0%nat, -2295222271, -4473903187, 12205908007);
  (0%nat, 24%nat, -2312824365, -4160735660, 12316179553);
  (0%nat, 48%nat, -2229247873, -3883883444, 12406266537);
  (0%nat, 72%nat, -2123590320, -3613653453, 12487654252);
  (0%nat, 96%nat, -2004979219, -3346777596, 12561810368);
  (0%nat, 120%nat, -1877647949, -3081805097, 12629429019);
  (0%nat, 144%nat, -1744030570, -2817948208, 12690908868);
  (0%nat, 168%nat, -1605550516, -2554793707, 12746490855);
  (0%nat, 192%nat, -1462909113, -2292200538, 12796320436);
  (0%nat, 216%nat, -1316214322, -2030255957, 12840485222);
  (0%nat, 239%nat, -1171444395, -1780104657, 12877547414);
  (1%nat, 0%nat, -3735216380, -6127430332, 10317683729);
  (1%nat, 24%nat, -3737557318, -5239664091, 10795643576);
  (1%nat, 48%nat, -3439660215, -4444663632, 11146522561);
  (1%nat, 72%nat, -3076239616, -3655337547, 11429720356);
  (1%nat, 96%nat, -2674380572, -2865490476, 11652852197);
  (1%nat, 120%nat, -2246645234, -2074070441, 11819400653);
  (1%nat, 144%nat, -1800256451, -1281839214, 11931340588);
  (1%nat, 168%nat, -1339438136, -490602184, 11989967035);
  (1%nat, 192%nat, -866271403, 297049134, 11996322845);
  (1%nat, 216%nat, -381076618, 1077859835, 11951494391);
  (1%nat, 239%nat, 96327492, 1816182120, 11861765573);
  (2%nat, 0%nat, -3790455634, -5430491006, 9566073773);
  (2%nat, 24%nat, -3733606261, -4502928344, 10036116596);
  (2%nat, 48%nat, -3375312701, -3687553828, 10363491051);
  (2%nat, 72%nat, -2951232417, -2882653937, 10615569051);
  (2%nat, 96%nat, -2488559270, -2081096598, 10801344220);
  (2%nat, 120%nat, -1999905877, -1281709856, 10925072990);
  (2%nat, 144%nat, -1492524102, -485408525, 10989284716);
  (2%nat, 168%nat, -970654827, 305700454, 10995751326);
  (2%nat, 192%nat, -436387527, 1088623771, 10945999191);
  (2%nat, 216%nat, 109956145, 1859638425, 10841667073);
  (2%nat, 239%nat, 646011189, 2583355714, 10692346480);
  (3%nat, 0%nat, -3749420045, -4788455654, 8778991539);
  (3%nat, 24%nat, -3622237018, -3825818550, 9239216007);
  (3%nat, 48%nat, -3195273913, -2997651843, 9540130158);
  (3%nat, 72%nat, -2702887256, -2185855670, 9758177852);
  (3%nat, 96%nat, -2172120786, -1382212913, 9904013705);
  (3%nat, 120%nat, -1615517492, -585359552, 9982853009);
  (3%nat, 144%nat, -1040289206, 203689006, 9997925324);
  (3%nat, 168%nat, -450653397, 982569794, 9951610754);
  (3%nat, 192%nat, 151311995, 1747934000, 9846051327);
  (3%nat, 216%nat, 765287090, 2495646441, 9683581406);
  (3%nat, 239%nat, 1366086712, 3191252370, 9477125530);
  (4%nat, 0%nat, -3712719605, -4193341404, 7963409312);
  (4%nat, 24%nat, -3502959495, -3202141903, 8411081216);
  (4%nat, 48%nat, -2998711889, -2370801373, 8682125365);
  (4%nat, 72%nat, -2430195777, -1562991751, 8863241889);
  (4%nat, 96%nat, -1823977443, -769196373, 8967069585);
  (4%nat, 120%nat, -1192378431, 12283140, 8999991618);
  (4%nat, 144%nat, -542483249, 780455261, 8966096675);
  (4%nat, 168%nat, 121565093, 1532819989, 8868509620);
  (4%nat, 192%nat, 797725340, 2265795010, 8710118999);
  (4%nat, 216%nat, 1485683261, 2974968216, 8494089952);
  (4%nat, 239%nat, 2157164050, 3627627282, 8236523557);
  (5%nat, 0%nat, -3450160394, -3807765737, 7035689028);
  (5%nat, 24%nat, -3211748065, -2792125987, 7496934872);
  (5%nat, 48%nat, -2674469516, -1942127483, 7760679148);
  (5%nat, 72%nat, -2071966854, -1116939846, 7921644108);
  (5%nat, 96%nat, -1431201376, -308322845, 7994056356);
  (5%nat, 120%nat, -764677837, 484033819, 7985343528);
  (5%nat, 144%nat, -79586082, 1257780832, 7900505514);
  (5%nat, 168%nat, 619869275, 2009111734, 7743608335);
  (5%nat, 192%nat, 1331616629, 2733217360, 7518611764);
  (5%nat, 216%nat, 2055337076, 3424590734, 7229950090);
  (5%nat, 239%nat, 2761271505, 4050988155, 6898513968);
  (6%nat, 0%nat, -3116952138, -3250596950, 6199485420);
  (6%nat, 24%nat, -2843823683, -2264849675, 6623477633);
  (6%nat, 48%nat, -2289216391, -1452008149, 6847749436);
  (6%nat, 72%nat, -1673179583, -668165385, 6968038104);
  (6%nat, 96%nat, -1021106006, 94759924, 6999358582);
  (6%nat, 120%nat, -344772915, 836846832, 6949797650);
  (6%nat, 144%nat, 349048133, 1555533849, 6824977249);
  (6%nat, 168%nat, 1056397141, 2246845247, 6629606809);
  (6%nat, 192%nat, 1775323024, 2905874190, 6368351058);
  (6%nat, 216%nat, 2505525432, 3527129172, 6046433643);
  (6%nat, 239%nat, 3216952138, 4081763974, 5686756796);
  (7%nat, 0%nat, -2435262111, -2357689158, 5517363667);
  (7%nat, 24%nat, -2159630733, -1505907018, 5807946630);
  (7%nat, 48%nat, -1654398825, -825795246, 5942900152);
  (7%nat, 72%nat, -1099059243, -179830714, 5997304471);
  (7%nat, 96%nat, -514324695, 441798682, 5983712387);
  (7%nat, 120%nat, 90198187, 1041112246, 5908983440);
  (7%nat, 144%nat, 708985888, 1617491898, 5777864654);
  (7%nat, 168%nat, 1338808260, 2168896660, 5594272721);
  (7%nat, 192%nat, 1978073818, 2692344443, 5362022137);
  (7%nat, 216%nat, 2626537566, 3184238642, 5085334234);
  (7%nat, 239%nat, 3257484333, 3622426791, 4783097756);
  (8%nat, 0%nat, -2025339669, -1799786303, 4664843970);
  (8%nat, 24%nat, -1753722933, -1105198405, 4876324075);
  (8%nat, 48%nat, -1303726677, -568159533, 4967614593);
  (8%nat, 72%nat, -814801143, -64028111, 4999590023);
  (8%nat, 96%nat, -303038292, 417580805, 4982532114);
  (8%nat, 120%nat, 224098363, 879899694, 4921968765);
  (8%nat, 144%nat, 762317534, 1323684334, 4821603445);
  (8%nat, 168%nat, 1309109679, 1748329460, 4684372327);
  (8%nat, 192%nat, 1863238352, 2152304258, 4513046242);
  (8%nat, 216%nat, 2424513215, 2533429352, 4310653746);
  (8%nat, 239%nat, 2969784113, 2874852854, 4090870454);
  (9%nat, 0%nat, -1824680795, -1452755769, 3726862042);
  (9%nat, 24%nat, -1566958323, -925876992, 3891368885);
  (9%nat, 48%nat, -1180760161, -533708452, 3964234515);
  (9%nat, 72%nat, -766523657, -169676392, 3996399620);
  (9%nat, 96%nat, -335838853, 176159514, 3996119096);
  (9%nat, 120%nat, 105918748, 507571060, 3967665765);
  (9%nat, 144%nat, 555658396, 826152569, 3913754199);
  (9%nat, 168%nat, 1011572626, 1132276415, 3836398066);
  (9%nat, 192%nat, 1472770901, 1425453566, 3737389748);
  (9%nat, 216%nat, 1939116133, 1704543813, 3618636537);
  (9%nat, 239%nat, 2391347461, 1957296597, 3488407951)].
Definition rows_down_no_reflect : list (nat * nat * Z * Z * Z) := [
  (0%nat, 0%nat, -2295222271, -4473903187, 12205908007);
  (0%nat, 24%nat, -2051924203, -4260459216, 12282039214);
  (0%nat, 48%nat, -1909804719, -4006853544, 12367098475);
  (0%nat, 72%nat, -1789766298, -3743009170, 12449493257);
  (0%nat, 96%nat, -1682681423, -3472429713, 12527658675);
  (0%nat, 120%nat, -1584316718, -3196805685, 12600810824);
  (0%nat, 144%nat, -1492238123, -2917168590, 12668469814);
  (0%nat, 168%nat, -1405022201, -2634178914, 12730322127);
  (0%nat, 192%nat, -1321967629, -2348227815, 12786157598);
  (0%nat, 216%nat, -1242966445, -2059480337, 12835830349);
  (0%nat, 239%nat, -1171444395, -1780104657, 12877547414);
  (1%nat, 0%nat, -3735216380, -6127430332, 10317683729);
  (1%nat, 24%nat, -2963360355, -5560581029, 10633905144);
  (1%nat, 48%nat, -2491742371, -4850313542, 10976085757);
  (1%nat, 72%nat, -2085647883, -4090528693, 11281293145);
  (1%nat, 96%nat, -1717991840, -3294545550, 11538889445);
  (1%nat, 120%nat, -1376212090, -2470795305, 11742877440);
  (1%nat, 144%nat, -1053085786, -1626109399, 11889313194);
  (1%nat, 168%nat, -744389014, -766439843, 11975498736);
  (1%nat, 192%nat, -448040660, 102934705, 11999558510);
  (1%nat, 216%nat, -163720357, 977333566, 11960134577);
  (1%nat, 239%nat, 96327492, 1816182120, 11861765573);
  (2%nat, 0%nat, -3790455634, -5430491006, 9566073773);
  (2%nat, 24%nat, -2956299118, -4879276197, 9858633972);
  (2%nat, 48%nat, -2423586789, -4163441996, 10181637920);
  (2%nat, 72%nat, -1956661183, -3392902676, 10463661474);
  (2%nat, 96%nat, -1528328441, -2583406718, 10692334157);
  (2%nat, 120%nat, -1125975944, -1745072988, 10860696122);
  (2%nat, 144%nat, -742351830, -886201479, 10964244020);
  (2%nat, 168%nat, -373215216, -14093113, 10999990972);
  (2%nat, 192%nat, -16476627, 864720755, 10965959056);
  (2%nat, 216%nat, 328185590, 1744390492, 10860805763);
  (2%nat, 239%nat, 646011189, 2583355714, 10692346480);
  (3%nat, 0%nat, -3749420045, -4788455654, 8778991539);
  (3%nat, 24%nat, -2849220962, -4264556244, 9045084855);
  (3%nat, 48%nat, -2248801957, -3552620868, 9347667354);
  (3%nat, 72%nat, -1713806504, -2780441944, 9605682828);
  (3%nat, 96%nat, -1217190864, -1966481597, 9804741207);
  (3%nat, 120%nat, -746412047, -1122779316, 9936768419);
  (3%nat, 144%nat, -294258223, -259332452, 9996636768);
  (3%nat, 168%nat, 143488078, 614983263, 9981071866);
  (3%nat, 192%nat, 568904796, 1492164167, 9888045616);
  (3%nat, 216%nat, 982311811, 2364978200, 9716320194);
  (3%nat, 239%nat, 1366086712, 3191252370, 9477125530);
  (4%nat, 0%nat, -3712719605, -4193341404, 7963409312);
  (4%nat, 24%nat, -2743590947, -3710376194, 8199579776);
  (4%nat, 48%nat, -2068949786, -3013850861, 8480371630);
  (4%nat, 72%nat, -1458577130, -2251255031, 8713888385);
  (4%nat, 96%nat, -885906698, -1444005641, 8883402935);
  (4%nat, 120%nat, -338616942, -606267933, 8979556737);
  (4%nat, 144%nat, 190376643, 250052421, 8996525651);
  (4%nat, 168%nat, 705217069, 1114291551, 8930753291);
  (4%nat, 192%nat, 1207945589, 1976764280, 8780227957);
  (4%nat, 216%nat, 1698876436, 2828652138, 8543929253);
  (4%nat, 239%nat, 2157164050, 3627627282, 8236523557);
  (5%nat, 0%nat, -3450160394, -3807765737, 7035689028);
  (5%nat, 24%nat, -2441088492, -3330214212, 7273903581);
  (5%nat, 48%nat, -1730882811, -2625493959, 7556902902);
  (5%nat, 72%nat, -1085901242, -1849177002, 7783350462);
  (5%nat, 96%nat, -479182489, -1025284467, 7934027462);
  (5%nat, 120%nat, 101778203, -170686037, 7998178935);
  (5%nat, 144%nat, 664170679, 699855722, 7969328828);
  (5%nat, 168%nat, 1212199552, 1572749401, 7843880374);
  (5%nat, 192%nat, 1747936429, 2435385356, 7620295150);
  (5%nat, 216%nat, 2271700213, 3276062151, 7298453041);
  (5%nat, 239%nat, 2761271505, 4050988155, 6898513968);
  (6%nat, 0%nat, -3116952138, -3250596950, 6199485420);
  (6%nat, 24%nat, -2117999400, -2818162576, 6407648531);
  (6%nat, 48%nat, -1400525498, -2154477963, 6660197047);
  (6%nat, 72%nat, -744481113, -1419422518, 6854578011);
  (6%nat, 96%nat, -124473497, -638253185, 6970841619);
  (6%nat, 120%nat, 471274607, 170892181, 6997913679);
  (6%nat, 144%nat, 1049534752, 991923317, 6929364194);
  (6%nat, 168%nat, 1614266938, 1809911978, 6761968547);
  (6%nat, 192%nat, 2167422248, 2610945248, 6494841408);
  (6%nat, 216%nat, 2709301034, 3382070104, 6128752060);
  (6%nat, 239%nat, 3216952138, 4081763974, 5686756796);
  (7%nat, 0%nat, -2435262111, -2357689158, 5517363667);
  (7%nat, 24%nat, -1567580395, -2016131597, 5651124966);
  (7%nat, 48%nat, -929499210, -1467166613, 5817853739);
  (7%nat, 72%nat, -341525698, -860087319, 5938034170);
  (7%nat, 96%nat, 217052846, -217366861, 5996061345);
  (7%nat, 120%nat, 755843058, 445667458, 5983425484);
  (7%nat, 144%nat, 1280368450, 1115900748, 5895317254);
  (7%nat, 168%nat, 1793859171, 1781474640, 5729428253);
  (7%nat, 192%nat, 2297906707, 2431553603, 5485211671);
  (7%nat, 216%nat, 2792756053, 3056201990, 5163296369);
  (7%nat, 239%nat, 3257484333, 3622426791, 4783097756);
  (8%nat, 0%nat, -2025339669, -1799786303, 4664843970);
  (8%nat, 24%nat, -1293751628, -1556615358, 4751520665);
  (8%nat, 48%nat, -740543108, -1133113172, 4869913196);
  (8%nat, 72%nat, -226263866, -661563350, 4956040147);
  (8%nat, 96%nat, 265178059, -160684982, 4997417367);
  (8%nat, 120%nat, 741246181, 357438181, 4987207430);
  (8%nat, 144%nat, 1206231787, 882835098, 4921443100);
  (8%nat, 168%nat, 1662644418, 1406713085, 4798036921);
  (8%nat, 192%nat, 2111720521, 1921192764, 4616169230);
  (8%nat, 216%nat, 2553650434, 2419162768, 4375802955);
  (8%nat, 239%nat, 2969784113, 2874852854, 4090870454);
  (9%nat, 0%nat, -1824680795, -1452755769, 3726862042);
  (9%nat, 24%nat, -1235669558, -1305437101, 3780983202);
  (9%nat, 48%nat, -775134012, -1008483674, 3870782954);
  (9%nat, 72%nat, -342636807, -672495896, 3943063437);
  (9%nat, 96%nat, 73412097, -311973672, 3987815496);
  (9%nat, 120%nat, 478388204, 64337720, 3999482549);
  (9%nat, 144%nat, 875382264, 449547904, 3974658058);
  (9%nat, 168%nat, 1266201743, 837779896, 3911281740);
  (9%nat, 192%nat, 1651737176, 1223915847, 3808153096);
  (9%nat, 216%nat, 2032125652, 1603463180, 3664547152);
  (9%nat, 239%nat, 2391347461, 1957296597, 3488407951)].
Definition rows_up_planar : list (nat * nat * Z * Z * Z) := [
  (0%nat, 0%nat, 0, 0, 13000000000);
  (0%nat, 24%nat, 1004184100, 468878577, 12991541590);
  (0%nat, 48%nat, 2008368201, 574027372, 12987320454);
  (0%nat, 72%nat, 3012552301, 599851293, 12986153334);
  (0%nat, 96%nat, 4016736402, 579153677, 12987092862);
  (0%nat, 120%nat, 5020920502, 527132107, 12989308363);
  (0%nat, 144%nat, 6025104603, 452517315, 12992121770);
  (0%nat, 168%nat, 7029288703, 360412877, 12995002984);
  (0%nat, 192%nat, 8033472803, 253332899, 12997531398);
  (0%nat, 216%nat, 9037656904, 131664248, 12999333234);
  (0%nat, 239%nat, 10000000000, 0, 13000000000);
  (1%nat, 0%nat, 0, 0, 12000000000);
  (1%nat, 24%nat, 1004184100, 468860919, 11990836895);
  (1%nat, 48%nat, 2008368201, 573994963, 11986264213);
  (1%nat, 72%nat, 3012552301, 599814308, 11984999908);
  (1%nat, 96%nat, 4016736402, 579120391, 11986017669);
  (1%nat, 120%nat, 5020920502, 527107012, 11988417669);
  (1%nat, 144%nat, 6025104603, 452501443, 11991465400);
  (1%nat, 168%nat, 7029288703, 360404859, 11994586626);
  (1%nat, 192%nat, 8033472803, 253330115, 11997325696);
  (1%nat, 216%nat, 9037656904, 131663857, 11999277671);
  (1%nat, 239%nat, 10000000000, 0, 12000000000);
  (2%nat, 0%nat, 0, 0, 11000000000);
  (2%nat, 24%nat, 1004184100, 468838229, 10990004127);
  (2%nat, 48%nat, 2008368201, 573953320, 10985016049);
  (2%nat, 72%nat, 3012552301, 599766785, 10983636912);
  (2%nat, 96%nat, 4016736402, 579077622, 10984747112);
  (2%nat, 120%nat, 5020920502, 527074768, 10987365116);
  (2%nat, 144%nat, 6025104603, 452481047, 10990689737);
  (2%nat, 168%nat, 7029288703, 360394556, 10994094586);
  (2%nat, 192%nat, 8033472803, 253326538, 10997082598);
  (2%nat, 216%nat, 9037656904, 131663355, 10999212006);
  (2%nat, 239%nat, 10000000000, 0, 11000000000);
  (3%nat, 0%nat, 0, 0, 10000000000);
  (3%nat, 24%nat, 1004184100, 468808399, 9989004890);
  (3%nat, 48%nat, 2008368201, 573898571, 9983518439);
  (3%nat, 72%nat, 3012552301, 599704306, 9982001540);
  (3%nat, 96%nat, 4016736402, 579021393, 9983222637);
  (3%nat, 120%nat, 5020920502, 527032375, 9986102186);
  (3%nat, 144%nat, 6025104603, 452454233, 9989759014);
  (3%nat, 168%nat, 7029288703, 360381011, 9993504167);
  (3%nat, 192%nat, 8033472803, 253321834, 9996790887);
  (3%nat, 216%nat, 9037656904, 131662694, 9999133209);
  (3%nat, 239%nat, 10000000000, 0, 10000000000);
  (4%nat, 0%nat, 0, 0, 9000000000);
  (4%nat, 24%nat, 1004184100, 468768083, 8987783736);
  (4%nat, 48%nat, 2008368201, 573824581, 8981688335);
  (4%nat, 72%nat, 3012552301, 599619868, 8980003119);
  (4%nat, 96%nat, 4016736402, 578945401, 8981359709);
  (4%nat, 120%nat, 5020920502, 526975083, 8984558824);
  (4%nat, 144%nat, 6025104603, 452417993, 8988621583);
  (4%nat, 168%nat, 7029288703, 360362703, 8992782591);
  (4%nat, 192%nat, 8033472803, 253315477, 8996434364);
  (4%nat, 216%nat, 9037656904, 131661802, 8999036902);
  (4%nat, 239%nat, 10000000000, 0, 9000000000);
  (5%nat, 0%nat, 0, 0, 8000000000);
  (5%nat, 24%nat, 1004184100, 468711724, 7986257529);
  (5%nat, 48%nat, 2008368201, 573721149, 7979401233);
  (5%nat, 72%nat, 3012552301, 599501834, 7977505722);
  (5%nat, 96%nat, 4016736402, 578839172, 7979031596);
  (5%nat, 120%nat, 5020920502, 526894993, 7982629997);
  (5%nat, 144%nat, 6025104603, 452367332, 7987199997);
  (5%nat, 168%nat, 7029288703, 360337110, 7991880703);
  (5%nat, 192%nat, 8033472803, 253306591, 7995988730);
  (5%nat, 216%nat, 9037656904, 131660554, 7998916520);
  (5%nat, 239%nat, 10000000000, 0, 8000000000);
  (6%nat, 0%nat, 0, 0, 7000000000);
  (6%nat, 24%nat, 1004184100, 468629527, 6984295696);
  (6%nat, 48%nat, 2008368201, 573570305, 6976461647);
  (6%nat, 72%nat, 3012552301, 599329697, 6974295944);
  (6%nat, 96%nat, 4016736402, 578684250, 6976039316);
  (6%nat, 120%nat, 5020920502, 526778188, 6980150768);
  (6%nat, 144%nat, 6025104603, 452293444, 6985372620);
  (6%nat, 168%nat, 7029288703, 360299783, 6990721284);
  (6%nat, 192%nat, 8033472803, 253293629, 6995415809);
  (6%nat, 216%nat, 9037656904, 131658735, 6998761746);
  (6%nat, 239%nat, 10000000000, 0, 7000000000);
  (7%nat, 0%nat, 0, 0, 6000000000);
  (7%nat, 24%nat, 1004184100, 468502900, 5981680787);
  (7%nat, 48%nat, 2008368201, 573337940, 5972544149);
  (7%nat, 72%nat, 3012552301, 599064535, 5970018566);
  (7%nat, 96%nat, 4016736402, 578445604, 5972051631);
  (7%nat, 120%nat, 5020920502, 526598251, 5976846516);
  (7%nat, 144%nat, 6025104603, 452179616, 5982936870);
  (7%nat, 168%nat, 7029288703, 360242275, 5989175695);
  (7%nat, 192%nat, 8033472803, 253273658, 5994651988);
  (7%nat, 216%nat, 9037656904, 131655931, 5998555386);
  (7%nat, 239%nat, 10000000000, 0, 6000000000);
  (8%nat, 0%nat, 0, 0, 5000000000);
  (8%nat, 24%nat, 1004184100, 468292939, 4978021869);
  (8%nat, 48%nat, 2008368201, 572952697, 4967064043);
  (8%nat, 72%nat, 3012552301, 598624930, 4964035475);
  (8%nat, 96%nat, 4016736402, 578049948, 4966473423);
  (8%nat, 120%nat, 5020920502, 526299916, 4972223688);
  (8%nat, 144%nat, 6025104603, 451990875, 4979528517);
  (8%nat, 168%nat, 7029288703, 360146913, 4987012553);
  (8%nat, 192%nat, 8033472803, 253240540, 4993582805);
  (8%nat, 216%nat, 9037656904, 131651282, 4998266493);
  (8%nat, 239%nat, 10000000000, 0, 5000000000);
  (9%nat, 0%nat, 0, 0, 4000000000);
  (9%nat, 24%nat, 1004184100, 467906567, 3972538665);
  (9%nat, 48%nat, 2008368201, 572243905, 3958855505);
  (9%nat, 72%nat, 3012552301, 597816164, 3955074694);
  (9%nat, 96%nat, 4016736402, 577322006, 3958118152);
  (9%nat, 120%nat, 5020920502, 525750972, 3965297708);
  (9%nat, 144%nat, 6025104603, 451643544, 3974420475);
  (9%nat, 168%nat, 7029288703, 359971400, 3983769646);
  (9%nat, 192%nat, 8033472803, 253179580, 3991979471);
  (9%nat, 216%nat, 9037656904, 131642723, 3997833187);
  (9%nat, 239%nat, 10000000000, 0, 4000000000)].
Definition rows_down_planar : list (nat * nat * Z * Z * Z) := [
  (0%nat, 0%nat, 0, 0, 13000000000);
  (0%nat, 24%nat, 1004184100, -468878577, 12991541590);
  (0%nat, 48%nat, 2008368201, -574027372, 12987320454);
  (0%nat, 72%nat, 3012552301, -599851293, 12986153334);
  (0%nat, 96%nat, 4016736402, -579153677, 12987092862);
  (0%nat, 120%nat, 5020920502, -527132107, 12989308363);
  (0%nat, 144%nat, 6025104603, -452517315, 12992121770);
  (0%nat, 168%nat, 7029288703, -360412877, 12995002984);
  (0%nat, 192%nat, 8033472803, -253332899, 12997531398);
  (0%nat, 216%nat, 9037656904, -131664248, 12999333234);
  (0%nat, 239%nat, 10000000000, 0, 13000000000);
  (1%nat, 0%nat, 0, 0, 12000000000);
  (1%nat, 24%nat, 1004184100, -468860919, 11990836895);
  (1%nat, 48%nat, 2008368201, -573994963, 11986264213);
  (1%nat, 72%nat, 3012552301, -599814308, 11984999908);
  (1%nat, 96%nat, 4016736402, -579120391, 11986017669);
  (1%nat, 120%nat, 5020920502, -527107012, 11988417669);
  (1%nat, 144%nat, 6025104603, -452501443, 11991465400);
  (1%nat, 168%nat, 7029288703, -360404859, 11994586626);
  (1%nat, 192%nat, 8033472803, -253330115, 11997325696);
  (1%nat, 216%nat, 9037656904, -131663857, 11999277671);
  (1%nat, 239%nat, 10000000000, 0, 12000000000);
  (2%nat, 0%nat, 0, 0, 11000000000);
  (2%nat, 24%nat, 1004184100, -468838229, 10990004127);
  (2%nat, 48%nat, 2008368201, -573953320, 10985016049);
  (2%nat, 72%nat, 3012552301, -599766785, 10983636912);
  (2%nat, 96%nat, 4016736402, -579077622, 10984747112);
  (2%nat, 120%nat, 5020920502, -527074768, 10987365116);
  (2%nat, 144%nat, 6025104603, -452481047, 10990689737);
  (2%nat, 168%nat, 7029288703, -360394556, 10994094586);
  (2%nat, 192%nat, 8033472803, -253326538, 10997082598);
  (2%nat, 216%nat, 9037656904, -131663355, 10999212006);
  (2%nat, 239%nat, 10000000000, 0, 11000000000);
  (3%nat, 0%nat, 0, 0, 10000000000);
  (3%nat, 24%nat, 1004184100, -468808399, 9989004890);
  (3%nat, 48%nat, 2008368201, -573898571, 9983518439);
  (3%nat, 72%nat, 3012552301, -599704306, 9982001540);
  (3%nat, 96%nat, 4016736402, -579021393, 9983222637);
  (3%nat, 120%nat, 5020920502, -527032375, 9986102186);
  (3%nat, 144%nat, 6025104603, -452454233, 9989759014);
  (3%nat, 168%nat, 7029288703, -360381011, 9993504167);
  (3%nat, 192%nat, 8033472803, -253321834, 9996790887);
  (3%nat, 216%nat, 9037656904, -131662694, 9999133209);
  (3%nat, 239%nat, 10000000000, 0, 10000000000);
  (4%nat, 0%nat, 0, 0, 9000000000);
  (4%nat, 24%nat, 1004184100, -468768083, 8987783736);
  (4%nat, 48%nat, 2008368201, -573824581, 8981688335);
  (4%nat, 72%nat, 3012552301, -599619868, 8980003119);
  (4%nat, 96%nat, 4016736402, -578945401, 8981359709);
  (4%nat, 120%nat, 5020920502, -526975083, 8984558824);
  (4%nat, 144%nat, 6025104603, -452417993, 8988621583);
  (4%nat, 168%nat, 7029288703, -360362703, 8992782591);
  (4%nat, 192%nat, 8033472803, -253315477, 8996434364);
  (4%nat, 216%nat, 9037656904, -131661802, 8999036902);
  (4%nat, 239%nat, 10000000000, 0, 9000000000);
  (5%nat, 0%nat, 0, 0, 8000000000);
  (5%nat, 24%nat, 1004184100, -468711724, 7986257529);
  (5%nat, 48%nat, 2008368201, -573721149, 7979401233);
  (5%nat, 72%nat, 3012552301, -599501834, 7977505722);
  (5%nat, 96%nat, 4016736402, -578839172, 7979031596);
  (5%nat, 120%nat, 5020920502, -526894993, 7982629997);
  (5%nat, 144%nat, 6025104603, -452367332, 7987199997);
  (5%nat, 168%nat, 7029288703, -360337110, 7991880703);
  (5%nat, 192%nat, 8033472803, -253306591, 7995988730);
  (5%nat, 216%nat, 9037656904, -131660554, 7998916520);
  (5%nat, 239%nat, 10000000000, 0, 8000000000);
  (6%nat, 0%nat, 0, 0, 7000000000);
  (6%nat, 24%nat, 1004184100, -468629527, 6984295696);
  (6%nat, 48%nat, 2008368201, -573570305, 6976461647);
  (6%nat, 72%nat, 3012552301, -599329697, 6974295944);
  (6%nat, 96%nat, 4016736402, -578684250, 6976039316);
  (6%nat, 120%nat, 5020920502, -526778188, 6980150768);
  (6%nat, 144%nat, 6025104603, -452293444, 6985372620);
  (6%nat, 168%nat, 7029288703, -360299783, 6990721284);
  (6%nat, 192%nat, 8033472803, -253293629, 6995415809);
  (6%nat, 216%nat, 9037656904, -131658735, 6998761746);
  (6%nat, 239%nat, 10000000000, 0, 7000000000);
  (7%nat, 0%nat, 0, 0, 6000000000);
  (7%nat, 24%nat, 1004184100, -468502900, 5981680787);
  (7%nat, 48%nat, 2008368201, -573337940, 5972544149);
  (7%nat, 72%nat, 3012552301, -599064535, 5970018566);
  (7%nat, 96%nat, 4016736402, -578445604, 5972051631);
  (7%nat, 120%nat, 5020920502, -526598251, 5976846516);
  (7%nat, 144%nat, 6025104603, -452179616, 5982936870);
  (7%nat, 168%nat, 7029288703, -360242275, 5989175695);
  (7%nat, 192%nat, 8033472803, -253273658, 5994651988);
  (7%nat, 216%nat, 9037656904, -131655931, 5998555386);
  (7%nat, 239%nat, 10000000000, 0, 6000000000);
  (8%nat, 0%nat, 0, 0, 5000000000);
  (8%nat, 24%nat, 1004184100, -468292939, 4978021869);
  (8%nat, 48%nat, 2008368201, -572952697, 4967064043);
  (8%nat, 72%nat, 3012552301, -598624930, 4964035475);
  (8%nat, 96%nat, 4016736402, -578049948, 4966473423);
  (8%nat, 120%nat, 5020920502, -526299916, 4972223688);
  (8%nat, 144%nat, 6025104603, -451990875, 4979528517);
  (8%nat, 168%nat, 7029288703, -360146913, 4987012553);
  (8%nat, 192%nat, 8033472803, -253240540, 4993582805);
  (8%nat, 216%nat, 9037656904, -131651282, 4998266493);
  (8%nat, 239%nat, 10000000000, 0, 5000000000);
  (9%nat, 0%nat, 0, 0, 4000000000);
  (9%nat, 24%nat, 1004184100, -467906567, 3972538665);
  (9%nat, 48%nat, 2008368201, -572243905, 3958855505);
  (9%nat, 72%nat, 3012552301, -597816164, 3955074694);
  (9%nat, 96%nat, 4016736402, -577322006, 3958118152);
  (9%nat, 120%nat, 5020920502, -525750972, 3965297708);
  (9%nat, 144%nat, 6025104603, -451643544, 3974420475);
  (9%nat, 168%nat, 7029288703, -359971400, 3983769646);
  (9%nat, 192%nat, 8033472803, -253179580, 3991979471);
  (9%nat, 216%nat, 9037656904, -131642723, 3997833187);
  (9%nat, 239%nat, 10000000000, 0, 4000000000)].

(** tests/test_blade.py 339-389. *)
Definition rows_rotate_deg_section_0 : list (nat * nat * Z * Z * Z) := [
  (0%nat, 0%nat, 2969784000, -4090870000, 2874853000);
  (0%nat, 1%nat, 2653103000, -4491220000, 2197486000);
  (0%nat, 2%nat, 2146533000, -4720087000, 1649479000);
  (0%nat, 3%nat, 1597801000, -4872923000, 1120097000);
  (0%nat, 4%nat, 1024542000, -4963637000, 601922000);
  (0%nat, 5%nat, 434981000, -4999122000, 93686000);
  (0%nat, 6%nat, -166326000, -4983684000, -403600000);
  (0%nat, 7%nat, -777027000, -4920609000, -887472000);
  (0%nat, 8%nat, -1396447000, -4813081000, -1354346000);
  (0%nat, 9%nat, -2025340000, -4664844000, -1799786000)].
Definition rows_rotate_rad : list (nat * nat * Z * Z * Z) := [
  (1%nat, 0%nat, 2391347500, -3488408000, 1957296600);
  (1%nat, 1%nat, 1751243900, -3576312000, 1791645900);
  (1%nat, 2%nat, 1247905300, -3719492000, 1471521700);
  (1%nat, 3%nat, 774933300, -3844258000, 1105296900);
  (1%nat, 4%nat, 319626800, -3936846000, 707987700);
  (1%nat, 5%nat, -123938600, -3989522000, 289337900);
  (1%nat, 6%nat, -559044700, -3997457000, -142623200);
  (1%nat, 7%nat, -987383600, -3957593000, -580913700);
  (1%nat, 8%nat, -1409443500, -3867917000, -1019421200);
  (1%nat, 9%nat, -1824680800, -3726862000, -1452755800)].
