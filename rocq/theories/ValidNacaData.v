(** Coordinates of foils recorded by the authors of the library, copied from
    tests/test_datasets/naca*.npy and rounded to ten decimals: the row
    (xup, yup, xdown, ydown) for every point, in units of 10^-10. *)
From Coq Require Import ZArith List.
Import ListNotations.
Open Scope Z_scope.

(** tests/test_datasets/naca4_0012_*.npy. *)
Definition rows_naca_0012 : list (Z * Z * Z * Z) :=
  [(0, 0, 0, 0); (41841004, 112029200, 41841004, -112029200); (83682008, 156485587, 83682008, -156485587);
   (125523013, 189764236, 125523013, -189764236); (167364017, 217222688, 167364017, -217222688); (209205021, 240936592, 209205021, -240936592);
   (251046025, 261970818, 251046025, -261970818); (292887029, 280958239, 292887029, -280958239); (334728033, 298311456, 334728033, -298311456);
   (376569038, 314317278, 376569038, -314317278); (418410042, 329184716, 418410042, -329184716); (460251046, 343071730, 460251046, -343071730);
   (502092050, 356101190, 502092050, -356101190); (543933054, 368370946, 543933054, -368370946); (585774059, 379960466, 585774059, -379960466);
   (627615063, 390935355, 627615063, -390935355); (669456067, 401350552, 669456067, -401350552); (711297071, 411252631, 711297071, -411252631);
   (753138075, 420681496, 753138075, -420681496); (794979079, 429671666, 794979079, -429671666); (836820084, 438253255, 836820084, -438253255);
   (878661088, 446452732, 878661088, -446452732); (920502092, 454293521, 920502092, -454293521); (962343096, 461796482, 962343096, -461796482);
   (1004184100, 468980295, 1004184100, -468980295); (1046025105, 475861775, 1046025105, -475861775); (1087866109, 482456130, 1087866109, -482456130);
   (1129707113, 488777176, 1129707113, -488777176); (1171548117, 494837512, 1171548117, -494837512); (1213389121, 500648674, 1213389121, -500648674);
   (1255230126, 506221260, 1255230126, -506221260); (1297071130, 511565039, 1297071130, -511565039); (1338912134, 516689040, 1338912134, -516689040);
   (1380753138, 521601638, 1380753138, -521601638); (1422594142, 526310618, 1422594142, -526310618); (1464435146, 530823234, 1464435146, -530823234);
   (1506276151, 535146266, 1506276151, -535146266); (1548117155, 539286060, 1548117155, -539286060); (1589958159, 543248572, 1589958159, -543248572);
   (1631799163, 547039403, 1631799163, -547039403); (1673640167, 550663827, 1673640167, -550663827); (1715481172, 554126823, 1715481172, -554126823);
   (1757322176, 557433098, 1757322176, -557433098); (1799163180, 560587110, 1799163180, -560587110); (1841004184, 563593086, 1841004184, -563593086);
   (1882845188, 566455040, 1882845188, -566455040); (1924686192, 569176792, 1924686192, -569176792); (1966527197, 571761979, 1966527197, -571761979);
   (2008368201, 574214071, 2008368201, -574214071); (2050209205, 576536380, 2050209205, -576536380); (2092050209, 578732074, 2092050209, -578732074);
   (2133891213, 580804183, 2133891213, -580804183); (2175732218, 582755612, 2175732218, -582755612); (2217573222, 584589145, 2217573222, -584589145);
   (2259414226, 586307458, 2259414226, -586307458); (2301255230, 587913119, 2301255230, -587913119); (2343096234, 589408602, 2343096234, -589408602);
   (2384937238, 590796284, 2384937238, -590796284); (2426778243, 592078461, 2426778243, -592078461); (2468619247, 593257341, 2468619247, -593257341);
   (2510460251, 594335060, 2510460251, -594335060); (2552301255, 595313676, 2552301255, -595313676); (2594142259, 596195182, 2594142259, -596195182);
   (2635983264, 596981504, 2635983264, -596981504); (2677824268, 597674504, 2677824268, -597674504); (2719665272, 598275988, 2719665272, -598275988);
   (2761506276, 598787704, 2761506276, -598787704); (2803347280, 599211346, 2803347280, -599211346); (2845188285, 599548560, 2845188285, -599548560);
   (2887029289, 599800940, 2887029289, -599800940); (2928870293, 599970037, 2928870293, -599970037); (2970711297, 600057355, 2970711297, -600057355);
   (3012552301, 600064357, 3012552301, -600064357); (3054393305, 599992466, 3054393305, -599992466); (3096234310, 599843066, 3096234310, -599843066);
   (3138075314, 599617504, 3138075314, -599617504); (3179916318, 599317091, 3179916318, -599317091); (3221757322, 598943104, 3221757322, -598943104);
   (3263598326, 598496787, 3263598326, -598496787); (3305439331, 597979353, 3305439331, -597979353); (3347280335, 597391985, 3347280335, -597391985);
   (3389121339, 596735835, 3389121339, -596735835); (3430962343, 596012029, 3430962343, -596012029); (3472803347, 595221663, 3472803347, -595221663);
   (3514644351, 594365811, 3514644351, -594365811); (3556485356, 593445518, 3556485356, -593445518); (3598326360, 592461805, 3598326360, -592461805);
   (3640167364, 591415672, 3640167364, -591415672); (3682008368, 590308092, 3682008368, -590308092); (3723849372, 589140020, 3723849372, -589140020);
   (3765690377, 587912387, 3765690377, -587912387); (3807531381, 586626103, 3807531381, -586626103); (3849372385, 585282060, 3849372385, -585282060);
   (3891213389, 583881128, 3891213389, -583881128); (3933054393, 582424159, 3933054393, -582424159); (3974895397, 580911986, 3974895397, -580911986);
   (4016736402, 579345425, 4016736402, -579345425); (4058577406, 577725275, 4058577406, -577725275); (4100418410, 576052315, 4100418410, -576052315);
   (4142259414, 574327310, 4142259414, -574327310); (4184100418, 572551008, 4184100418, -572551008); (4225941423, 570724142, 4225941423, -570724142);
   (4267782427, 568847428, 4267782427, -568847428); (4309623431, 566921569, 4309623431, -566921569); (4351464435, 564947252, 4351464435, -564947252);
   (4393305439, 562925149, 4393305439, -562925149); (4435146444, 560855921, 4435146444, -560855921); (4476987448, 558740212, 4476987448, -558740212);
   (4518828452, 556578653, 4518828452, -556578653); (4560669456, 554371865, 4560669456, -554371865); (4602510460, 552120453, 4602510460, -552120453);
   (4644351464, 549825011, 4644351464, -549825011); (4686192469, 547486119, 4686192469, -547486119); (4728033473, 545104347, 4728033473, -545104347);
   (4769874477, 542680251, 4769874477, -542680251); (4811715481, 540214379, 4811715481, -540214379); (4853556485, 537707263, 4853556485, -537707263);
   (4895397490, 535159427, 4895397490, -535159427); (4937238494, 532571383, 4937238494, -532571383); (4979079498, 529943632, 4979079498, -529943632);
   (5020920502, 527276665, 5020920502, -527276665); (5062761506, 524570961, 5062761506, -524570961); (5104602510, 521826991, 5104602510, -521826991);
   (5146443515, 519045215, 5146443515, -519045215); (5188284519, 516226081, 5188284519, -516226081); (5230125523, 513370031, 5230125523, -513370031);
   (5271966527, 510477494, 5271966527, -510477494); (5313807531, 507548892, 5313807531, -507548892); (5355648536, 504584635, 5355648536, -504584635);
   (5397489540, 501585126, 5397489540, -501585126); (5439330544, 498550758, 5439330544, -498550758); (5481171548, 495481915, 5481171548, -495481915);
   (5523012552, 492378972, 5523012552, -492378972); (5564853556, 489242295, 5564853556, -489242295); (5606694561, 486072243, 5606694561, -486072243);
   (5648535565, 482869163, 5648535565, -482869163); (5690376569, 479633398, 5690376569, -479633398); (5732217573, 476365279, 5732217573, -476365279);
   (5774058577, 473065130, 5774058577, -473065130); (5815899582, 469733268, 5815899582, -469733268); (5857740586, 466370000, 5857740586, -466370000);
   (5899581590, 462975626, 5899581590, -462975626); (5941422594, 459550438, 5941422594, -459550438); (5983263598, 456094720, 5983263598, -456094720);
   (6025104603, 452608749, 6025104603, -452608749); (6066945607, 449092793, 6066945607, -449092793); (6108786611, 445547114, 6108786611, -445547114);
   (6150627615, 441971965, 6150627615, -441971965); (6192468619, 438367593, 6192468619, -438367593); (6234309623, 434734235, 6234309623, -434734235);
   (6276150628, 431072125, 6276150628, -431072125); (6317991632, 427381486, 6317991632, -427381486); (6359832636, 423662534, 6359832636, -423662534);
   (6401673640, 419915481, 6401673640, -419915481); (6443514644, 416140529, 6443514644, -416140529); (6485355649, 412337874, 6485355649, -412337874);
   (6527196653, 408507705, 6527196653, -408507705); (6569037657, 404650203, 6569037657, -404650203); (6610878661, 400765545, 6610878661, -400765545);
   (6652719665, 396853898, 6652719665, -396853898); (6694560669, 392915424, 6694560669, -392915424); (6736401674, 388950278, 6736401674, -388950278);
   (6778242678, 384958608, 6778242678, -384958608); (6820083682, 380940556, 6820083682, -380940556); (6861924686, 376896257, 6861924686, -376896257);
   (6903765690, 372825839, 6903765690, -372825839); (6945606695, 368729425, 6945606695, -368729425); (6987447699, 364607130, 6987447699, -364607130);
   (7029288703, 360459063, 7029288703, -360459063); (7071129707, 356285328, 7071129707, -356285328); (7112970711, 352086021, 7112970711, -352086021);
   (7154811715, 347861231, 7154811715, -347861231); (7196652720, 343611043, 7196652720, -343611043); (7238493724, 339335535, 7238493724, -339335535);
   (7280334728, 335034779, 7280334728, -335034779); (7322175732, 330708839, 7322175732, -330708839); (7364016736, 326357775, 7364016736, -326357775);
   (7405857741, 321981640, 7405857741, -321981640); (7447698745, 317580481, 7447698745, -317580481); (7489539749, 313154339, 7489539749, -313154339);
   (7531380753, 308703250, 7531380753, -308703250); (7573221757, 304227242, 7573221757, -304227242); (7615062762, 299726338, 7615062762, -299726338);
   (7656903766, 295200557, 7656903766, -295200557); (7698744770, 290649908, 7698744770, -290649908); (7740585774, 286074398, 7740585774, -286074398);
   (7782426778, 281474026, 7782426778, -281474026); (7824267782, 276848785, 7824267782, -276848785); (7866108787, 272198665, 7866108787, -272198665);
   (7907949791, 267523646, 7907949791, -267523646); (7949790795, 262823705, 7949790795, -262823705); (7991631799, 258098813, 7991631799, -258098813);
   (8033472803, 253348936, 8033472803, -253348936); (8075313808, 248574031, 8075313808, -248574031); (8117154812, 243774053, 8117154812, -243774053);
   (8158995816, 238948950, 8158995816, -238948950); (8200836820, 234098664, 8200836820, -234098664); (8242677824, 229223131, 8242677824, -229223131);
   (8284518828, 224322284, 8284518828, -224322284); (8326359833, 219396046, 8326359833, -219396046); (8368200837, 214444339, 8368200837, -214444339);
   (8410041841, 209467076, 8410041841, -209467076); (8451882845, 204464167, 8451882845, -204464167); (8493723849, 199435514, 8493723849, -199435514);
   (8535564854, 194381016, 8535564854, -194381016); (8577405858, 189300566, 8577405858, -189300566); (8619246862, 184194049, 8619246862, -184194049);
   (8661087866, 179061348, 8661087866, -179061348); (8702928870, 173902338, 8702928870, -173902338); (8744769874, 168716890, 8744769874, -168716890);
   (8786610879, 163504870, 8786610879, -163504870); (8828451883, 158266137, 8828451883, -158266137); (8870292887, 153000546, 8870292887, -153000546);
   (8912133891, 147707945, 8912133891, -147707945); (8953974895, 142388179, 8953974895, -142388179); (8995815900, 137041086, 8995815900, -137041086);
   (9037656904, 131666499, 9037656904, -131666499); (9079497908, 126264245, 9079497908, -126264245); (9121338912, 120834148, 9121338912, -120834148);
   (9163179916, 115376024, 9163179916, -115376024); (9205020921, 109889685, 9205020921, -109889685); (9246861925, 104374938, 9246861925, -104374938);
   (9288702929, 98831584, 9288702929, -98831584); (9330543933, 93259420, 9330543933, -93259420); (9372384937, 87658236, 9372384937, -87658236);
   (9414225941, 82027817, 9414225941, -82027817); (9456066946, 76367946, 9456066946, -76367946); (9497907950, 70678395, 9497907950, -70678395);
   (9539748954, 64958937, 9539748954, -64958937); (9581589958, 59209334, 9581589958, -59209334); (9623430962, 53429348, 9623430962, -53429348);
   (9665271967, 47618733, 9665271967, -47618733); (9707112971, 41777238, 9707112971, -41777238); (9748953975, 35904607, 9748953975, -35904607);
   (9790794979, 30000579, 9790794979, -30000579); (9832635983, 24064889, 9832635983, -24064889); (9874476987, 18097265, 9874476987, -18097265);
   (9916317992, 12097430, 9916317992, -12097430); (9958158996, 6065104, 9958158996, -6065104); (10000000000, 0, 10000000000, 0)].

(** tests/test_datasets/naca4_2412_*_cosine.npy. *)
Definition rows_naca_2412_cosine : list (Z * Z * Z * Z) :=
  [(0, 0, 0, 0); (30809149, 115646923, 52872859, -107322489); (68433736, 164021571, 98930281, -147460237);
   (107227708, 201235596, 143818317, -176524894); (146645517, 232618643, 188082516, -199846107); (186473343, 260235278, 231936699, -219488443);
   (226600245, 285144547, 275491805, -236510945); (266959541, 307975774, 318814518, -251542939); (307507257, 329139187, 361948810, -264994651);
   (348212470, 348919902, 404925605, -277151200); (389052376, 367525668, 447767708, -288220334); (430009533, 385113464, 490492559, -298359031);
   (471070208, 401805378, 533113892, -307689379); (512223329, 417698623, 575642780, -316308591); (553459787, 432872131, 618088330, -324295600);
   (594771970, 447391060, 660458156, -331715564); (636153417, 461309962, 702758717, -338623034); (677598582, 474675073, 744995560, -345064247);
   (719102650, 487526005, 787173501, -351078814); (760661398, 499897016, 829296761, -356700993); (802271095, 511817986, 871369072, -361960666);
   (843928418, 523315175, 913393758, -366884091); (885630384, 534411820, 955373800, -371494504); (927374304, 545128607, 997311889, -375812594);
   (969157735, 555484061, 1039210466, -379856883); (1010978449, 565494852, 1081071760, -383644044); (1052834405, 575176056, 1122897813, -387189151);
   (1094723723, 584541365, 1164690503, -390505896); (1136644666, 593603266, 1206451568, -393606767); (1178595624, 602373190, 1248182619, -396503194);
   (1220575096, 610861635, 1289885155, -399205676); (1262581684, 619078278, 1331560575, -401723890); (1304614076, 627032065, 1373210192, -404066781);
   (1346671042, 634731288, 1414835234, -406242641); (1388751423, 642183655, 1456436861, -408259179); (1430854128, 649396352, 1498016165, -410123580);
   (1472978122, 656376089, 1539574179, -411842555); (1515122427, 663129150, 1581111883, -413422387); (1557286113, 669661431, 1622630205, -414868973);
   (1599468298, 675978475, 1664130028, -416187855); (1641668139, 682085505, 1705612196, -417384257); (1683884832, 687987449, 1747077511, -418463106);
   (1726117612, 693688965, 1788526740, -419429060); (1768365742, 699194465, 1829960617, -420286533); (1810628521, 704508133, 1871379848, -421039707);
   (1852905271, 709633945, 1912785105, -421692557); (1895195347, 714575679, 1954177038, -422248864); (1937498123, 719336937, 1995556271, -422712228);
   (1979813000, 723921153, 2036923402, -423086083); (2022139400, 728331606, 2078279010, -423373710); (2064476765, 732571433, 2119623653, -423578243);
   (2106824558, 736643635, 2160957869, -423702685); (2149182258, 740551086, 2202282178, -423749910); (2191549362, 744296547, 2243597081, -423722677);
   (2233925386, 747882665, 2284903066, -423623636); (2276309857, 751311988, 2326200603, -423455332); (2318702320, 754586962, 2367490149, -423220215);
   (2361102332, 757709948, 2408772145, -422920641); (2403509465, 760683217, 2450047020, -422558884); (2445923302, 763508961, 2491315192, -422137136);
   (2488343438, 766189295, 2532577064, -421657512); (2530769481, 768726264, 2573833029, -421122055); (2573201049, 771121841, 2615083470, -420532741);
   (2615637770, 773377939, 2656328757, -419891480); (2658079283, 775496406, 2697569252, -419200122); (2700525236, 777479033, 2738805308, -418460459);
   (2742975286, 779327557, 2780037266, -417674225); (2785429100, 781043662, 2821265461, -416843105); (2827886351, 782628980, 2862490218, -415968732);
   (2870346723, 784085098, 2903711854, -415052693); (2912809907, 785413555, 2944930679, -414096526); (2955275600, 786615850, 2986146994, -413101731);
   (2997743509, 787693436, 3027361094, -412069760); (3040213345, 788647731, 3068573266, -411002032); (3082684828, 789480111, 3109783791, -409899922);
   (3125157684, 790191918, 3150992943, -408764772); (3167631645, 790784458, 3192200991, -407597889); (3210106450, 791259004, 3233408194, -406400545);
   (3252581842, 791616796, 3274614811, -405173982); (3295057572, 791859044, 3315821089, -403919407); (3337533395, 791986928, 3357027275, -402638002);
   (3380009072, 792001599, 3398233606, -401330917); (3422484369, 791904180, 3439440317, -399999276); (3464959057, 791695768, 3480647638, -398644176);
   (3507432912, 791377435, 3521855791, -397266688); (3549905716, 790950226, 3563064996, -395867857); (3592377253, 790415165, 3604275467, -394448707);
   (3634847313, 789773249, 3645487415, -393010237); (3677315691, 789025456, 3686701046, -391553423); (3719782185, 788172741, 3727916560, -390079221);
   (3762246597, 787216038, 3769134156, -388588563); (3804708736, 786156260, 3810354026, -387082365); (3847168410, 784994302, 3851576360, -385561519);
   (3889625434, 783731037, 3892801344, -384026900); (3932079626, 782367322, 3934029160, -382479364); (3974530808, 780903994, 3975259987, -380919750);
   (4016844137, 779343859, 4016628667, -379346972); (4058953424, 777706089, 4058201388, -377744215); (4101061146, 775995935, 4099775674, -376107977);
   (4143167229, 774214160, 4141351599, -374439024); (4185271604, 772361516, 4182929233, -372738104); (4227374198, 770438735, 4224508647, -371005952);
   (4269474945, 768446536, 4266089908, -369243285); (4311573777, 766385622, 4307673085, -367450807); (4353670628, 764256682, 4349258242, -365629207);
   (4395765433, 762060390, 4390845446, -363779159); (4437858128, 759797408, 4432434759, -361901323); (4479948651, 757468381, 4474026244, -359996348);
   (4522036941, 755073945, 4515619963, -358064866); (4564122938, 752614718, 4557215974, -356107499); (4606206581, 750091310, 4598814339, -354124853);
   (4648287814, 747504315, 4640415115, -352117524); (4690366579, 744854317, 4682018358, -350086096); (4732442820, 742141886, 4723624126, -348031139);
   (4774516481, 739367582, 4765232473, -345953213); (4816587509, 736531953, 4806843453, -343852864); (4858655851, 733635534, 4848457120, -341730631);
   (4900721453, 730678851, 4890073526, -339587037); (4942784264, 727662419, 4931692723, -337422596); (4984844234, 724586739, 4973314762, -335237814);
   (5026901312, 721452307, 5014939692, -333033181); (5068955450, 718259603, 5056567562, -330809181); (5111006599, 715009100, 5098198422, -328566286);
   (5153054712, 711701260, 5139832317, -326304957); (5195099741, 708336536, 5181469297, -324025648); (5237141641, 704915369, 5223109405, -321728801);
   (5279180366, 701438194, 5264752689, -319414847); (5321215870, 697905432, 5306399192, -317084212); (5363248112, 694317498, 5348048960, -314737309);
   (5405277045, 690674797, 5389702034, -312374541); (5447302628, 686977724, 5431358460, -309996307); (5489324819, 683226667, 5473018278, -307602991);
   (5531343575, 679422002, 5514681530, -305194971); (5573358855, 675564100, 5556348258, -302772618); (5615370619, 671653320, 5598018503, -300336291);
   (5657378826, 667690015, 5639692304, -297886343); (5699383437, 663674528, 5681369701, -295423116); (5741384412, 659607194, 5723050734, -292946947);
   (5783381714, 655488341, 5764735441, -290458161); (5825375302, 651318287, 5806423861, -287957079); (5867365141, 647097343, 5848116031, -285444011);
   (5909351192, 642825813, 5889811988, -282919260); (5951333417, 638503990, 5931511771, -280383120); (5993311782, 634132163, 5973215415, -277835879);
   (6035286248, 629710610, 6014922957, -275277817); (6077256781, 625239604, 6056634433, -272709206); (6119223344, 620719409, 6098349878, -270130309);
   (6161185902, 616150283, 6140069328, -267541384); (6203144421, 611532473, 6181792818, -264942680); (6245098865, 606866223, 6223520382, -262334439);
   (6287049199, 602151767, 6265252056, -259716896); (6328995391, 597389332, 6306987873, -257090279); (6370937405, 592579140, 6348727867, -254454808);
   (6412875207, 587721404, 6390472073, -251810696); (6454808766, 582816329, 6432220523, -249158149); (6496738046, 577864115, 6473973251, -246497368);
   (6538663014, 572864955, 6515730291, -243828543); (6580583639, 567819034, 6557491675, -241151862); (6622499886, 562726531, 6599257437, -238467501);
   (6664411722, 557587617, 6641027608, -235775635); (6706319117, 552402458, 6682802222, -233076426); (6748222036, 547171212, 6724581312, -230370035);
   (6790120447, 541894031, 6766364909, -227656613); (6832014318, 536571061, 6808153046, -224936305); (6873903617, 531202440, 6849945756, -222209250);
   (6915788311, 525788300, 6891743070, -219475580); (6957668368, 520328768, 6933545021, -216735421); (6999543756, 514823963, 6975351642, -213988893);
   (7041414442, 509273997, 7017162963, -211236108); (7083280396, 503678977, 7058979019, -208477174); (7125141583, 498039005, 7100799840, -205712189);
   (7166997972, 492354173, 7142625459, -202941250); (7208849531, 486624570, 7184455909, -200164443); (7250696227, 480850277, 7226291221, -197381850);
   (7292538027, 475031370, 7268131429, -194593547); (7334374900, 469167919, 7309976564, -191799603); (7376206813, 463259986, 7351826660, -189000082);
   (7418033733, 457307629, 7393681749, -186195040); (7459855626, 451310900, 7435541863, -183384529); (7501672461, 445269843, 7477407037, -180568594);
   (7543484203, 439184497, 7519277303, -177747275); (7585290820, 433054896, 7561152695, -174920604); (7627092278, 426881068, 7603033245, -172088610);
   (7668888543, 420663033, 7644918988, -169251313); (7710679582, 414400808, 7686809957, -166408728); (7752465361, 408094401, 7728706188, -163560867);
   (7794245844, 401743818, 7770607713, -160707733); (7836020998, 395349056, 7812514567, -157849324); (7877790787, 388910108, 7854426786, -154985632);
   (7919555177, 382426960, 7896344404, -152116644); (7961314133, 375899593, 7938267457, -149242341); (8003067618, 369327983, 7980195981, -146362698);
   (8044815596, 362712098, 8022130010, -143477686); (8086558032, 356051904, 8064069583, -140587266); (8128294889, 349347358, 8106014734, -137691399);
   (8170026130, 342598413, 8147965502, -134790037); (8211751718, 335805015, 8189921922, -131883126); (8253471614, 328967108, 8231884034, -128970609);
   (8295185782, 322084625, 8273851875, -126052421); (8336894182, 315157499, 8315825483, -123128492); (8378596776, 308185653, 8357804897, -120198748);
   (8420293525, 301169008, 8399790157, -117263108); (8461984389, 294107476, 8441781301, -114321486); (8503669328, 287000967, 8483778371, -111373790);
   (8545348301, 279849384, 8525781406, -108419923); (8587021269, 272652623, 8567790447, -105459783); (8628688188, 265410578, 8609805536, -102493262);
   (8670349017, 258123135, 8651826715, -99520247); (8712003715, 250790176, 8693854026, -96540620); (8753652237, 243411575, 8735887512, -93554255);
   (8795294541, 235987205, 8777927216, -90561024); (8836930583, 228516931, 8819973182, -87560793); (8878560318, 221000611, 8862025456, -84553420);
   (8920183702, 213438102, 8904084081, -81538762); (8961800687, 205829253, 8946149103, -78516667); (9003411230, 198173907, 8988220570, -75486979);
   (9045015282, 190471904, 9030298526, -72449538); (9086612796, 182723077, 9072383020, -69404177); (9128203725, 174927254, 9114474099, -66350723);
   (9169788020, 167084259, 9156571813, -63289002); (9211365631, 159193909, 9198676210, -60218829); (9252936509, 151256018, 9240787340, -57140019);
   (9294500604, 143270393, 9282905254, -54052378); (9336057864, 135236836, 9325030002, -50955709); (9377608237, 127155144, 9367161637, -47849810);
   (9419151671, 119025109, 9409300212, -44734471); (9460688113, 110846519, 9451445778, -41609480); (9502217509, 102619155, 9493598391, -38474619);
   (9543739803, 94342793, 9535758105, -35329665); (9585254942, 86017205, 9577924975, -32174388); (9626762867, 77642158, 9620099057, -29008556);
   (9668263524, 69217413, 9662280409, -25831929); (9709756854, 60742725, 9704469088, -22644264); (9751242798, 52217847, 9746665152, -19445312);
   (9792721298, 43642524, 9788868660, -16234819); (9834192293, 35016498, 9831079673, -13012526); (9875655723, 26339504, 9873298252, -9778169);
   (9917111526, 17611273, 9915524457, -6531479); (9958559639, 8831531, 9957758352, -3272183); (10000000000, 0, 10000000000, 0)].

(** tests/test_datasets/naca4_2412_*_linear.npy. *)
Definition rows_naca_2412_linear : list (Z * Z * Z * Z) :=
  [(0, 0, 0, 0); (41841004, 116191417, 41841004, -107866983); (83682008, 164766255, 83682008, -148204920);
   (125523013, 202119587, 125523013, -177408885); (167364017, 233608956, 167364017, -200836420); (209205021, 261310010, 209205021, -220563174);
   (251046025, 286287619, 251046025, -237654016); (292887029, 309174657, 292887029, -252741821); (334728033, 330383724, 334728033, -266239189);
   (376569038, 350201628, 376569038, -278432927); (418410042, 368837383, 418410042, -289532049); (460251046, 386448947, 460251046, -299694513);
   (502092050, 403159189, 502092050, -309043190); (543933054, 419065962, 543933054, -317675931); (585774059, 434248731, 585774059, -325672200);
   (627615063, 448773103, 627615063, -333097607); (669456067, 462694016, 669456067, -340007089); (711297071, 476058044, 711297071, -346447218);
   (753138075, 488905091, 753138075, -352457900); (794979079, 501269677, 794979079, -358073655); (836820084, 513181915, 836820084, -363324595);
   (878661088, 524668274, 878661088, -368237189); (920502092, 535752179, 920502092, -372834863); (962343096, 546454488, 962343096, -377138475);
   (1004184100, 556793883, 1004184100, -381166706); (1046025105, 566787179, 1046025105, -384936371); (1087866109, 576449583, 1087866109, -388462678);
   (1129707113, 585794910, 1129707113, -391759442); (1171548117, 594835761, 1171548117, -394839263); (1213389121, 603583672, 1213389121, -397713677);
   (1255230126, 612049239, 1255230126, -400393281); (1297071130, 620242233, 1297071130, -402887844); (1338912134, 628171682, 1338912134, -405206398);
   (1380753138, 635845962, 1380753138, -407357315); (1422594142, 643272856, 1422594142, -409348380); (1464435146, 650459620, 1464435146, -411186849);
   (1506276151, 657413033, 1506276151, -412879499); (1548117155, 664139442, 1548117155, -414432679); (1589958159, 670644801, 1589958159, -415852343);
   (1631799163, 676934713, 1631799163, -417144093); (1673640167, 683014451, 1673640167, -418313203); (1715481172, 688888994, 1715481172, -419364651);
   (1757322176, 694563051, 1757322176, -420303146); (1799163180, 700041076, 1799163180, -421133144); (1841004184, 705327299, 1841004184, -421858872);
   (1882845188, 710425733, 1882845188, -422484346); (1924686192, 715340199, 1924686192, -423013384); (1966527197, 720074333, 1966527197, -423449624);
   (2008368201, 724631606, 2008368201, -423796536); (2050209205, 729015329, 2050209205, -424057432); (2092050209, 733228669, 2092050209, -424235479);
   (2133891213, 737274658, 2133891213, -424333708); (2175732218, 741156200, 2175732218, -424355023); (2217573222, 744876080, 2217573222, -424302210);
   (2259414226, 748436972, 2259414226, -424177943); (2301255230, 751841447, 2301255230, -423984792); (2343096234, 755091975, 2343096234, -423725228);
   (2384937238, 758190938, 2384937238, -423401631); (2426778243, 761140627, 2426778243, -423016294); (2468619247, 763943254, 2468619247, -422571429);
   (2510460251, 766600951, 2510460251, -422069168); (2552301255, 769115780, 2552301255, -421511572); (2594142259, 771489732, 2594142259, -420900632);
   (2635983264, 773724733, 2635983264, -420238275); (2677824268, 775822646, 2677824268, -419526363); (2719665272, 777785275, 2719665272, -418766701);
   (2761506276, 779614370, 2761506276, -417961038); (2803347280, 781311625, 2803347280, -417111068); (2845188285, 782878684, 2845188285, -416218436);
   (2887029289, 784317143, 2887029289, -415284738); (2928870293, 785628551, 2928870293, -414311522); (2970711297, 786814414, 2970711297, -413300295);
   (3012552301, 787876195, 3012552301, -412252519); (3054393305, 788815316, 3054393305, -411169616); (3096234310, 789633161, 3096234310, -410052972);
   (3138075314, 790331077, 3138075314, -408903931); (3179916318, 790910376, 3179916318, -407723807); (3221757322, 791372333, 3221757322, -406513875);
   (3263598326, 791718194, 3263598326, -405275380); (3305439331, 791949172, 3305439331, -404009535); (3347280335, 792066448, 3347280335, -402717522);
   (3389121339, 792071176, 3389121339, -401400494); (3430962343, 791964480, 3430962343, -400059577); (3472803347, 791747460, 3472803347, -398695867);
   (3514644351, 791421185, 3514644351, -397310437); (3556485356, 790986702, 3556485356, -395904333); (3598326360, 790445034, 3598326360, -394478577);
   (3640167364, 789797178, 3640167364, -393034166); (3682008368, 789044109, 3682008368, -391572076); (3723849372, 788186781, 3723849372, -390093260);
   (3765690377, 787226124, 3765690377, -388598649); (3807531381, 786163051, 3807531381, -387089156); (3849372385, 784998452, 3849372385, -385565668);
   (3891213389, 783733196, 3891213389, -384029059); (3933054393, 782368137, 3933054393, -382480180); (3974895397, 780904108, 3974895397, -380919864);
   (4016736402, 779343869, 4016736402, -379346982); (4058577406, 777706212, 4058577406, -377744337); (4100418410, 775996293, 4100418410, -376108336);
   (4142259414, 774214878, 4142259414, -374439742); (4184100418, 772362714, 4184100418, -372739302); (4225941423, 770440533, 4225941423, -371007750);
   (4267782427, 768449054, 4267782427, -369245803); (4309623431, 766388976, 4309623431, -367454162); (4351464435, 764260989, 4351464435, -365633514);
   (4393305439, 762065765, 4393305439, -363784534); (4435146444, 759803963, 4435146444, -361907879); (4476987448, 757476228, 4476987448, -360004195);
   (4518828452, 755083193, 4518828452, -358074114); (4560669456, 752625475, 4560669456, -356118256); (4602510460, 750103682, 4602510460, -354137225);
   (4644351464, 747518406, 4644351464, -352131615); (4686192469, 744870229, 4686192469, -350102008); (4728033473, 742159720, 4728033473, -348048973);
   (4769874477, 739387436, 4769874477, -345973066); (4811715481, 736553923, 4811715481, -343874834); (4853556485, 733659715, 4853556485, -341754811);
   (4895397490, 730705334, 4895397490, -339613520); (4937238494, 727691294, 4937238494, -337451472); (4979079498, 724618095, 4979079498, -335269169);
   (5020920502, 721486227, 5020920502, -333067102); (5062761506, 718296172, 5062761506, -330845750); (5104602510, 715048398, 5104602510, -328605584);
   (5146443515, 711743366, 5146443515, -326347063); (5188284519, 708381525, 5188284519, -324070637); (5230125523, 704963316, 5230125523, -321776747);
   (5271966527, 701489168, 5271966527, -319465821); (5313807531, 697959502, 5313807531, -317138282); (5355648536, 694374730, 5355648536, -314794541);
   (5397489540, 690735254, 5397489540, -312434999); (5439330544, 687041467, 5439330544, -310060050); (5481171548, 683293753, 5481171548, -307670077);
   (5523012552, 679492487, 5523012552, -305265457); (5564853556, 675638036, 5564853556, -302846554); (5606694561, 671730757, 5606694561, -300413728);
   (5648535565, 667770999, 5648535565, -297967327); (5690376569, 663759104, 5690376569, -295507692); (5732217573, 659695403, 5732217573, -293035155);
   (5774058577, 655580220, 5774058577, -290550040); (5815899582, 651413872, 5815899582, -288052664); (5857740586, 647196666, 5857740586, -285543333);
   (5899581590, 642928902, 5899581590, -283022349); (5941422594, 638610873, 5941422594, -280490003); (5983263598, 634242862, 5983263598, -277946578);
   (6025104603, 629825145, 6025104603, -275392352); (6066945607, 625357992, 6066945607, -272827594); (6108786611, 620841664, 6108786611, -270252564);
   (6150627615, 616276414, 6150627615, -267667516); (6192468619, 611662489, 6192468619, -265072696); (6234309623, 607000127, 6234309623, -262468344);
   (6276150628, 602289560, 6276150628, -259854690); (6317991632, 597531012, 6317991632, -257231959); (6359832636, 592724701, 6359832636, -254600368);
   (6401673640, 587870835, 6401673640, -251960127); (6443514644, 582969619, 6443514644, -249311439); (6485355649, 578021248, 6485355649, -246654500);
   (6527196653, 573025911, 6527196653, -243989499); (6569037657, 567983790, 6569037657, -241316617); (6610878661, 562895060, 6610878661, -238636031);
   (6652719665, 557759889, 6652719665, -235947907); (6694560669, 552578440, 6694560669, -233252408); (6736401674, 547350866, 6736401674, -230549690);
   (6778242678, 542077317, 6778242678, -227839899); (6820083682, 536757934, 6820083682, -225123178); (6861924686, 531392852, 6861924686, -222399662);
   (6903765690, 525982199, 6903765690, -219669479); (6945606695, 520526098, 6945606695, -216932752); (6987447699, 515024665, 6987447699, -214189595);
   (7029288703, 509478008, 7029288703, -211440119); (7071129707, 503886230, 7071129707, -208684426); (7112970711, 498249428, 7112970711, -205922613);
   (7154811715, 492567692, 7154811715, -203154770); (7196652720, 486841107, 7196652720, -200380980); (7238493724, 481069749, 7238493724, -197601322);
   (7280334728, 475253690, 7280334728, -194815867); (7322175732, 469392996, 7322175732, -192024681); (7364016736, 463487727, 7364016736, -189227822);
   (7405857741, 457537934, 7405857741, -186425345); (7447698745, 451543666, 7447698745, -183617295); (7489539749, 445504963, 7489539749, -180803715);
   (7531380753, 439421861, 7531380753, -177984639); (7573221757, 433294388, 7573221757, -175160096); (7615062762, 427122567, 7615062762, -172330109);
   (7656903766, 420906417, 7656903766, -169494696); (7698744770, 414645948, 7698744770, -166653869); (7740585774, 408341165, 7740585774, -163807631);
   (7782426778, 401992068, 7782426778, -160955983); (7824267782, 395598652, 7824267782, -158098919); (7866108787, 389160903, 7866108787, -155236426);
   (7907949791, 382678804, 7907949791, -152368488); (7949790795, 376152331, 7949790795, -149495079); (7991631799, 369581456, 7991631799, -146616171);
   (8033472803, 362966142, 8033472803, -143731729); (8075313808, 356306350, 8075313808, -140841712); (8117154812, 349602033, 8117154812, -137946074);
   (8158995816, 342853138, 8158995816, -135044762); (8200836820, 336059608, 8200836820, -132137719); (8242677824, 329221381, 8242677824, -129224882);
   (8284518828, 322338386, 8284518828, -126306181); (8326359833, 315410549, 8326359833, -123381543); (8368200837, 308437791, 8368200837, -120450886);
   (8410041841, 301420026, 8410041841, -117514126); (8451882845, 294357162, 8451882845, -114571171); (8493723849, 287249103, 8493723849, -111621925);
   (8535564854, 280095747, 8535564854, -108666286); (8577405858, 272896986, 8577405858, -105704145); (8619246862, 265652707, 8619246862, -102735391);
   (8661087866, 258362791, 8661087866, -99759904); (8702928870, 251027116, 8702928870, -96777560); (8744769874, 243645550, 8744769874, -93788230);
   (8786610879, 236217961, 8786610879, -90791780); (8828451883, 228744206, 8828451883, -87788068); (8870292887, 221224141, 8870292887, -84776950);
   (8912133891, 213657615, 8912133891, -81758275); (8953974895, 206044472, 8953974895, -78731886); (8995815900, 198384550, 8995815900, -75697622);
   (9037656904, 190677681, 9037656904, -72655316); (9079497908, 182923695, 9079497908, -69604795); (9121338912, 175122413, 9121338912, -66545882);
   (9163179916, 167273652, 9163179916, -63478395); (9205020921, 159377225, 9205020921, -60402145); (9246861925, 151432938, 9246861925, -57316938);
   (9288702929, 143440592, 9288702929, -54222577); (9330543933, 135399983, 9330543933, -51118857); (9372384937, 127310903, 9372384937, -48005569);
   (9414225941, 119173137, 9414225941, -44882498); (9456066946, 110986465, 9456066946, -41749426); (9497907950, 102750663, 9497907950, -38606128);
   (9539748954, 94465501, 9539748954, -35452373); (9581589958, 86130743, 9581589958, -32287926); (9623430962, 77746150, 9623430962, -29112547);
   (9665271967, 69311475, 9665271967, -25925991); (9707112971, 60826469, 9707112971, -22728007); (9748953975, 52290875, 9748953975, -19518339);
   (9790794979, 43704432, 9790794979, -16296726); (9832635983, 35066875, 9832635983, -13062903); (9874476987, 26377932, 9874476987, -9816597);
   (9916317992, 17637327, 9916317992, -6557533); (9958158996, 8844778, 9958158996, -3285430); (10000000000, 0, 10000000000, 0)].

(** tests/test_datasets/naca5_00012_*.npy. *)
Definition rows_naca_00012 : list (Z * Z * Z * Z) :=
  [(0, 0, 0, 0); (41841004, 112029200, 41841004, -112029200); (83682008, 156485587, 83682008, -156485587);
   (125523013, 189764236, 125523013, -189764236); (167364017, 217222688, 167364017, -217222688); (209205021, 240936592, 209205021, -240936592);
   (251046025, 261970818, 251046025, -261970818); (292887029, 280958239, 292887029, -280958239); (334728033, 298311456, 334728033, -298311456);
   (376569038, 314317278, 376569038, -314317278); (418410042, 329184716, 418410042, -329184716); (460251046, 343071730, 460251046, -343071730);
   (502092050, 356101190, 502092050, -356101190); (543933054, 368370946, 543933054, -368370946); (585774059, 379960466, 585774059, -379960466);
   (627615063, 390935355, 627615063, -390935355); (669456067, 401350552, 669456067, -401350552); (711297071, 411252631, 711297071, -411252631);
   (753138075, 420681496, 753138075, -420681496); (794979079, 429671666, 794979079, -429671666); (836820084, 438253255, 836820084, -438253255);
   (878661088, 446452732, 878661088, -446452732); (920502092, 454293521, 920502092, -454293521); (962343096, 461796482, 962343096, -461796482);
   (1004184100, 468980295, 1004184100, -468980295); (1046025105, 475861775, 1046025105, -475861775); (1087866109, 482456130, 1087866109, -482456130);
   (1129707113, 488777176, 1129707113, -488777176); (1171548117, 494837512, 1171548117, -494837512); (1213389121, 500648674, 1213389121, -500648674);
   (1255230126, 506221260, 1255230126, -506221260); (1297071130, 511565039, 1297071130, -511565039); (1338912134, 516689040, 1338912134, -516689040);
   (1380753138, 521601638, 1380753138, -521601638); (1422594142, 526310618, 1422594142, -526310618); (1464435146, 530823234, 1464435146, -530823234);
   (1506276151, 535146266, 1506276151, -535146266); (1548117155, 539286060, 1548117155, -539286060); (1589958159, 543248572, 1589958159, -543248572);
   (1631799163, 547039403, 1631799163, -547039403); (1673640167, 550663827, 1673640167, -550663827); (1715481172, 554126823, 1715481172, -554126823);
   (1757322176, 557433098, 1757322176, -557433098); (1799163180, 560587110, 1799163180, -560587110); (1841004184, 563593086, 1841004184, -563593086);
   (1882845188, 566455040, 1882845188, -566455040); (1924686192, 569176792, 1924686192, -569176792); (1966527197, 571761979, 1966527197, -571761979);
   (2008368201, 574214071, 2008368201, -574214071); (2050209205, 576536380, 2050209205, -576536380); (2092050209, 578732074, 2092050209, -578732074);
   (2133891213, 580804183, 2133891213, -580804183); (2175732218, 582755612, 2175732218, -582755612); (2217573222, 584589145, 2217573222, -584589145);
   (2259414226, 586307458, 2259414226, -586307458); (2301255230, 587913119, 2301255230, -587913119); (2343096234, 589408602, 2343096234, -589408602);
   (2384937238, 590796284, 2384937238, -590796284); (2426778243, 592078461, 2426778243, -592078461); (2468619247, 593257341, 2468619247, -593257341);
   (2510460251, 594335060, 2510460251, -594335060); (2552301255, 595313676, 2552301255, -595313676); (2594142259, 596195182, 2594142259, -596195182);
   (2635983264, 596981504, 2635983264, -596981504); (2677824268, 597674504, 2677824268, -597674504); (2719665272, 598275988, 2719665272, -598275988);
   (2761506276, 598787704, 2761506276, -598787704); (2803347280, 599211346, 2803347280, -599211346); (2845188285, 599548560, 2845188285, -599548560);
   (2887029289, 599800940, 2887029289, -599800940); (2928870293, 599970037, 2928870293, -599970037); (2970711297, 600057355, 2970711297, -600057355);
   (3012552301, 600064357, 3012552301, -600064357); (3054393305, 599992466, 3054393305, -599992466); (3096234310, 599843066, 3096234310, -599843066);
   (3138075314, 599617504, 3138075314, -599617504); (3179916318, 599317091, 3179916318, -599317091); (3221757322, 598943104, 3221757322, -598943104);
   (3263598326, 598496787, 3263598326, -598496787); (3305439331, 597979353, 3305439331, -597979353); (3347280335, 597391985, 3347280335, -597391985);
   (3389121339, 596735835, 3389121339, -596735835); (3430962343, 596012029, 3430962343, -596012029); (3472803347, 595221663, 3472803347, -595221663);
   (3514644351, 594365811, 3514644351, -594365811); (3556485356, 593445518, 3556485356, -593445518); (3598326360, 592461805, 3598326360, -592461805);
   (3640167364, 591415672, 3640167364, -591415672); (3682008368, 590308092, 3682008368, -590308092); (3723849372, 589140020, 3723849372, -589140020);
   (3765690377, 587912387, 3765690377, -587912387); (3807531381, 586626103, 3807531381, -586626103); (3849372385, 585282060, 3849372385, -585282060);
   (3891213389, 583881128, 3891213389, -583881128); (3933054393, 582424159, 3933054393, -582424159); (3974895397, 580911986, 3974895397, -580911986);
   (4016736402, 579345425, 4016736402, -579345425); (4058577406, 577725275, 4058577406, -577725275); (4100418410, 576052315, 4100418410, -576052315);
   (4142259414, 574327310, 4142259414, -574327310); (4184100418, 572551008, 4184100418, -572551008); (4225941423, 570724142, 4225941423, -570724142);
   (4267782427, 568847428, 4267782427, -568847428); (4309623431, 566921569, 4309623431, -566921569); (4351464435, 564947252, 4351464435, -564947252);
   (4393305439, 562925149, 4393305439, -562925149); (4435146444, 560855921, 4435146444, -560855921); (4476987448, 558740212, 4476987448, -558740212);
   (4518828452, 556578653, 4518828452, -556578653); (4560669456, 554371865, 4560669456, -554371865); (4602510460, 552120453, 4602510460, -552120453);
   (4644351464, 549825011, 4644351464, -549825011); (4686192469, 547486119, 4686192469, -547486119); (4728033473, 545104347, 4728033473, -545104347);
   (4769874477, 542680251, 4769874477, -542680251); (4811715481, 540214379, 4811715481, -540214379); (4853556485, 537707263, 4853556485, -537707263);
   (4895397490, 535159427, 4895397490, -535159427); (4937238494, 532571383, 4937238494, -532571383); (4979079498, 529943632, 4979079498, -529943632);
   (5020920502, 527276665, 5020920502, -527276665); (5062761506, 524570961, 5062761506, -524570961); (5104602510, 521826991, 5104602510, -521826991);
   (5146443515, 519045215, 5146443515, -519045215); (5188284519, 516226081, 5188284519, -516226081); (5230125523, 513370031, 5230125523, -513370031);
   (5271966527, 510477494, 5271966527, -510477494); (5313807531, 507548892, 5313807531, -507548892); (5355648536, 504584635, 5355648536, -504584635);
   (5397489540, 501585126, 5397489540, -501585126); (5439330544, 498550758, 5439330544, -498550758); (5481171548, 495481915, 5481171548, -495481915);
   (5523012552, 492378972, 5523012552, -492378972); (5564853556, 489242295, 5564853556, -489242295); (5606694561, 486072243, 5606694561, -486072243);
   (5648535565, 482869163, 5648535565, -482869163); (5690376569, 479633398, 5690376569, -479633398); (5732217573, 476365279, 5732217573, -476365279);
   (5774058577, 473065130, 5774058577, -473065130); (5815899582, 469733268, 5815899582, -469733268); (5857740586, 466370000, 5857740586, -466370000);
   (5899581590, 462975626, 5899581590, -462975626); (5941422594, 459550438, 5941422594, -459550438); (5983263598, 456094720, 5983263598, -456094720);
   (6025104603, 452608749, 6025104603, -452608749); (6066945607, 449092793, 6066945607, -449092793); (6108786611, 445547114, 6108786611, -445547114);
   (6150627615, 441971965, 6150627615, -441971965); (6192468619, 438367593, 6192468619, -438367593); (6234309623, 434734235, 6234309623, -434734235);
   (6276150628, 431072125, 6276150628, -431072125); (6317991632, 427381486, 6317991632, -427381486); (6359832636, 423662534, 6359832636, -423662534);
   (6401673640, 419915481, 6401673640, -419915481); (6443514644, 416140529, 6443514644, -416140529); (6485355649, 412337874, 6485355649, -412337874);
   (6527196653, 408507705, 6527196653, -408507705); (6569037657, 404650203, 6569037657, -404650203); (6610878661, 400765545, 6610878661, -400765545);
   (6652719665, 396853898, 6652719665, -396853898); (6694560669, 392915424, 6694560669, -392915424); (6736401674, 388950278, 6736401674, -388950278);
   (6778242678, 384958608, 6778242678, -384958608); (6820083682, 380940556, 6820083682, -380940556); (6861924686, 376896257, 6861924686, -376896257);
   (6903765690, 372825839, 6903765690, -372825839); (6945606695, 368729425, 6945606695, -368729425); (6987447699, 364607130, 6987447699, -364607130);
   (7029288703, 360459063, 7029288703, -360459063); (7071129707, 356285328, 7071129707, -356285328); (7112970711, 352086021, 7112970711, -352086021);
   (7154811715, 347861231, 7154811715, -347861231); (7196652720, 343611043, 7196652720, -343611043); (7238493724, 339335535, 7238493724, -339335535);
   (7280334728, 335034779, 7280334728, -335034779); (7322175732, 330708839, 7322175732, -330708839); (7364016736, 326357775, 7364016736, -326357775);
   (7405857741, 321981640, 7405857741, -321981640); (7447698745, 317580481, 7447698745, -317580481); (7489539749, 313154339, 7489539749, -313154339);
   (7531380753, 308703250, 7531380753, -308703250); (7573221757, 304227242, 7573221757, -304227242); (7615062762, 299726338, 7615062762, -299726338);
   (7656903766, 295200557, 7656903766, -295200557); (7698744770, 290649908, 7698744770, -290649908); (7740585774, 286074398, 7740585774, -286074398);
   (7782426778, 281474026, 7782426778, -281474026); (7824267782, 276848785, 7824267782, -276848785); (7866108787, 272198665, 7866108787, -272198665);
   (7907949791, 267523646, 7907949791, -267523646); (7949790795, 262823705, 7949790795, -262823705); (7991631799, 258098813, 7991631799, -258098813);
   (8033472803, 253348936, 8033472803, -253348936); (8075313808, 248574031, 8075313808, -248574031); (8117154812, 243774053, 8117154812, -243774053);
   (8158995816, 238948950, 8158995816, -238948950); (8200836820, 234098664, 8200836820, -234098664); (8242677824, 229223131, 8242677824, -229223131);
   (8284518828, 224322284, 8284518828, -224322284); (8326359833, 219396046, 8326359833, -219396046); (8368200837, 214444339, 8368200837, -214444339);
   (8410041841, 209467076, 8410041841, -209467076); (8451882845, 204464167, 8451882845, -204464167); (8493723849, 199435514, 8493723849, -199435514);
   (8535564854, 194381016, 8535564854, -194381016); (8577405858, 189300566, 8577405858, -189300566); (8619246862, 184194049, 8619246862, -184194049);
   (8661087866, 179061348, 8661087866, -179061348); (8702928870, 173902338, 8702928870, -173902338); (8744769874, 168716890, 8744769874, -168716890);
   (8786610879, 163504870, 8786610879, -163504870); (8828451883, 158266137, 8828451883, -158266137); (8870292887, 153000546, 8870292887, -153000546);
   (8912133891, 147707945, 8912133891, -147707945); (8953974895, 142388179, 8953974895, -142388179); (8995815900, 137041086, 8995815900, -137041086);
   (9037656904, 131666499, 9037656904, -131666499); (9079497908, 126264245, 9079497908, -126264245); (9121338912, 120834148, 9121338912, -120834148);
   (9163179916, 115376024, 9163179916, -115376024); (9205020921, 109889685, 9205020921, -109889685); (9246861925, 104374938, 9246861925, -104374938);
   (9288702929, 98831584, 9288702929, -98831584); (9330543933, 93259420, 9330543933, -93259420); (9372384937, 87658236, 9372384937, -87658236);
   (9414225941, 82027817, 9414225941, -82027817); (9456066946, 76367946, 9456066946, -76367946); (9497907950, 70678395, 9497907950, -70678395);
   (9539748954, 64958937, 9539748954, -64958937); (9581589958, 59209334, 9581589958, -59209334); (9623430962, 53429348, 9623430962, -53429348);
   (9665271967, 47618733, 9665271967, -47618733); (9707112971, 41777238, 9707112971, -41777238); (9748953975, 35904607, 9748953975, -35904607);
   (9790794979, 30000579, 9790794979, -30000579); (9832635983, 24064889, 9832635983, -24064889); (9874476987, 18097265, 9874476987, -18097265);
   (9916317992, 12097430, 9916317992, -12097430); (9958158996, 6065104, 9958158996, -6065104); (10000000000, 0, 10000000000, 0)].

(** tests/test_datasets/naca5_23012_*_cosine.npy. *)
Definition rows_naca_23012_cosine : list (Z * Z * Z * Z) :=
  [(0, 0, 0, 0); (10469116, 120031092, 73212893, -95062805); (41684112, 175158821, 125679905, -126330255);
   (76779443, 219199298, 174266582, -147595084); (114038062, 257234798, 220689971, -163916190); (152760764, 291229258, 265649278, -177234133);
   (192570232, 322189669, 309521818, -188532529); (233230170, 350715635, 352543888, -198387603); (274577964, 377199938, 394878103, -207168761);
   (316494120, 401917837, 436643955, -215127883); (358886504, 425072306, 477933580, -222444569); (401681419, 446819173, 518820673, -229251269);
   (444818205, 467282084, 559365895, -235648251); (488245782, 486561899, 599620326, -241713000); (531920349, 504742865, 639627769, -247506384);
   (575803780, 521896806, 679426346, -253076852); (619862493, 538086057, 719049640, -258463360); (664066612, 553365571, 758527530, -263697486);
   (708389339, 567784466, 797886811, -268804970); (752806482, 581387174, 837151677, -273806868); (797296075, 594214321, 876344092, -278720427);
   (841838089, 606303394, 915484087, -283559760); (886414189, 617689276, 954589995, -288336370); (931007543, 628404648, 993678650, -293059564);
   (975602656, 638480327, 1032765545, -297736780); (1020185242, 647945525, 1071864967, -302373854); (1064742100, 656828065, 1110990117, -306975231);
   (1109261024, 665154553, 1150153202, -311544142); (1153730711, 672950527, 1189365523, -316082746); (1198140688, 680240567, 1228637555, -320592247);
   (1242481247, 687048401, 1267979004, -325072996); (1286743383, 693396983, 1307398876, -329524571); (1330918745, 699308565, 1346905522, -333945846);
   (1374999586, 704804756, 1386506691, -338335054); (1418978716, 709906570, 1426209568, -342689830); (1462849472, 714634471, 1466020821, -347007262);
   (1506605673, 719008407, 1505946628, -351283922); (1550241591, 723047848, 1545992719, -355515903); (1593751921, 726771809, 1586164397, -359698842);
   (1637131753, 730198874, 1626466574, -363827948); (1680376544, 733347222, 1666903790, -367898020); (1723482100, 736234643, 1707480243, -371903473);
   (1766444549, 738878553, 1748199803, -375838347); (1809260321, 741296014, 1789066038, -379696325); (1851926137, 743503744, 1830082231, -383470749);
   (1894438983, 745518130, 1871251393, -387154631); (1936796102, 747355242, 1912576283, -390740659); (1978994974, 749030837, 1954059419, -394221218);
   (2021033312, 750560373, 1995703090, -397588388); (2062938253, 751957948, 2037480157, -400833740); (2104827735, 753229096, 2079272684, -403952910);
   (2146714488, 754376689, 2121067939, -406948525); (2188598577, 755403630, 2162865859, -409823488); (2230480062, 756312706, 2204666381, -412580586);
   (2272359004, 757106588, 2246469448, -415222491); (2314235459, 757787847, 2288275001, -417751772); (2356109481, 758358954, 2330082987, -420170901);
   (2397981123, 758822288, 2371893354, -422482257); (2439850436, 759180141, 2413706049, -424688132); (2481717468, 759434723, 2455521026, -426790736);
   (2523582267, 759588167, 2497338235, -428792202); (2565444877, 759642534, 2539157633, -430694592); (2607305344, 759599814, 2580979175, -432499894);
   (2649163709, 759461933, 2622802818, -434210035); (2691020013, 759230753, 2664628522, -435826877); (2732874297, 758908080, 2706456247, -437352226);
   (2774726599, 758495660, 2748285953, -438787828); (2816576957, 757995188, 2790117604, -440135378); (2858425406, 757408308, 2831951163, -441396521);
   (2900271983, 756736616, 2873786595, -442572851); (2942116720, 755981660, 2915623866, -443665917); (2983959652, 755144946, 2957462942, -444677224);
   (3025800811, 754227935, 2999303791, -445608236); (3067640228, 753232051, 3041146383, -446460374); (3109477934, 752158676, 3082990686, -447235022);
   (3151313958, 751009158, 3124836670, -447933526); (3193148329, 749784807, 3166684307, -448557197); (3234981076, 748486900, 3208533568, -449107312);
   (3276812227, 747116681, 3250384426, -449585115); (3318641807, 745675362, 3292236854, -449991818); (3360469843, 744164126, 3334090827, -450328604);
   (3402296360, 742584125, 3375946318, -450596625); (3444121384, 740936484, 3417803303, -450797006); (3485944938, 739222300, 3459661757, -450930845);
   (3527767046, 737442645, 3501521657, -450999212); (3569587732, 735598565, 3543382980, -451003154); (3611407017, 733691081, 3585245703, -450943693);
   (3653224924, 731721192, 3627109804, -450821825); (3695041475, 729689871, 3668975262, -450638527); (3736856689, 727598073, 3710842055, -450394751);
   (3778670589, 725446728, 3752710164, -450091428); (3820483194, 723236747, 3794579567, -449729469); (3862294524, 720969020, 3836450246, -449309764);
   (3904104598, 718644418, 3878322180, -448833184); (3945913434, 716263793, 3920195352, -448300582); (3987721052, 713827978, 3962069743, -447712789);
   (4029527469, 711337788, 4003945334, -447070621); (4071332703, 708794021, 4045822109, -446374876); (4113136770, 706197458, 4087700050, -445626335);
   (4154939689, 703548862, 4129579139, -444825762); (4196741475, 700848983, 4171459362, -443973904); (4238542145, 698098551, 4213340700, -443071494);
   (4280341714, 695298283, 4255223139, -442119249); (4322140198, 692448883, 4297106664, -441117870); (4363937613, 689551036, 4338991258, -440068046);
   (4405733972, 686605415, 4380876907, -438970447); (4447529291, 683612680, 4422763596, -437825734); (4489323583, 680573475, 4464651312, -436634552);
   (4531116863, 677488433, 4506540040, -435397531); (4572909145, 674358172, 4548429767, -434115292); (4614700441, 671183297, 4590320479, -432788440);
   (4656490766, 667964403, 4632212163, -431417568); (4698280131, 664702070, 4674104806, -430003257); (4740068549, 661396868, 4715998397, -428546077);
   (4781856033, 658049352, 4757892921, -427046584); (4823642594, 654660070, 4799788368, -425505323); (4865428245, 651229554, 4841684725, -423922830);
   (4907212997, 647758328, 4883581982, -422299626); (4948996861, 644246904, 4925480126, -420636224); (4990779849, 640695782, 4967379147, -418933124);
   (5032561970, 637105454, 5009279034, -417190818); (5074343237, 633476399, 5051179776, -415409785); (5116123658, 629809087, 5093081363, -413590495);
   (5157903245, 626103977, 5134983784, -411733408); (5199682007, 622361520, 5176887031, -409838973); (5241459954, 618582155, 5218791092, -407907630);
   (5283237095, 614766312, 5260695959, -405939809); (5325013440, 610914413, 5302601623, -403935932); (5366788998, 607026867, 5344508073, -401896409);
   (5408563778, 603104078, 5386415302, -399821642); (5450337788, 599146439, 5428323300, -397712025); (5492111036, 595154333, 5470232060, -395567941);
   (5533883532, 591128135, 5512141572, -393389765); (5575655283, 587068212, 5554051830, -391177864); (5617426298, 582974921, 5595962824, -388932595);
   (5659196583, 578848611, 5637874547, -386654308); (5700966146, 574689623, 5679786992, -384343342); (5742734995, 570498290, 5721700151, -382000031);
   (5784503137, 566274935, 5763614018, -379624697); (5826270579, 562019873, 5805528584, -377217658); (5868037327, 557733414, 5847443844, -374779221);
   (5909803389, 553415856, 5889359791, -372309686); (5951568770, 549067492, 5931276418, -369809344); (5993333477, 544688606, 5973193719, -367278479);
   (6035097516, 540279473, 6015111689, -364717369); (6076860894, 535840363, 6057030320, -362126281); (6118623615, 531371538, 6098949607, -359505478);
   (6160385685, 526873249, 6140869545, -356855211); (6202147110, 522345744, 6182790128, -354175729); (6243907895, 517789262, 6224711352, -351467268);
   (6285668046, 513204033, 6266633210, -348730061); (6327427566, 508590282, 6308555698, -345964333); (6369186461, 503948226, 6350478811, -343170299);
   (6410944736, 499278075, 6392402544, -340348171); (6452702395, 494580033, 6434326893, -337498150); (6494459443, 489854293, 6476251854, -334620433);
   (6536215883, 485101047, 6518177423, -331715208); (6577971719, 480320474, 6560103595, -328782658); (6619726956, 475512752, 6602030366, -325822958);
   (6661481597, 470678047, 6643957734, -322836275); (6703235645, 465816522, 6685885694, -319822772); (6744989105, 460928331, 6727814242, -316782604);
   (6786741979, 456013623, 6769743376, -313715918); (6828494271, 451072540, 6811673093, -310622856); (6870245983, 446105215, 6853603389, -307503554);
   (6911997119, 441111779, 6895534262, -304358140); (6953747680, 436092352, 6937465709, -301186735); (6995497671, 431047051, 6979397727, -297989456);
   (7037247092, 425975984, 7021330314, -294766412); (7078995946, 420879255, 7063263468, -291517705); (7120744236, 415756960, 7105197187, -288243432);
   (7162491963, 410609190, 7147131468, -284943683); (7204239130, 405436027, 7189066310, -281618543); (7245985737, 400237550, 7231001710, -278268088);
   (7287731787, 395013831, 7272937669, -274892391); (7329477281, 389764934, 7314874183, -271491517); (7371222220, 384490919, 7356811252, -268065524);
   (7412966606, 379191840, 7398748875, -264614467); (7454710440, 373867743, 7440687050, -261138392); (7496453721, 368518669, 7482625777, -257637340);
   (7538196452, 363144654, 7524565054, -254111347); (7579938633, 357745726, 7566504882, -250560441); (7621680264, 352321909, 7608445259, -246984646);
   (7663421346, 346873219, 7650386186, -243383979); (7705161879, 341399669, 7692327661, -239758450); (7746901862, 335901263, 7734269686, -236108067);
   (7788641297, 330378001, 7776212259, -232432827); (7830380183, 324829877, 7818155382, -228732725); (7872118520, 319256878, 7860099053, -225007749);
   (7913856307, 313658988, 7902043275, -221257881); (7955593543, 308036182, 7943988047, -217483097); (7997330229, 302388431, 7985933369, -213683368);
   (8039066363, 296715700, 8027879244, -209858659); (8080801945, 291017948, 8069825670, -206008929); (8122536973, 285295129, 8111772651, -202134133);
   (8164271446, 279547191, 8153720186, -198234217); (8206005363, 273774076, 8195668277, -194309124); (8247738723, 267975721, 8237616926, -190358791);
   (8289471524, 262152057, 8279566133, -186383149); (8331203764, 256303009, 8321515901, -182382123); (8372935442, 250428498, 8363466231, -178355634);
   (8414666556, 244528437, 8405417126, -174303596); (8456397104, 238602736, 8447368587, -170225917); (8498127083, 232651298, 8489320616, -166122501);
   (8539856491, 226674022, 8531273216, -161993246); (8581585327, 220670798, 8573226389, -157838045); (8623313587, 214641515, 8615180137, -153656784);
   (8665041269, 208586054, 8657134463, -149449345); (8706768370, 202504291, 8699089371, -145215604); (8748494887, 196396096, 8741044862, -140955432);
   (8790220818, 190261335, 8783000939, -136668693); (8831946159, 184099868, 8824957607, -132355248); (8873670907, 177911549, 8866914867, -128014951);
   (8915395058, 171696228, 8908872724, -123647652); (8957118610, 165453747, 8950831181, -119253194); (8998841559, 159183947, 8992790240, -114831415);
   (9040563900, 152886658, 9034749907, -110382149); (9082285631, 146561711, 9076710185, -105905223); (9124006747, 140208926, 9118671078, -101400461);
   (9165727244, 133828121, 9160632589, -96867678); (9207447118, 127419109, 9202594723, -92306688); (9249166365, 120981695, 9244557485, -87717296);
   (9290884980, 114515681, 9286520878, -83099305); (9332602959, 108020864, 9328484907, -78452510); (9374320298, 101497034, 9370449577, -73776702);
   (9416036991, 94943977, 9412414892, -69071667); (9457753034, 88361474, 9454380857, -64337186); (9499468421, 81749300, 9496347478, -59573034);
   (9541183149, 75107224, 9538314759, -54778980); (9582897210, 68435012, 9580282706, -49954791); (9624610601, 61732424, 9622251323, -45100225);
   (9666323316, 54999214, 9664220617, -40215037); (9708035349, 48235132, 9706190593, -35298977); (9749746694, 41439921, 9748161256, -30351788);
   (9791457346, 34613322, 9790132612, -25373211); (9833167299, 27755067, 9832104667, -20362978); (9874876548, 20864886, 9874077427, -15320820);
   (9916585085, 13942503, 9916050899, -10246459); (9958292904, 6987637, 9958025088, -5139615); (10000000000, 0, 10000000000, 0)].

(** tests/test_datasets/naca5_23012_*_linear.npy. *)
Definition rows_naca_23012_linear : list (Z * Z * Z * Z) :=
  [(0, 0, 0, 0); (41841004, 124513343, 41841004, -99545056); (83682008, 180899870, 83682008, -132071304);
   (125523013, 225566343, 125523013, -153962128); (167364017, 263881992, 167364017, -170563384); (209205021, 297934154, 209205021, -183939030);
   (251046025, 328799388, 251046025, -195142248); (292887029, 357122255, 292887029, -204794223); (334728033, 383327045, 334728033, -213295867);
   (376569038, 407712254, 376569038, -220922301); (418410042, 430498585, 418410042, -227870848); (460251046, 451855682, 460251046, -234287778);
   (502092050, 471918106, 502092050, -240284273); (543933054, 490795396, 543933054, -245946497); (585774059, 508578706, 585774059, -251342225);
   (627615063, 525345332, 627615063, -256525377); (669456067, 541161901, 669456067, -261539204); (711297071, 556086673, 711297071, -266418588);
   (753138075, 570171244, 753138075, -271191748); (794979079, 583461819, 794979079, -275881513); (836820084, 596000202, 836820084, -280506308);
   (878661088, 607824549, 878661088, -285080914); (920502092, 618969973, 920502092, -289617068); (962343096, 629469024, 962343096, -294123939);
   (1004184100, 639352068, 1004184100, -298608521); (1046025105, 648647611, 1046025105, -303075939); (1087866109, 657382547, 1087866109, -307529713);
   (1129707113, 665582382, 1129707113, -311971970); (1171548117, 673271403, 1171548117, -316403622); (1213389121, 680472834, 1213389121, -320824514);
   (1255230126, 687208962, 1255230126, -325233558); (1297071130, 693501244, 1297071130, -329628833); (1338912134, 699370400, 1338912134, -334007681);
   (1380753138, 704836490, 1380753138, -338366787); (1422594142, 709918988, 1422594142, -342702248); (1464435146, 714636839, 1464435146, -347009630);
   (1506276151, 719008508, 1506276151, -351284024); (1548117155, 723052033, 1548117155, -355520088); (1589958159, 726785056, 1589958159, -359712089);
   (1631799163, 730224866, 1631799163, -363853939); (1673640167, 733388428, 1673640167, -367939226); (1715481172, 736292408, 1715481172, -371961238);
   (1757322176, 738953201, 1757322176, -375912995); (1799163180, 741386955, 1799163180, -379787266); (1841004184, 743609583, 1841004184, -383576588);
   (1882845188, 745636790, 1882845188, -387273290); (1924686192, 747484083, 1924686192, -390869500); (1966527197, 749166788, 1966527197, -394357170);
   (2008368201, 750700064, 2008368201, -397728078); (2050209205, 752098484, 2050209205, -400974276); (2092050209, 753370167, 2092050209, -404093981);
   (2133891213, 754518265, 2133891213, -407090101); (2175732218, 755545682, 2175732218, -409965541); (2217573222, 756455205, 2217573222, -412723085);
   (2259414226, 757249506, 2259414226, -415365409); (2301255230, 757931157, 2301255230, -417895081); (2343096234, 758502628, 2343096234, -420314575);
   (2384937238, 758966300, 2384937238, -422626269); (2426778243, 759324465, 2426778243, -424832456); (2468619247, 759579335, 2468619247, -426935348);
   (2510460251, 759733042, 2510460251, -428937077); (2552301255, 759787647, 2552301255, -430839705); (2594142259, 759745142, 2594142259, -432645222);
   (2635983264, 759607453, 2635983264, -434355555); (2677824268, 759376442, 2677824268, -435972566); (2719665272, 759053915, 2719665272, -437498061);
   (2761506276, 758641620, 2761506276, -438933788); (2803347280, 758141251, 2803347280, -440281442); (2845188285, 757554454, 2845188285, -441542666);
   (2887029289, 756882823, 2887029289, -442719058); (2928870293, 756127908, 2928870293, -443812165); (2970711297, 755291215, 2970711297, -444823494);
   (3012552301, 754374206, 3012552301, -445754507); (3054393305, 753378305, 3054393305, -446606628); (3096234310, 752304894, 3096234310, -447381239);
   (3138075314, 751155320, 3138075314, -448079688); (3179916318, 749930896, 3179916318, -448703286); (3221757322, 748632898, 3221757322, -449253310);
   (3263598326, 747262570, 3263598326, -449731004); (3305439331, 745821125, 3305439331, -450137582); (3347280335, 744309746, 3347280335, -450474224);
   (3389121339, 742729585, 3389121339, -450742085); (3430962343, 741081767, 3430962343, -450942290); (3472803347, 739367391, 3472803347, -451075936);
   (3514644351, 737587528, 3514644351, -451144094); (3556485356, 735743223, 3556485356, -451147812); (3598326360, 733835500, 3598326360, -451088111);
   (3640167364, 731865355, 3640167364, -450965988); (3682008368, 729833765, 3682008368, -450782420); (3723849372, 727741681, 3723849372, -450538359);
   (3765690377, 725590037, 3765690377, -450234737); (3807531381, 723379742, 3807531381, -449872464); (3849372385, 721111688, 3849372385, -449452432);
   (3891213389, 718786745, 3891213389, -448975511); (3933054393, 716405764, 3933054393, -448442553); (3974895397, 713969581, 3974895397, -447854391);
   (4016736402, 711479009, 4016736402, -447211842); (4058577406, 708934847, 4058577406, -446515702); (4100418410, 706337876, 4100418410, -445766753);
   (4142259414, 703688860, 4142259414, -444965759); (4184100418, 700988547, 4184100418, -444113469); (4225941423, 698237670, 4225941423, -443210613);
   (4267782427, 695436945, 4267782427, -442257911); (4309623431, 692587075, 4309623431, -441256063); (4351464435, 689688747, 4351464435, -440205757);
   (4393305439, 686742633, 4393305439, -439107665); (4435146444, 683749394, 4435146444, -437962448); (4476987448, 680709673, 4476987448, -436770750);
   (4518828452, 677624104, 4518828452, -435533203); (4560669456, 674493305, 4560669456, -434250426); (4602510460, 671317882, 4602510460, -432923025);
   (4644351464, 668098428, 4644351464, -431551593); (4686192469, 664835525, 4686192469, -430136712); (4728033473, 661529742, 4728033473, -428678951);
   (4769874477, 658181636, 4769874477, -427178867); (4811715481, 654791752, 4811715481, -425637006); (4853556485, 651360625, 4853556485, -424053901);
   (4895397490, 647888778, 4895397490, -422430076); (4937238494, 644376723, 4937238494, -420766043); (4979079498, 640824961, 4979079498, -419062303);
   (5020920502, 637233982, 5020920502, -417319347); (5062761506, 633604268, 5062761506, -415537654); (5104602510, 629936287, 5104602510, -413717695);
   (5146443515, 626230499, 5146443515, -411859930); (5188284519, 622487355, 5188284519, -409964808); (5230125523, 618707294, 5230125523, -408032769);
   (5271966527, 614890746, 5271966527, -406064243); (5313807531, 611038132, 5313807531, -404059652); (5355648536, 607149865, 5355648536, -402019406);
   (5397489540, 603226345, 5397489540, -399943908); (5439330544, 599267965, 5439330544, -397833551); (5481171548, 595275111, 5481171548, -395688719);
   (5523012552, 591248157, 5523012552, -393509787); (5564853556, 587187469, 5564853556, -391297121); (5606694561, 583093405, 5606694561, -389051080);
   (5648535565, 578966315, 5648535565, -386772012); (5690376569, 574806539, 5690376569, -384460257); (5732217573, 570614408, 5732217573, -382116149);
   (5774058577, 566390249, 5774058577, -379740012); (5815899582, 562134375, 5815899582, -377332160); (5857740586, 557847096, 5857740586, -374892903);
   (5899581590, 553528711, 5899581590, -372422540); (5941422594, 549179512, 5941422594, -369921363); (5983263598, 544799783, 5983263598, -367389657);
   (6025104603, 540389801, 6025104603, -364827697); (6066945607, 535949834, 6066945607, -362235752); (6108786611, 531480144, 6108786611, -359614084);
   (6150627615, 526980984, 6150627615, -356962946); (6192468619, 522452600, 6192468619, -354282585); (6234309623, 517895232, 6234309623, -351573239);
   (6276150628, 513309111, 6276150628, -348835139); (6317991632, 508694460, 6317991632, -346068511); (6359832636, 504051498, 6359832636, -343273571);
   (6401673640, 499380434, 6401673640, -340450529); (6443514644, 494681471, 6443514644, -337599588); (6485355649, 489954805, 6485355649, -334720944);
   (6527196653, 485200624, 6527196653, -331814786); (6569037657, 480419112, 6569037657, -328881295); (6610878661, 475610442, 6610878661, -325920648);
   (6652719665, 470774784, 6652719665, -322933012); (6694560669, 465912299, 6694560669, -319918549); (6736401674, 461023142, 6736401674, -316877414);
   (6778242678, 456107461, 6778242678, -313809755); (6820083682, 451165398, 6820083682, -310715714); (6861924686, 446197087, 6861924686, -307595426);
   (6903765690, 441202659, 6903765690, -304449020); (6945606695, 436182233, 6945606695, -301276617); (6987447699, 431135927, 6987447699, -298078333);
   (7029288703, 426063850, 7029288703, -294854277); (7071129707, 420966103, 7071129707, -291604553); (7112970711, 415842785, 7112970711, -288329256);
   (7154811715, 410693984, 7154811715, -285028478); (7196652720, 405519785, 7196652720, -281702301); (7238493724, 400320266, 7238493724, -278350804);
   (7280334728, 395095499, 7280334728, -274974059); (7322175732, 389845547, 7322175732, -271572130); (7364016736, 384570472, 7364016736, -268145077);
   (7405857741, 379270326, 7405857741, -264692953); (7447698745, 373945156, 7447698745, -261215805); (7489539749, 368595003, 7489539749, -257713675);
   (7531380753, 363219903, 7531380753, -254186596); (7573221757, 357819884, 7573221757, -250634599); (7615062762, 352394970, 7615062762, -247057707);
   (7656903766, 346945177, 7656903766, -243455937); (7698744770, 341470517, 7698744770, -239829299); (7740585774, 335970996, 7740585774, -236177800);
   (7782426778, 330446613, 7782426778, -232501439); (7824267782, 324897361, 7824267782, -228800209); (7866108787, 319323229, 7866108787, -225074100);
   (7907949791, 313724199, 7907949791, -221323092); (7949790795, 308100248, 7949790795, -217547162); (7991631799, 302451345, 7991631799, -213746282);
   (8033472803, 296777456, 8033472803, -209920415); (8075313808, 291078541, 8075313808, -206069522); (8117154812, 285354552, 8117154812, -202193555);
   (8158995816, 279605437, 8158995816, -198292463); (8200836820, 273831140, 8200836820, -194366188); (8242677824, 268031597, 8242677824, -190414666);
   (8284518828, 262206738, 8284518828, -186437830); (8326359833, 256356489, 8326359833, -182435603); (8368200837, 250480771, 8368200837, -178407907);
   (8410041841, 244579497, 8410041841, -174354655); (8451882845, 238652576, 8451882845, -170275757); (8493723849, 232699913, 8493723849, -166171115);
   (8535564854, 226721404, 8535564854, -162040629); (8577405858, 220716942, 8577405858, -157884189); (8619246862, 214686414, 8619246862, -153701683);
   (8661087866, 208629702, 8661087866, -149492993); (8702928870, 202546681, 8702928870, -145257995); (8744769874, 196437223, 8744769874, -140996558);
   (8786610879, 190301191, 8786610879, -136708549); (8828451883, 184138447, 8828451883, -132393827); (8870292887, 177948845, 8870292887, -128052247);
   (8912133891, 171732233, 8912133891, -123683657); (8953974895, 165488456, 8953974895, -119287902); (8995815900, 159217352, 8995815900, -114864820);
   (9037656904, 152918753, 9037656904, -110414244); (9079497908, 146592489, 9079497908, -105936001); (9121338912, 140238380, 9121338912, -101429915);
   (9163179916, 133856245, 9163179916, -96895802); (9205020921, 127445895, 9205020921, -92333474); (9246861925, 121007137, 9246861925, -87742739);
   (9288702929, 114539772, 9288702929, -83123396); (9330543933, 108043597, 9330543933, -78475243); (9372384937, 101518402, 9372384937, -73798070);
   (9414225941, 94963973, 9414225941, -69091662); (9456066946, 88380090, 9456066946, -64355802); (9497907950, 81766528, 9497907950, -59590262);
   (9539748954, 75123058, 9539748954, -54794815); (9581589958, 68449445, 9581589958, -49969224); (9623430962, 61745448, 9623430962, -45113249);
   (9665271967, 55010822, 9665271967, -40226644); (9707112971, 48245315, 9707112971, -35309160); (9748953975, 41448673, 9748953975, -30360540);
   (9790794979, 34620635, 9790794979, -25380524); (9832635983, 27760933, 9832635983, -20368845); (9874476987, 20869298, 9874476987, -15325231);
   (9916317992, 13945452, 9916317992, -10249408); (9958158996, 6989115, 9958158996, -5141093); (10000000000, 0, 10000000000, 0)].

(** tests/test_datasets/naca5_23112_*.npy. *)
Definition rows_naca_23112 : list (Z * Z * Z * Z) :=
  [(0, 0, 0, 0); (6662514, 120497323, 77019494, -92227997); (36420000, 176858811, 130944017, -121496960);
   (70467011, 222252398, 180579014, -140951687); (106901285, 261692856, 227826748, -155583811); (144951815, 297116033, 273458227, -167306045);
   (184204407, 329513373, 317887643, -177086696); (224400778, 359474455, 361373281, -185492206); (265363872, 387384954, 404092195, -192885114);
   (306964033, 413514743, 446174042, -199512155); (349101576, 438062522, 487718508, -205548895); (391696945, 461180614, 528805147, -211124517);
   (434684770, 482989712, 569499331, -216336580); (478010062, 503588152, 609856047, -221260282); (521625693, 523057989, 649922424, -225954541);
   (565490645, 541469127, 689739480, -230466125); (609568771, 558882211, 729343363, -234832543); (653827884, 575350702, 768766259, -239084118);
   (698239086, 590922394, 808037065, -243245507); (742776248, 605640548, 847181911, -247336837); (787415611, 619544756, 886224556, -251374560);
   (832135469, 632671594, 925186706, -255372117); (876915917, 645055143, 964088267, -259340453); (921738644, 656727387, 1002947549, -263288414);
   (966586761, 667718540, 1041781440, -267223077); (1011444663, 678057294, 1080605546, -271150000); (1056297906, 687771036, 1119434312, -275073430);
   (1101133101, 696886007, 1158281125, -278996473); (1145937832, 705427445, 1197158402, -282921231); (1190700572, 713419699, 1236077671, -286848915);
   (1235410613, 720886316, 1275049638, -290779936); (1280058011, 727850127, 1314084248, -294713988); (1324633525, 734333308, 1353190743, -298650110);
   (1369128569, 740357435, 1392377707, -302586741); (1413535168, 745943530, 1431653117, -306521769); (1457845912, 751112105, 1471024381, -310452567);
   (1502053926, 755883191, 1510498375, -314376028); (1546152827, 760276367, 1550081483, -318288598); (1590136694, 764310791, 1589779624, -322186295);
   (1634000043, 768005215, 1629598283, -326064736); (1677737793, 771378008, 1669542542, -329919154); (1721345240, 774447173, 1709617103, -333744414);
   (1764818041, 777230363, 1749826311, -337535032); (1808152182, 779744889, 1790174178, -341285184); (1851343965, 782007740, 1830664403, -344988720);
   (1894389985, 784035587, 1871300392, -348639176); (1937287113, 785844796, 1912085272, -352229783); (1980032481, 787451440, 1953021912, -355753473);
   (2022623468, 788871298, 1994112934, -359202892); (2065057682, 790119875, 2035360728, -362570406); (2107332952, 791212397, 2076767466, -365848105);
   (2149447317, 792163825, 2118335109, -369027815); (2191400523, 792988816, 2160063912, -372101064); (2233290824, 793696318, 2201855619, -375059303);
   (2275178028, 794288641, 2243650424, -377902363); (2317062203, 794768354, 2285448257, -380632812); (2358943416, 795137928, 2327249053, -383253122);
   (2400821730, 795399740, 2369052747, -385765672); (2442697207, 795556085, 2410859278, -388172753); (2484569908, 795609171, 2452668586, -390476575);
   (2526439888, 795561131, 2494480614, -392679272); (2568307204, 795414026, 2536295307, -394782903); (2610171909, 795169845, 2578112610, -396789459);
   (2652034054, 794830514, 2619932473, -398700865); (2693893691, 794397895, 2661754845, -400518983); (2735750867, 793873794, 2703579677, -402245618);
   (2777605629, 793259956, 2745406923, -403882517); (2819458024, 792558077, 2787236537, -405431375); (2861308095, 791769800, 2829068474, -406893835);
   (2903155884, 790896721, 2870902693, -408271492); (2945001435, 789940388, 2912739151, -409565896); (2986844787, 788902306, 2954577807, -410778550);
   (3028685979, 787783938, 2996418623, -411910918); (3070525051, 786586704, 3038261560, -412964422); (3112362038, 785311990, 3080106581, -413940444);
   (3154196978, 783961142, 3121953650, -414840332); (3196029905, 782535469, 3163802731, -415665396); (3237860854, 781036248, 3205653791, -416416912);
   (3279689858, 779464725, 3247506795, -417096125); (3321516950, 777822110, 3289361711, -417704247); (3363342162, 776109585, 3331218508, -418242459);
   (3405165524, 774328304, 3373077153, -418711915); (3446987068, 772479391, 3414937618, -419113738); (3488806822, 770563943, 3456799873, -419449027);
   (3530624815, 768583032, 3498663888, -419718852); (3572441076, 766537703, 3540529635, -419924260); (3614255631, 764428978, 3582397088, -420066272);
   (3656068509, 762257854, 3624266219, -420145885); (3697879734, 760025307, 3666137003, -420164074); (3739689332, 757732289, 3708009412, -420121792);
   (3781497330, 755379731, 3749883423, -420019971); (3823303750, 752968544, 3791759011, -419859521); (3865108618, 750499618, 3833636152, -419641332);
   (3906911956, 747973824, 3875514823, -419366274); (3948713787, 745392013, 3917395000, -419035200); (3990514134, 742755019, 3959276661, -418648943);
   (4032313019, 740063656, 4001159785, -418208317); (4074110462, 737318723, 4043044349, -417714120); (4115906486, 734520999, 4084930334, -417167133);
   (4157701111, 731671250, 4126817717, -416568120); (4199494357, 728770222, 4168706480, -415917829); (4241286243, 725818648, 4210596603, -415216991);
   (4283076788, 722817244, 4252488065, -414466324); (4324866013, 719766713, 4294380849, -413666530); (4366653934, 716667741, 4336274936, -412818295);
   (4408440571, 713521002, 4378170307, -411922292); (4450225941, 710327153, 4420066946, -410979180); (4492010061, 707086840, 4461964835, -409989603);
   (4533792948, 703800695, 4503863956, -408954195); (4575574619, 700469336, 4545764293, -407873573); (4617355091, 697093370, 4587665830, -406748343);
   (4659134378, 693673389, 4629568551, -405579099); (4700912498, 690209974, 4671472440, -404366421); (4742689464, 686703695, 4713377481, -403110878);
   (4784465293, 683155107, 4755283661, -401813027); (4826239998, 679564758, 4797190964, -400473414); (4868013594, 675933180, 4839099376, -399092573);
   (4909786096, 672260897, 4881008883, -397671027); (4951557517, 668548420, 4922919471, -396209287); (4993327870, 664796251, 4964831126, -394707854);
   (5035097168, 661004879, 5006743836, -393167219); (5076865425, 657174785, 5048657587, -391587862); (5118632653, 653306439, 5090572368, -389970252);
   (5160398865, 649400300, 5132488164, -388314850); (5202164072, 645456818, 5174404965, -386622104); (5243928287, 641476432, 5216322759, -384892454);
   (5285691521, 637459572, 5258241533, -383126332); (5327453785, 633406660, 5300161278, -381324156); (5369215091, 629318107, 5342081981, -379486340);
   (5410975448, 625194314, 5384003631, -377613283); (5452734869, 621035674, 5425926219, -375705381); (5494493362, 616842572, 5467849734, -373763015);
   (5536250939, 612615383, 5509774166, -371786562); (5578007608, 608354472, 5551699505, -369776388); (5619763381, 604060197, 5593625741, -367732849);
   (5661518265, 599732907, 5635552865, -365656296); (5703272271, 595372943, 5677480868, -363547069); (5745025406, 590980637, 5719409740, -361405499);
   (5786777681, 586556313, 5761339474, -359231912); (5828529102, 582100287, 5803270061, -357026623); (5870279680, 577612866, 5845201492, -354789939);
   (5912029421, 573094351, 5887133759, -352522160); (5953778334, 568545033, 5929066855, -350223579); (5995526425, 563965196, 5971000771, -347894479);
   (6037273704, 559355117, 6012935501, -345535136); (6079020176, 554715064, 6054871038, -343145820); (6120765849, 550045298, 6096807373, -340726791);
   (6162510729, 545346073, 6138744501, -338278302); (6204254824, 540617636, 6180682414, -335800601); (6245998140, 535860224, 6222621107, -333293926);
   (6287740683, 531074069, 6264560573, -330758508); (6329482458, 526259395, 6306500805, -328194571); (6371223472, 521416420, 6348441800, -325602333);
   (6412963731, 516545354, 6390383549, -322982002); (6454703240, 511646398, 6432326049, -320333783); (6496442004, 506719749, 6474269293, -317657871);
   (6538180028, 501765596, 6516213278, -314954455); (6579917317, 496784121, 6558157997, -312223716); (6621653876, 491775499, 6600103446, -309465831);
   (6663389709, 486739897, 6642049621, -306680966); (6705124821, 481677479, 6683996518, -303869284); (6746859216, 476588398, 6725944131, -301030940);
   (6788592898, 471472802, 6767892458, -298166081); (6830325871, 466330835, 6809841493, -295274850); (6872058137, 461162629, 6851791235, -292357381);
   (6913789702, 455968315, 6893741679, -289413803); (6955520568, 450748013, 6935692822, -286444238); (6997250737, 445501840, 6977644660, -283448802);
   (7038980214, 440229905, 7019597192, -280427603); (7080709001, 434932310, 7061550413, -277380745); (7122437100, 429609152, 7103504322, -274308324);
   (7164164514, 424260522, 7145458917, -271210430); (7205891245, 418886502, 7187414194, -268087147); (7247617296, 413487172, 7229370152, -264938553);
   (7289342667, 408062601, 7271326789, -261764720); (7331067362, 402612857, 7313284103, -258565712); (7372791381, 397137997, 7355242092, -255341589);
   (7414514726, 391638076, 7397200756, -252092404); (7456237398, 386113140, 7439160092, -248818205); (7497959398, 380563230, 7481120100, -245519032);
   (7539680728, 374988382, 7523080779, -242194920); (7581401387, 369388623, 7565042127, -238845898); (7623121378, 363763979, 7607004145, -235471990);
   (7664840699, 358114465, 7648966832, -232073213); (7706559352, 352440093, 7690930188, -228649578); (7748277336, 346740869, 7732894212, -225201090);
   (7789994652, 341016791, 7774858904, -221727749); (7831711299, 335267855, 7816824266, -218229549); (7873427278, 329494047, 7858790296, -214706478);
   (7915142587, 323695349, 7900756995, -211158517); (7956857225, 317871740, 7942724365, -207585644); (7998571193, 312023188, 7984692405, -203987829);
   (8040284490, 306149659, 8026661117, -200365037); (8081997113, 300251112, 8068630502, -196717227); (8123709062, 294327501, 8110600561, -193044352);
   (8165420336, 288378774, 8152571296, -189346362); (8207130932, 282404873, 8194542708, -185623197); (8248840850, 276405735, 8236514798, -181874796);
   (8290550087, 270381290, 8278487570, -178101088); (8332258642, 264331465, 8320461023, -174302000); (8373966512, 258256180, 8362435162, -170477451);
   (8415673694, 252155348, 8404409988, -166627355); (8457380187, 246028879, 8446385503, -162751623); (8499085988, 239876676, 8488361711, -158850157);
   (8540791094, 233698637, 8530338613, -154922854); (8582495502, 227494655, 8572316213, -150969609); (8624199210, 221264616, 8614294514, -146990306);
   (8665902213, 215008401, 8656273519, -142984829); (8707604509, 208725888, 8698253231, -138953053); (8749306095, 202416947, 8740233654, -134894848);
   (8791006965, 196081443, 8782214792, -130810080); (8832707118, 189719235, 8824196648, -126698609); (8874406548, 183330179, 8866179226, -122560290);
   (8916105253, 176914124, 8908162530, -118394971); (8957803227, 170470912, 8950146564, -114202496); (8999500466, 164000384, 8992131334, -109982704);
   (9041196966, 157502371, 9034116842, -105735429); (9082892722, 150976702, 9076103094, -101460496); (9124587729, 144423200, 9118090095, -97157730);
   (9166281983, 137841681, 9160077850, -92826948); (9207975478, 131231957, 9202066363, -88467961); (9249668210, 124593835, 9244055640, -84080576);
   (9291360172, 117927117, 9286045686, -79664594); (9333051360, 111231599, 9328036506, -75219813); (9374741767, 104507071, 9370028107, -70746022);
   (9416431389, 97753320, 9412020494, -66243007); (9458120218, 90970126, 9454013673, -61710550); (9499808250, 84157264, 9496007649, -57148425);
   (9541495478, 77314505, 9538002430, -52556402); (9583181895, 70441613, 9579998022, -47934246); (9624867495, 63538348, 9621994430, -43281718);
   (9666552271, 56604465, 9663991662, -38598572); (9708236218, 49639713, 9705989724, -33884557); (9749919327, 42643837, 9747988623, -29139417);
   (9791601592, 35616575, 9789988366, -24362892); (9833283006, 28557662, 9831988961, -19554716); (9874963561, 21466827, 9873990414, -14714617);
   (9916643250, 14343793, 9915992733, -9842320); (9958322066, 7188280, 9957995926, -4937543); (10000000000, 0, 10000000000, 0)].

