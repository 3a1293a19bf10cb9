(** The recorded five-digit foils (tests/test_datasets/naca5_*.npy, binary64 arrays) against
    the binary64 model, bit for bit.  Not claims.  The values of the
    splines are not recorded: the two numbers of [recorded_splines] were searched for
    among the neighbours of the tabulated 0.2025 and 15.957, so the check is of
    the formulas, not of the splines. *)
From Coq Require Import ZArith List Bool.
From Flocq Require Import Core BinarySingleNaN.
From Verif Require Import Base PpgFloatModel FloatModel ShapeFloatModel SectionFloatModel NacaFloatModel NacaFiveModel ValidNacaFloat.
Import ListNotations.
Open Scope Z_scope.

(** 0.20250000000000004 and 15.95700000000001: one and five units in the last place above the tables. *)
Definition recorded_splines : splines :=
  {| junction64 := fun _ _ => @B754_finite 53 1024 false 7295831396340205 (-55) eq_refl;
     strength64 := fun _ _ => @B754_finite 53 1024 false 8982992406743881 (-49) eq_refl |}.

(** naca5_23012_yup_linear.npy *)
Definition yup_23012 : list (Z * Z) := [
(0, 0); (7177705556936524, -59); (5214083769552006, -58); (6501507183589836, -58); (7605880586203066, -58); (8587367325394098, -58);
(4738498557235040, -57); (5146674095380094, -57); (5524324919342154, -57); (5875752820797043, -57); (6204138447745438, -57); (6511926660770799, -57);
(6801056659010136, -57); (7073107080644014, -57); (7329391585497992, -57); (7571024129678038, -57); (7798964910811465, -57); (8014053550931090, -57);
(8217033599637405, -57); (8408570980987577, -57); (8589268118968208, -57); (8759674917996964, -57); (8920297414148124, -57); (4535802336983975, -56);
(4607017178071086, -56); (4673998619881471, -56); (4736940472308502, -56); (4796026506505230, -56); (4851431741076099, -56); (4903323523195923, -56);
(4951862443257462, -56); (4997203113344832, -56); (5039494833521415, -56); (5078882165081040, -56); (5115505426164413, -56); (5149501122217070, -56);
(5181002321462685, -56); (5210138983739841, -56); (5237038249592533, -56); (5261824695333020, -56); (5284620558847911, -56); (5305545940147496, -56);
(5324718980027585, -56); (5342256019694524, -56); (5358271743775381, -56); (5372879308779324, -56); (5386190458779327, -56); (5398315629834535, -56);
(5409364044464430, -56); (5419440727176111, -56); (5428604165914464, -56); (5436877083456758, -56); (5444280406374686, -56); (5450834205754455, -56);
(5456557751271475, -56); (5461469560778490, -56); (5465587445853916, -56); (5468928553705483, -56); (5471509405779418, -56); (5473345933386320, -56);
(5474453510620721, -56); (5474846984821427, -56); (5474540704793559, -56); (5473548546990037, -56); (5471883939830044, -56); (5469559886313941, -56);
(5466588985078282, -56); (5462983450020433, -56); (5458755128609826, -56); (5453915518991689, -56); (5448475785979167, -56); (5442446776020909, -56);
(5435839031223180, -56); (5428662802498522, -56); (5420928061906531, -56); (5412644514246611, -56); (5403821607957400, -56); (5394468545372848, -56);
(5384594292380815, -56); (5374207587526129, -56); (5363316950596705, -56); (5351930690728148, -56); (5340056914059444, -56); (5327703530969733, -56);
(5314878262923885, -56); (5301588648952398, -56); (5287842051789203, -56); (5273645663689219, -56); (5259006511945835, -56); (5243931464127003, -56);
(5228427233047326, -56); (5212500381492194, -56); (5196157326708938, -56); (5179404344678878, -56); (5162247574183198, -56); (5144693020674686, -56);
(5126746559966534, -56); (5108413941748665, -56); (5089700792941334, -56); (5070612620895138, -56); (5051154816445893, -56); (5031332656832405, -56);
(5011151308484534, -56); (4990615829688560, -56); (4969731173136377, -56); (4948502188364616, -56); (4926933624089521, -56); (4905030130442885, -56);
(4882796261114193, -56); (4860236475403711, -56); (4837355140190973, -56); (4814156531822954, -56); (4790644837925848, -56); (4766824159144194, -56);
(4742698510810929, -56); (4718271824551615, -56); (4693547949826073, -56); (4668530655410291, -56); (4643223630821486, -56); (4617630487688924, -56);
(4591754761072998, -56); (4565599910734960, -56); (4539169322359510, -56); (4512466308732392, -56); (8970988221749938, -57); (8916511798275506, -57);
(8861509548509178, -57); (8805987536718590, -57); (8749951691932693, -57); (8693407809834275, -57); (8636361554586610, -57); (8578818460596999, -57);
(8520783934219800, -57); (8462263255401593, -57); (8403261579270683, -57); (8343783937673412, -57); (8283835240659286, -57); (8223420277917077, -57);
(8162543720163858, -57); (8101210120488792, -57); (8039423915653493, -57); (7977189427350686, -57); (7914510863422764, -57); (7851392319041770, -57);
(7787837777852332, -57); (7723851113078940, -57); (7659436088598920, -57); (7594596359982368, -57); (7529335475500322, -57); (7463656877102371, -57);
(7397563901364677, -57); (7331059780409733, -57); (7264147642798654, -57); (7196830514397161, -57); (7129111319216090, -57); (7060992880227400, -57);
(6992477920156547, -57); (6923569062251988, -57); (6854268831032722, -57); (6784579653014512, -57); (6714503857415636, -57); (6644043676842798, -57);
(6573201247957895, -57); (6501978612126300, -57); (6430377716047269, -57); (6358400412367049, -57); (6286048460275364, -57); (6213323526085674, -57);
(6140227183799866, -57); (6066760915657832, -57); (5992926112672425, -57); (5918724075150292, -57); (5844156013199004, -57); (5769223047220963, -57);
(5693926208394428, -57); (5618266439142184, -57); (5542244593588134, -57); (5465861438002220, -57); (5389117651234117, -57); (5312013825135890, -57);
(5234550464974110, -57); (5156727989831640, -57); (5078546732999451, -57); (5000006942358811, -57); (4921108780753998, -57); (4841852326355979, -57);
(4762237573017276, -57); (4682264430618138, -57); (4601932725404554, -57); (4521242200318051, -57); (8880385030635471, -58); (8717566495389350, -58);
(8554027784757781, -58); (8389767724478327, -58); (8224784976751792, -58); (8059078040814212, -58); (7892645253495846, -58); (7725484789767192, -58);
(7557594663272670, -58); (7388972726852111, -58); (7219616673050506, -58); (7049524034616286, -58); (6878692184988468, -58); (6707118338772929, -58);
(6534799552208244, -58); (6361732723621033, -58); (6187914593871652, -58); (6013341746789813, -58); (5838010609601024, -58); (5661917453343649, -58);
(5485058393277085, -58); (5307429389281138, -58); (5129026246246904, -58); (4949844614459440, -58); (4769879989972277, -58); (4589127714974043, -58);
(8815165956295111, -59); (8450481630042556, -59); (8084192216627213, -59); (7716287176540058, -59); (7346755665986672, -59); (6975586537534315, -59);
(6602768340745538, -59); (6228289322799449, -59); (5852137429099930, -59); (5474300303871998, -59); (5094765290746216, -59); (4713519433331226, -59);
(8661098951550623, -60); (7891683726633181, -60); (7118765485645070, -60); (6342315926638281, -60); (5562306153018444, -60); (4778706674562609, -60);
(7982974816833827, -61); (6401235360149068, -61); (4812132448672039, -61); (6431204745001066, -62); (6446320976307370, -63); (-5404319552844595, -108)].
(** naca5_23012_ydown_linear.npy *)
Definition ydown_23012 : list (Z * Z) := [
(0, 0); (-5738381785884194, -59); (-7613392320850823, -59); (-8875312437120919, -59); (-4916154838740468, -58); (-5301681574739754, -58);
(-5624592345637378, -58); (-5902791594534428, -58); (-6147834811622705, -58); (-6367651786025770, -58); (-6567930019516888, -58); (-6752885439034894,
-58); (-6925722648625720, -58); (-7088925130422408, -58); (-7244446409847992, -58); (-7393840604886320, -58); (-7538354316563934, -58);
(-7678992994718380, -58); (-7816569944322554, -58); (-7951743219262702, -58); (-8085043873283945, -58); (-8216897920993531, -58); (-8347643640311923,
-58); (-8477545370103565, -58); (-8606804633511826, -58); (-8735569194492928, -58); (-8863940498392269, -58); (-8991979835593966, -58);
(-4559856743143858, -57); (-4623568522472340, -57); (-4687109539453903, -57); (-4750452121142746, -57); (-4813557970551580, -57); (-4876379313154022,
-57); (-4938859888117444, -57); (-5000935809218868, -57); (-5062536315791608, -57); (-5123584430398780, -57); (-5183997537014330, -57);
(-5243687891148739, -57); (-5302563071461176, -57); (-5360526380858182, -57); (-5417477203817328, -57); (-5473311325637269, -57); (-5527921218458092,
-57); (-5581196298184093, -57); (-5633023155847176, -57); (-5683285766451586, -57); (-5731865677922249, -57); (-5778648322691682, -57);
(-5823608006124497, -57); (-5866786647165191, -57); (-5908226098957156, -57); (-5947966503672802, -57); (-5986046400662952, -57); (-6022502825633090,
-57); (-6057371401740048, -57); (-6090686423399292, -57); (-6122480933503270, -57); (-6152786794673180, -57); (-6181634755098090, -57);
(-6209054509455610, -57); (-6235074755355982, -57); (-6259723245705046, -57); (-6283026837341170, -57); (-6305011536265072, -57); (-6325702539749863,
-57); (-6345124275590272, -57); (-6363300438725166, -57); (-6380254025445000, -57); (-6396007365376064, -57); (-6410582151415656, -57);
(-6423999467776307, -57); (-6436279816283099, -57); (-6447443141055226, -57); (-6457508851691492, -57); (-6466495845069178, -57); (-6474422525856183,
-57); (-6481306825828226, -57); (-6487166222074961, -57); (-6492017754172222, -57); (-6495878040391216, -57); (-6498763293009916, -57);
(-6500689332786601, -57); (-6501671602651014, -57); (-6501725180664147, -57); (-6500864792293865, -57); (-6499104822050005, -57); (-6496459324519346,
-57); (-6492942034837790, -57); (-6488566378634545, -57); (-6483345481480389, -57); (-6477292177869984, -57); (-6470419019765973, -57);
(-6462738284730720, -57); (-6454261983669804, -57); (-6445001868209608, -57); (-6434969437729978, -57); (-6424175946071424, -57); (-6412632407935141,
-57); (-6400349604992760, -57); (-6387338091721890, -57); (-6373608200982256, -57); (-6359170049346418, -57); (-6344033542198160, -57);
(-6328208378610747, -57); (-6311704056016664, -57); (-6294529874679499, -57); (-6276694941978224, -57); (-6258208176513368, -57); (-6239078312044000,
-57); (-6219313901264071, -57); (-6198923319425966, -57); (-6177914767818766, -57); (-6156296277108344, -57); (-6134075710545826, -57);
(-6111260767050848, -57); (-6087858984175392, -57); (-6063877740953892, -57); (-6039324260644875, -57); (-6014205613369132, -57); (-5988528718649164,
-57); (-5962300347854373, -57); (-5935527126556243, -57); (-5908215536797506, -57); (-5880371919279182, -57); (-5852002475468962, -57);
(-5823113269634482, -57); (-5793710230804693, -57); (-5763799154662383, -57); (-5733385705370826, -57); (-5702475417337323, -57); (-5671073696916234,
-57); (-5639185824054133, -57); (-5606816953879331, -57); (-5573972118238170, -57); (-5540656227180150, -57); (-5506874070394051, -57);
(-5472630318596940, -57); (-5437929524877982, -57); (-5402776125998791, -57); (-5367174443652092, -57); (-5331128685680278, -57); (-5294642947255392,
-57); (-5257721212022062, -57); (-5220367353204778, -57); (-5182585134680866, -57); (-5144378212020422, -57); (-5105750133494484, -57);
(-5066704341052641, -57); (-5027244171271055, -57); (-4987372856272219, -57); (-4947093524617250, -57); (-4906409202171863, -57); (-4865322812946900,
-57); (-4823837179914320, -57); (-4781955025799573, -57); (-4739678973851124, -57); (-4697011548587966, -57); (-4653955176525862, -57);
(-4610512186883096, -57); (-4566684812266366, -57); (-4522475189337571, -57); (-8955770718924168, -58); (-8865834538678322, -58); (-8775145543230098,
-58); (-8683707250958944, -58); (-8591522994491780, -58); (-8498595921832380, -58); (-8404928997460528, -58); (-8310525003401930, -58);
(-8215386540269880, -58); (-8119516028279523, -58); (-8022915708235655, -58); (-7925587642494800, -58); (-7827533715902531, -58); (-7728755636706645,
-58); (-7629254937447036, -58); (-7529032975823045, -58); (-7428090935538805, -58); (-7326429827127464, -58); (-7224050488754738, -58);
(-7120953587002578, -58); (-7017139617633514, -58); (-6912608906336104, -58); (-6807361609452283, -58); (-6701397714687091, -58); (-6594717041801032,
-58); (-6487319243286081, -58); (-6379203805025290, -58); (-6270370046936877, -58); (-6160817123602972, -58); (-6050544024883617, -58);
(-5939549576516381, -58); (-5827832440702062, -58); (-5715391116676698, -58); (-5602223941270548, -58); (-5488329089454110, -58); (-5373704574871804,
-58); (-5258348250363461, -58); (-5142257808474074, -58); (-5025430781952068, -58); (-4907864544236466, -58); (-4789556309933145, -58);
(-4670503135280676, -58); (-4550701918605681, -58); (-8860298801537032, -59); (-8617684331197786, -59); (-8373553280644641, -59); (-8127898191954322,
-59); (-7880711295645630, -59); (-7631984511478165, -59); (-7381709449234130, -59); (-7129877409483635, -59); (-6876479384333740, -59);
(-6621506058161706, -59); (-6364947808333163, -59); (-6106794705905040, -59); (-5847036516314131, -59); (-5585662700051408, -59); (-5322662413322454,
-59); (-5058024508694529, -59); (-4791737535730184, -59); (-4523789741608529, -59); (-8508338143466881, -60); (-7965726340659887, -60);
(-7419718762057185, -60); (-6870289494876068, -60); (-6317412027413107, -60); (-5761059250144527, -60); (-5201203456805284, -60); (-4637816345447357,
-60); (-8141738038952768, -61); (-7000663977338833, -61); (-5852350340345167, -61); (-4696735778958144, -61); (-7067515525557682, -62);
(-4726705163810120, -62); (-4741821395116424, -63); (5404319552844595, -108)].

(** naca5_00012_*.npy: the arrays of NACA 0012. *)
Example recorded_00012_bits : match naca_foil5_64 rounded_library recorded_splines 0 0 0 1 2 true 240 with
  | Ok p => map bits (fxup p) = xup_0012 /\ map bits (fyup p) = yup_0012 /\ map bits (fxdown p) = xup_0012 /\
      map bits (fydown p) = map (fun b => (- fst b, snd b)) yup_0012
  | Err _ => False
  end.
Proof. vm_compute. repeat split. Qed.
(** NACA 23012 with linear spacing. *)
Example recorded_23012_bits : match naca_foil5_64 rounded_library recorded_splines 2 3 0 1 2 false 240 with
  | Ok p => map bits (fxup p) = xup_0012 /\ map bits (fyup p) = yup_23012 /\ map bits (fydown p) = ydown_23012
  | Err _ => False
  end.
Proof. vm_compute. repeat split. Qed.
