(** The recorded NACA foils (tests/test_datasets/naca4_*.npy, binary64 arrays) against
    the binary64 model, bit for bit.  Not claims.  A number is written
    as signed mantissa and exponent. *)
From Coq Require Import ZArith List Bool.
From Flocq Require Import Core BinarySingleNaN.
From Verif Require Import Base PpgFloatModel FloatModel ShapeFloatModel SectionFloatModel NacaFloatModel.
Import ListNotations.
Open Scope Z_scope.

(** Correctly rounded powers; no angles, the foils below do not use them. *)
Definition rounded_power (x : b64) (k : Z) : b64 :=
  match x with
  | B754_finite false m e _ => @binary_normalize 53 1024 prec64 emax64 mode_NE (Z.pos m ^ k) (e * k) false
  | _ => zero64
  end.
Definition rounded_library : mathlib := {| pow64 := rounded_power; atan64 := fun x => x; sin64 := fun x => x; cos64 := fun x => x |}.
Definition bits (x : b64) : Z * Z :=
  match x with
  | B754_finite s m e _ => (if s then Z.neg m else Z.pos m, e)
  | B754_zero _ => (0, 0)
  | _ => (1, 10000)
  end.

(** naca4_0012_xup.npy *)
Definition xup_0012 : list (Z * Z) := [
(0, 0); (4823939349819443, -60); (4823939349819443, -59); (7235909024729164, -59); (4823939349819443, -58); (6029924187274304, -58);
(7235909024729164, -58); (8441893862184025, -58); (4823939349819443, -57); (5426931768546873, -57); (6029924187274304, -57); (6632916606001734, -57);
(7235909024729164, -57); (7838901443456595, -57); (8441893862184025, -57); (4522443140455728, -56); (4823939349819443, -56); (5125435559183158, -56);
(5426931768546873, -56); (5728427977910589, -56); (6029924187274304, -56); (6331420396638019, -56); (6632916606001734, -56); (6934412815365449, -56);
(7235909024729164, -56); (7537405234092880, -56); (7838901443456595, -56); (8140397652820310, -56); (8441893862184025, -56); (8743390071547740, -56);
(4522443140455728, -55); (4673191245137585, -55); (4823939349819443, -55); (4974687454501301, -55); (5125435559183158, -55); (5276183663865016, -55);
(5426931768546873, -55); (5577679873228731, -55); (5728427977910589, -55); (5879176082592446, -55); (6029924187274304, -55); (6180672291956161, -55);
(6331420396638019, -55); (6482168501319877, -55); (6632916606001734, -55); (6783664710683592, -55); (6934412815365449, -55); (7085160920047307, -55);
(7235909024729164, -55); (7386657129411022, -55); (7537405234092880, -55); (7688153338774737, -55); (7838901443456595, -55); (7989649548138452, -55);
(8140397652820310, -55); (8291145757502168, -55); (8441893862184025, -55); (8592641966865883, -55); (8743390071547740, -55); (8894138176229598, -55);
(4522443140455728, -54); (4597817192796657, -54); (4673191245137585, -54); (4748565297478514, -54); (4823939349819443, -54); (4899313402160372, -54);
(4974687454501301, -54); (5050061506842229, -54); (5125435559183158, -54); (5200809611524087, -54); (5276183663865016, -54); (5351557716205945, -54);
(5426931768546873, -54); (5502305820887802, -54); (5577679873228731, -54); (5653053925569660, -54); (5728427977910589, -54); (5803802030251517, -54);
(5879176082592446, -54); (5954550134933375, -54); (6029924187274304, -54); (6105298239615233, -54); (6180672291956161, -54); (6256046344297090, -54);
(6331420396638019, -54); (6406794448978948, -54); (6482168501319877, -54); (6557542553660805, -54); (6632916606001734, -54); (6708290658342663, -54);
(6783664710683592, -54); (6859038763024521, -54); (6934412815365449, -54); (7009786867706378, -54); (7085160920047307, -54); (7160534972388236, -54);
(7235909024729164, -54); (7311283077070093, -54); (7386657129411022, -54); (7462031181751951, -54); (7537405234092880, -54); (7612779286433808, -54);
(7688153338774737, -54); (7763527391115666, -54); (7838901443456595, -54); (7914275495797524, -54); (7989649548138452, -54); (8065023600479381, -54);
(8140397652820310, -54); (8215771705161239, -54); (8291145757502168, -54); (8366519809843096, -54); (8441893862184025, -54); (8517267914524954, -54);
(8592641966865883, -54); (8668016019206812, -54); (8743390071547740, -54); (8818764123888669, -54); (8894138176229598, -54); (8969512228570527, -54);
(4522443140455728, -53); (4560130166626192, -53); (4597817192796657, -53); (4635504218967121, -53); (4673191245137585, -53); (4710878271308050, -53);
(4748565297478514, -53); (4786252323648979, -53); (4823939349819443, -53); (4861626375989907, -53); (4899313402160372, -53); (4937000428330836, -53);
(4974687454501301, -53); (5012374480671765, -53); (5050061506842229, -53); (5087748533012694, -53); (5125435559183158, -53); (5163122585353623, -53);
(5200809611524087, -53); (5238496637694551, -53); (5276183663865016, -53); (5313870690035480, -53); (5351557716205945, -53); (5389244742376409, -53);
(5426931768546873, -53); (5464618794717338, -53); (5502305820887802, -53); (5539992847058267, -53); (5577679873228731, -53); (5615366899399195, -53);
(5653053925569660, -53); (5690740951740124, -53); (5728427977910589, -53); (5766115004081053, -53); (5803802030251517, -53); (5841489056421982, -53);
(5879176082592446, -53); (5916863108762911, -53); (5954550134933375, -53); (5992237161103839, -53); (6029924187274304, -53); (6067611213444768, -53);
(6105298239615233, -53); (6142985265785697, -53); (6180672291956161, -53); (6218359318126626, -53); (6256046344297090, -53); (6293733370467555, -53);
(6331420396638019, -53); (6369107422808483, -53); (6406794448978948, -53); (6444481475149412, -53); (6482168501319877, -53); (6519855527490341, -53);
(6557542553660805, -53); (6595229579831270, -53); (6632916606001734, -53); (6670603632172199, -53); (6708290658342663, -53); (6745977684513127, -53);
(6783664710683592, -53); (6821351736854056, -53); (6859038763024521, -53); (6896725789194985, -53); (6934412815365449, -53); (6972099841535914, -53);
(7009786867706378, -53); (7047473893876843, -53); (7085160920047307, -53); (7122847946217771, -53); (7160534972388236, -53); (7198221998558700, -53);
(7235909024729164, -53); (7273596050899629, -53); (7311283077070093, -53); (7348970103240558, -53); (7386657129411022, -53); (7424344155581486, -53);
(7462031181751951, -53); (7499718207922415, -53); (7537405234092880, -53); (7575092260263344, -53); (7612779286433808, -53); (7650466312604273, -53);
(7688153338774737, -53); (7725840364945202, -53); (7763527391115666, -53); (7801214417286130, -53); (7838901443456595, -53); (7876588469627059, -53);
(7914275495797524, -53); (7951962521967988, -53); (7989649548138452, -53); (8027336574308917, -53); (8065023600479381, -53); (8102710626649846, -53);
(8140397652820310, -53); (8178084678990774, -53); (8215771705161239, -53); (8253458731331703, -53); (8291145757502168, -53); (8328832783672632, -53);
(8366519809843096, -53); (8404206836013561, -53); (8441893862184025, -53); (8479580888354490, -53); (8517267914524954, -53); (8554954940695418, -53);
(8592641966865883, -53); (8630328993036347, -53); (8668016019206812, -53); (8705703045377276, -53); (8743390071547740, -53); (8781077097718205, -53);
(8818764123888669, -53); (8856451150059134, -53); (8894138176229598, -53); (8931825202400062, -53); (8969512228570527, -53); (4503599627370496, -52)].
(** naca4_0012_yup.npy *)
Definition yup_0012 : list (Z * Z) := [
(0, 0); (6458043671410359, -59); (4510389964988709, -58); (5469581701075148, -58); (6261017712471767, -58); (6944524450066926, -58);
(7550794730053729, -58); (8098069892647308, -58); (8598242325153506, -58); (4529789356904964, -57); (4744051728751941, -57); (4944184690144123, -57);
(5131958991661498, -57); (5308784822927609, -57); (5475807395210994, -57); (5633972216060599, -57); (5784071034546716, -57); (5926775024145140, -57);
(6062659285899341, -57); (6192221295309464, -57); (6315895027805090, -57); (6434061939246865, -57); (6547059617152043, -57); (6655188679509866, -57);
(6758718336449042, -57); (6857890918504703, -57); (6952925596906569, -57); (7044021465403721, -57); (7131360112648028, -57); (7215107784432093, -57);
(7295417212984413, -57); (7372429173916205, -57); (7446273818797205, -57); (7517071821658051, -57); (7584935370223135, -57); (7649969026826504, -57);
(7712270479358489, -57); (7771931198939231, -57); (7829037018099698, -57); (7883668640907389, -57); (7935902094578499, -57); (7985809130576587, -57);
(8033457581936249, -57); (8078911682513159, -57); (8122232353004427, -57); (8163477457871371, -57); (8202702036702915, -57); (8239958513060328, -57);
(8275296883425554, -57); (8308764888521952, -57); (8340408168976713, -57); (8370270407039353, -57); (8398393455853264, -57); (8424817457590856, -57);
(8449580951602951, -57); (8472720973595035, -57); (8494273146723940, -57); (8514271765405129, -57); (8532749872531053, -57); (8549739330722910, -57);
(8565270888169766, -57); (8579374239549232, -57); (8592078082471550, -57); (8603410169842560, -57); (8613397358500629, -57); (8622065654446477, -57);
(8629440254953214, -57); (8635545587815569, -57); (8640405347972409, -57); (8644042531714189, -57); (8646479468667199, -57); (8647737851728737, -57);
(8647838765111334, -57); (8646802710640072, -57); (8644649632434144, -57); (8641398940092357, -57); (8637069530491989, -57); (8631679808300940, -57);
(8625247705294928, -57); (8617790698563609, -57); (8609325827682816, -57); (8599869710923756, -57); (8589438560564402, -57); (8578048197363033, -57);
(8565714064249392, -57); (8552451239284471, -57); (8538274447936135, -57); (8523198074714221, -57); (8507236174205508, -57); (8490402481545898, -57);
(8472710422364599, -57); (8454173122232389, -57); (8434803415643930, -57); (8414613854561865, -57); (8393616716548558, -57); (8371824012509588, -57);
(8349247494071338, -57); (8325898660613654, -57); (8301788765977046, -57); (8276928824862708, -57); (8251329618942273, -57); (8225001702693350, -57);
(8197955408975662, -57); (8170200854361769, -57); (8141747944235457, -57); (8112606377669990, -57); (8082785652097853, -57); (8052295067782634, -57);
(8021143732103305, -57); (7989340563660395, -57); (7956894296212973, -57); (7923813482454990, -57); (7890106497638831, -57); (7855781543053577, -57);
(7820846649365101, -57); (7785309679824528, -57); (7749178333351497, -57); (7712460147497987, -57); (7675162501298432, -57); (7637292618011361, -57);
(7598857567757564, -57); (7559864270059542, -57); (7520319496286697, -57); (7480229872010513, -57); (7439601879273722, -57); (7398441858777344, -57);
(7356756011989070, -57); (7314550403176536, -57); (7271830961368693, -57); (7228603482248329, -57); (7184873629978718, -57); (7140646938967161, -57);
(7095928815568017, -57); (7050724539727863, -57); (7005039266575007, -57); (6958878027955791, -57); (6912245733919718, -57); (6865147174155564, -57);
(6817587019380399, -57); (6769569822683387, -57); (6721100020826142, -57); (6672181935501389, -57); (6622819774551521, -57); (6573017633148581, -57);
(6522779494937197, -57); (6472109233141859, -57); (6421010611639893, -57); (6369487286001395, -57); (6317542804497403, -57); (6265180609077506, -57);
(6212404036317866, -57); (6159216318340976, -57); (6105620583707952, -57); (6051619858284512, -57); (5997217066081495, -57); (5942415030070860, -57);
(5887216472978060, -57); (5831624018051556, -57); (5775640189810344, -57); (5719267414770187, -57); (5662508022149366, -57); (5605364244554582, -57);
(5547838218647733, -57); (5489931985794192, -57); (5431647492693215, -57); (5372986591991049, -57); (5313951042877418, -57); (5254542511665782, -57);
(5194762572358028, -57); (5134612707194048, -57); (5074094307186695, -57); (5013208672642616, -57); (4951957013669383, -57); (4890340450669395, -57);
(4828360014820914, -57); (4766016648546725, -57); (4703311205970728, -57); (4640244453362869, -57); (4576817069572820, -57); (4513029646452646, -57);
(8897765378537842, -58); (8768753234209009, -58); (8639023526500740, -58); (8508576751175568, -58); (8377413233922050, -58); (8245533131082121, -58);
(8112936430360821, -58); (7979622951518654, -58); (7845592347047595, -58); (7710844102830696, -58); (7575377538786174, -58); (7439191809496161, -58);
(7302285904820699, -58); (7164658650497354, -58); (7026308708726927, -58); (6887234578745455, -58); (6747434597383197, -58); (6606906939610651, -58);
(6465649619072237, -58); (6323660488607786, -58); (6180937240762290, -58); (6037477408284177, -58); (5893278364612467, -58); (5748337324353037, -58);
(5602651343744460, -58); (5456217321113357, -58); (5309031997320084, -58); (5161091956194353, -58); (5012393624961672, -58); (4862933274660405, -58);
(4712707020549950, -58); (4561710822510110, -58); (8819880970863969, -59); (8514783319201257, -59); (8208119682139147, -59); (7899880744054896, -59);
(7590056882314137, -59); (7278638167973798, -59); (6965614366470672, -59); (6650974938295733, -59); (6334709039654563, -59); (6016805523114422, -59);
(5697252938237861, -59); (5376039532203989, -59); (5053153250416685, -59); (4728581737100971, -59); (8804624671774809, -60); (8148664180769260, -60);
(7489255489481865, -60); (6826371488388854, -60); (6159984471225177, -60); (5490066136042819, -60); (4816587586247414, -60); (8279038663232025, -61);
(6917662578589497, -61); (5548985569553606, -61); (8345890211450880, -62); (5578954954405593, -62); (5594071185711897, -63); (-5404319552844595, -108)].
(** naca4_2412_yup_linear.npy *)
Definition yup_2412 : list (Z * Z) := [
(0, 0); (6697979148485583, -59); (4749063951648186, -58); (5825700445440741, -58); (6733319724127729, -58); (7531748238597509, -58);
(8251678805043186, -58); (8911352763679890, -58); (4761331250906733, -57); (5046937352840759, -57); (5315506887085677, -57); (5569316265667927, -57);
(5810136239167495, -57); (6039376997207925, -57); (6258183751057756, -57); (6467502008265933, -57); (6668123517902748, -57); (6860719453443996, -57);
(7045864915933147, -57); (7224057380870346, -57); (7395730823685174, -57); (7561266700238278, -57); (7721002598046910, -57); (7875239135100314, -57);
(8024245521527197, -57); (8168264087862691, -57); (8307514005336516, -57); (8442194367697753, -57); (8572486763598272, -57); (8698557438830674, -57);
(8820559125623458, -57); (8938632599587839, -57); (4526454006146777, -56); (4581753018885622, -56); (4635269431872647, -56); (4687055526274879, -56);
(4737160146037482, -56); (4785629026720526, -56); (4832505084589496, -56); (4877828671678140, -56); (4921637801594558, -56); (4963968350070527, -56);
(5004854233623347, -56); (5044327569180853, -56); (5082418817091602, -56); (5119156909586251, -56); (5154569366459264, -56); (5188682399491274, -56);
(5221521006923254, -56); (5253109059116883, -56); (5283469376385757, -56); (5312623799854632, -56); (5340593256095207, -56); (5367397816193685, -56);
(5393056749825478, -56); (5417588574843328, -56); (5441011102825652, -56); (5463341480980181, -56); (5484596230753140, -56); (5504791283455129, -56);
(5523942013180681, -56); (5542063267268601, -56); (5559169394524009, -56); (5575274271399827, -56); (5590391326315237, -56); (5604533562270600, -56);
(5617713577902471, -56); (5629943587108213, -56); (5641235437357261, -56); (5651600626794842, -56); (5661050320234101, -56); (5669595364123688, -56);
(5677246300569866, -56); (5684013380485179, -56); (5689906575929221, -56); (5694935591701397, -56); (5699109876240346, -56); (5702438631880016, -56);
(5704930824508269, -56); (5706595192669932, -56); (5707440256152920, -56); (5707474324092838, -56); (5706705502628671, -56); (5705141702139561, -56);
(5702790644090377, -56); (5699659867511617, -56); (5695756735137212, -56); (5691088439222081, -56); (5685662007059614, -56); (5679484306217761, -56);
(5672562049511127, -56); (5664901799725100, -56); (5656509974107012, -56); (5647392848638184, -56); (5637556562099798, -56); (5627007119944644, -56);
(5615764414546088, -56); (5603963848775671, -56); (5591642586814042, -56); (5578806136011799, -56); (5565459887204758, -56); (5551609117631722, -56);
(5537258993722555, -56); (5522414573763535, -56); (5507080810446556, -56); (5491262553308250, -56); (5474964551064859, -56); (5458191453848177, -56);
(5440947815347690, -56); (5423238094863664, -56); (5405066659275631, -56); (5386437784930568, -56); (5367355659454668, -56); (5347824383492470, -56);
(5327847972376911, -56); (5307430357733554, -56); (5286575389022219, -56); (5265286835018894, -56); (5243568385240797, -56); (5221423651317192, -56);
(5198856168308475, -56); (5175869395975895, -56); (5152466720004154, -56); (5128651453178994, -56); (5104426836521780, -56); (5079796040383023, -56);
(5054762165496569, -56); (5029328243996234, -56); (5003497240396496, -56); (4977272052538747, -56); (4950655512504625, -56); (4923650387497780, -56);
(4896259380695392, -56); (4868485132070749, -56); (4840330219188006, -56); (4811797157970332, -56); (4782888403442481, -56); (4753606350448839, -56);
(4723953334347942, -56); (4693931631684372, -56); (4663543460838935, -56); (4632790982657994, -56); (4601676301062747, -56); (4570201463639214, -56);
(4538368462209708, -56); (4506179233386477, -56); (8947271318216362, -57); (8881479134319740, -57); (8814985463354124, -57); (8747793747269102, -57);
(8679907322640839, -57); (8611329421591827, -57); (8542063172683180, -57); (8472111601780619, -57); (8401477632894980, -57); (8330164088998224, -57);
(8258173692815805, -57); (8185509067596181, -57); (8112172737858350, -57); (8038167130118074, -57); (7963494573593634, -57); (7888157300891733, -57);
(7812157448674267, -57); (7735497058306609, -57); (7658178076488016, -57); (7580202355864734, -57); (7501571655626488, -57); (7422287642086737, -57);
(7342351889247369, -57); (7261765879348276, -57); (7180531003402309, -57); (7098648561716117, -57); (7016119764397272, -57); (6932945731848172, -57);
(6849127495247080, -57); (6764665997016780, -57); (6679562091281173, -57); (6593816544310204, -57); (6507430034953546, -57); (6420403155063264, -57);
(6332736409905930, -57); (6244430218564406, -57); (6155484914329664, -57); (6065900745082971, -57); (5975677873668606, -57); (5884816378257535, -57);
(5793316252702280, -57); (5701177406883092, -57); (5608399667045958, -57); (5514982776132405, -57); (5420926394101540, -57); (5326230098244431, -57);
(5230893383491098, -57); (5134915662710324, -57); (5038296267002509, -57); (4941034445985672, -57); (4843129368074943, -57); (4744580120755570, -57);
(4645385710849763, -57); (4545545064777439, -57); (8890114057622185, -58); (8687840738649877, -58); (8484267546076973, -58); (8279391694509348, -58);
(8073210240185580, -58); (7865720081432284, -58); (7656917959109821, -58); (7446800457047900, -58); (7235364002472030, -58); (7022604866420576, -58);
(6808519164152933, -58); (6593102855548908, -58); (6376351745499599, -58); (6158261484290058, -58); (5938827567973821, -58); (5718045338739512, -58);
(5495909985269953, -58); (5272416543093604, -58); (5047559894928862, -58); (4821334771021215, -58); (4593735749473452, -58); (8729514513138413, -59);
(8268787134179504, -59); (7805277609249282, -59); (7338973883751634, -59); (6869863601911574, -59); (6397934107359668, -59); (5923172443704555, -59);
(5445565355094518, -59); (4965099286767678, -59); (8963520771183007, -60); (7991069001183990, -60); (7012814366943928, -60); (6028727378239867, -60);
(5038777952217954, -60); (8085870828742713, -61); (6082336999001266, -61); (8133781410618702, -62); (8157868240436990, -63); (-5404319552844595, -108)].
(** naca4_2412_ydown_linear.npy *)
Definition ydown_2412 : list (Z * Z) := [
(0, 0); (-6218108194335135, -59); (-8543431956658465, -59); (-5113462956709555, -58); (-5788715700815805, -58); (-6357300661536343, -58);
(-6849910655064272, -58); (-7284787021614726, -58); (-7673822148493546, -58); (-8025282721938338, -58); (-8345193140836410, -58); (-8638106229240639,
-58); (-8907563488311002, -58); (-4578192648647293, -57); (-4693431039364232, -57); (-4800442423855265, -57); (-4900018551190684, -57);
(-4992830594846284, -57); (-5079453655865535, -57); (-5160385209748582, -57); (-5236059231925006, -57); (-5306857178255452, -57); (-5373116636257176,
-57); (-5435138223919418, -57); (-5493191151370887, -57); (-5547517749146715, -57); (-5598337188476622, -57); (-5645848563109689, -57);
(-5690233461697784, -57); (-5731658130033512, -57); (-5770275300345368, -57); (-5806225748244571, -57); (-5839639625300855, -57); (-5870637605544859,
-57); (-5899331876700976, -57); (-5925827001103250, -57); (-5950220666642015, -57); (-5972604344437410, -57); (-5993063867020405, -57);
(-6011679938458498, -57); (-6028528585967882, -57); (-6043681561012120, -57); (-6057206696625805, -57); (-6069168226664612, -57); (-6079627071825650,
-57); (-6088641096570239, -57); (-6096265340487302, -57); (-6102552227138108, -57); (-6107551753004600, -57); (-6111311658810138, -57);
(-6113877585181913, -57); (-6115293214369441, -57); (-6115600399516114, -57); (-6114839282794342, -57); (-6113048403554946, -57); (-6110264797503414,
-57); (-6106524087796576, -57); (-6101860568849896, -57); (-6096307283555826, -57); (-6089896094535562, -57); (-6082657749978170, -57);
(-6074621944561262, -57); (-6065817375895082, -57); (-6056271796885466, -57); (-6046012064370784, -57); (-6035064184351754, -57); (-6023453354101486,
-57); (-6011204001414712, -57); (-5998339821230296, -57); (-5984883809838694, -57); (-5970858296866196, -57); (-5956284975210098, -57);
(-5941184929082936, -57); (-5925578660309786, -57); (-5909486113009846, -57); (-5892926696781920, -57); (-5875919308503287, -57); (-5858482352841847,
-57); (-5840633761573318, -57); (-5822391011787355, -57); (-5803771143059792, -57); (-5784790773661837, -57); (-5765466115871462, -57);
(-5745812990446944, -57); (-5725846840318030, -57); (-5705582743545708, -57); (-5685035425597846, -57); (-5664219270984280, -57); (-5643148334291788,
-57); (-5621836350656274, -57); (-5600296745706944, -57); (-5578542645014578, -57); (-5556586883073836, -57); (-5534442011847362, -57);
(-5512120308897520, -57); (-5489633785129888, -57); (-5466966159050500, -57); (-5443869623675966, -57); (-5420292358326007, -57); (-5396245377701818,
-57); (-5371739463475031, -57); (-5346785170123255, -57); (-5321392830506214, -57); (-5295572561196468, -57); (-5269334267577802, -57);
(-5242687648723481, -57); (-5215642202065988, -57); (-5188207227868914, -57); (-5160391833511229, -57); (-5132204937593463, -57); (-5103655273874684,
-57); (-5074751395048844, -57); (-5045501676368326, -57); (-5015914319122214, -57); (-4985997353976380, -57); (-4955758644181947, -57);
(-4925205888658556, -57); (-4894346624958186, -57); (-4863188232115270, -57); (-4831737933388338, -57); (-4800002798898178, -57); (-4767989748167294,
-57); (-4735705552565086, -57); (-4703156837663038, -57); (-4670350085503884, -57); (-4637291636788642, -57); (-4603987692985002, -57);
(-4570444318360604, -57); (-4536667441944394, -57); (-9005325718838328, -58); (-8936872469896372, -58); (-8867986205877524, -58); (-8798677739490500,
-58); (-8728957630628456, -58); (-8658836189548005, -58); (-8588323479941835, -58); (-8517429321908949, -58); (-8446163294826901, -58);
(-8374534740129829, -58); (-8302552763996062, -58); (-8230226239948828, -58); (-8157563811373578, -58); (-8084573893955096, -58); (-8011264678037470,
-58); (-7937644130909954, -58); (-7863719999021529, -58); (-7789499810126847, -58); (-7714990875366101, -58); (-7640200291281365, -58);
(-7565134941771819, -58); (-7489801499989786, -58); (-7414206430180250, -58); (-7338355989465447, -58); (-7262256229576810, -58); (-7185912998536019,
-58); (-7109331942286991, -58); (-7032518506280630, -58); (-6955477937013862, -58); (-6878215283524676, -58); (-6800735398844600, -58);
(-6723042941410195, -58); (-6645142376434862, -58); (-6567037977242398, -58); (-6488733826563550, -58); (-6410233817796828, -58); (-6331541656234728,
-58); (-6252660860256696, -58); (-6173594762489654, -58); (-6094346510937374, -58); (-6014919070079641, -58); (-5935315221942162, -58);
(-5855537567138230, -58); (-5775588525882989, -58); (-5695470338981236, -58); (-5615185068789496, -58); (-5534734600153340, -58); (-5454120641320566,
-58); (-5373344724831068, -58); (-5292408208384188, -58); (-5211312275684057, -58); (-5130057937263824, -58); (-5048646031289206, -58);
(-4967077224342153, -58); (-4885352012185194, -58); (-4803470720506888, -58); (-4721433505649172, -58); (-4639240355317082, -58); (-4556891089271125,
-58); (-8948770720006548, -59); (-8783445306793164, -59); (-8617804578738535, -59); (-8451846845006919, -59); (-8285570085318403, -59);
(-8118971951148121, -59); (-7952049766897672, -59); (-7784800531039133, -59); (-7617220917233017, -59); (-7449307275420323, -59); (-7281055632889895,
-59); (-7112461695321387, -59); (-6943520847804790, -59); (-6774228155836954, -59); (-6604578366295922, -59); (-6434565908393451, -59);
(-6264184894606681, -59); (-6093429121588861, -59); (-5922292071060694, -59); (-5750766910681611, -59); (-5578846494902628, -59); (-5406523365800469,
-59); (-5233789753893934, -59); (-5060637578942624, -59); (-4887058450728740, -59); (-4713043669822398, -59); (-4538584228330652, -59);
(-8727341621261534, -60); (-8376587588176737, -60); (-8024886499520774, -60); (-7672217886167242, -60); (-7318560669098073, -60); (-6963893160724443,
-60); (-6608193066180862, -60); (-6251437484592435, -60); (-5893602910317391, -60); (-5534665234163471, -60); (-5174599744580736, -60);
(-4813381128830282, -60); (-8901966948258819, -61); (-8174760537549390, -61); (-7445088806484704, -61); (-6712896342534694, -61); (-5978126541803297,
-61); (-5240721611101800, -61); (-9001245139968633, -62); (-7515538505486170, -62); (-6024200620728998, -62); (-4527106424899227, -62);
(-6048256996384969, -63); (-6060548261973609, -64); (5404319552844595, -108)].

(** test_profiles.py 192-210: NACA 0012. *)
Example recorded_0012_bits : match naca_foil64 rounded_library 0 0 1 2 true 240 with
  | Ok p => map bits (fxup p) = xup_0012 /\ map bits (fyup p) = yup_0012 /\ map bits (fxdown p) = xup_0012 /\
      map bits (fydown p) = map (fun b => (- fst b, snd b)) yup_0012
  | Err _ => False
  end.
Proof. vm_compute. repeat split. Qed.
(** test_profiles.py, NACA 2412 with linear spacing. *)
Example recorded_2412_bits : match naca_foil64 rounded_library 2 4 1 2 false 240 with
  | Ok p => map bits (fxup p) = xup_0012 /\ map bits (fyup p) = yup_2412 /\ map bits (fydown p) = ydown_2412
  | Err _ => False
  end.
Proof. vm_compute. repeat split. Qed.
