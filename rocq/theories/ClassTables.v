(* ClassTables.v -- the code-point classes of grapheme/graphemeclasses.go, uax29/uax29classes.go and
   emoji/emojiclasses.go.  The source lists single code points; consecutive ones are written as a range here, in
   ascending order, each code point once (the order and repetition of its arguments are irrelevant to
   rangetable.New).  Generated from the source by a script. *)
From Coq Require Import List ZArith.
Import ListNotations.
Open Scope Z_scope.

Definition ranges : Type := list (Z * Z).

Module GraphemeTab.
(* grapheme/graphemeclasses.go:71 *)
Definition CR : ranges := [(13, 13)].
(* grapheme/graphemeclasses.go:75 *)
Definition LF : ranges := [(10, 10)].
(* grapheme/graphemeclasses.go:1224-1226 *)
Definition Prepend : ranges := [(1536, 1541); (1757, 1757); (1807, 1807); (2274, 2274); (3406, 3406); (69821, 69821); (69837, 69837);
  (70082, 70083); (72250, 72250); (72326, 72329); (73030, 73030)].
(* grapheme/graphemeclasses.go:373-1113; U+FFFD is listed 2048 times *)
Definition Control : ranges := [(0, 9); (11, 12); (14, 31); (127, 159); (173, 173); (1564, 1564); (6158, 6158); (8203, 8203); (8206, 8207);
  (8232, 8238); (8288, 8303); (65279, 65279); (65520, 65531); (65533, 65533); (113824, 113827); (119155, 119162); (917504, 917535);
  (917632, 917759); (918000, 921599)].
(* grapheme/graphemeclasses.go:79-322 *)
Definition Extend : ranges := [(768, 879); (1155, 1161); (1425, 1469); (1471, 1471); (1473, 1474); (1476, 1477); (1479, 1479); (1552, 1562);
  (1611, 1631); (1648, 1648); (1750, 1756); (1759, 1764); (1767, 1768); (1770, 1773); (1809, 1809); (1840, 1866); (1958, 1968);
  (2027, 2035); (2045, 2045); (2070, 2073); (2075, 2083); (2085, 2087); (2089, 2093); (2137, 2139); (2259, 2273); (2275, 2306);
  (2362, 2362); (2364, 2364); (2369, 2376); (2381, 2381); (2385, 2391); (2402, 2403); (2433, 2433); (2492, 2492); (2494, 2494);
  (2497, 2500); (2509, 2509); (2519, 2519); (2530, 2531); (2558, 2558); (2561, 2562); (2620, 2620); (2625, 2626); (2631, 2632);
  (2635, 2637); (2641, 2641); (2672, 2673); (2677, 2677); (2689, 2690); (2748, 2748); (2753, 2757); (2759, 2760); (2765, 2765);
  (2786, 2787); (2810, 2815); (2817, 2817); (2876, 2876); (2878, 2879); (2881, 2884); (2893, 2893); (2902, 2903); (2914, 2915);
  (2946, 2946); (3006, 3006); (3008, 3008); (3021, 3021); (3031, 3031); (3072, 3072); (3076, 3076); (3134, 3136); (3142, 3144);
  (3146, 3149); (3157, 3158); (3170, 3171); (3201, 3201); (3260, 3260); (3263, 3263); (3266, 3266); (3270, 3270); (3276, 3277);
  (3285, 3286); (3298, 3299); (3328, 3329); (3387, 3388); (3390, 3390); (3393, 3396); (3405, 3405); (3415, 3415); (3426, 3427);
  (3530, 3530); (3535, 3535); (3538, 3540); (3542, 3542); (3551, 3551); (3633, 3633); (3636, 3642); (3655, 3662); (3761, 3761);
  (3764, 3769); (3771, 3772); (3784, 3789); (3864, 3865); (3893, 3893); (3895, 3895); (3897, 3897); (3953, 3966); (3968, 3972);
  (3974, 3975); (3981, 3991); (3993, 4028); (4038, 4038); (4141, 4144); (4146, 4151); (4153, 4154); (4157, 4158); (4184, 4185);
  (4190, 4192); (4209, 4212); (4226, 4226); (4229, 4230); (4237, 4237); (4253, 4253); (4957, 4959); (5906, 5908); (5938, 5940);
  (5970, 5971); (6002, 6003); (6068, 6069); (6071, 6077); (6086, 6086); (6089, 6099); (6109, 6109); (6155, 6157); (6277, 6278);
  (6313, 6313); (6432, 6434); (6439, 6440); (6450, 6450); (6457, 6459); (6679, 6680); (6683, 6683); (6742, 6742); (6744, 6750);
  (6752, 6752); (6754, 6754); (6757, 6764); (6771, 6780); (6783, 6783); (6832, 6846); (6912, 6915); (6964, 6964); (6966, 6970);
  (6972, 6972); (6978, 6978); (7019, 7027); (7040, 7041); (7074, 7077); (7080, 7081); (7083, 7085); (7142, 7142); (7144, 7145);
  (7149, 7149); (7151, 7153); (7212, 7219); (7222, 7223); (7376, 7378); (7380, 7392); (7394, 7400); (7405, 7405); (7412, 7412);
  (7416, 7417); (7616, 7673); (7675, 7679); (8204, 8204); (8400, 8432); (11503, 11505); (11647, 11647); (11744, 11775); (12330, 12335);
  (12441, 12442); (42607, 42610); (42612, 42621); (42654, 42655); (42736, 42737); (43010, 43010); (43014, 43014); (43019, 43019);
  (43045, 43046); (43204, 43205); (43232, 43249); (43263, 43263); (43302, 43309); (43335, 43345); (43392, 43394); (43443, 43443);
  (43446, 43449); (43452, 43452); (43493, 43493); (43561, 43566); (43569, 43570); (43573, 43574); (43587, 43587); (43596, 43596);
  (43644, 43644); (43696, 43696); (43698, 43700); (43703, 43704); (43710, 43711); (43713, 43713); (43756, 43757); (43766, 43766);
  (44005, 44005); (44008, 44008); (44013, 44013); (64286, 64286); (65024, 65039); (65056, 65071); (65438, 65439); (66045, 66045);
  (66272, 66272); (66422, 66426); (68097, 68099); (68101, 68102); (68108, 68111); (68152, 68154); (68159, 68159); (68325, 68326);
  (68900, 68903); (69446, 69456); (69633, 69633); (69688, 69702); (69759, 69761); (69811, 69814); (69817, 69818); (69888, 69890);
  (69927, 69931); (69933, 69940); (70003, 70003); (70016, 70017); (70070, 70078); (70089, 70092); (70191, 70193); (70196, 70196);
  (70198, 70199); (70206, 70206); (70367, 70367); (70371, 70378); (70400, 70401); (70459, 70460); (70462, 70462); (70464, 70464);
  (70487, 70487); (70502, 70508); (70512, 70516); (70712, 70719); (70722, 70724); (70726, 70726); (70750, 70750); (70832, 70832);
  (70835, 70840); (70842, 70842); (70845, 70845); (70847, 70848); (70850, 70851); (71087, 71087); (71090, 71093); (71100, 71101);
  (71103, 71104); (71132, 71133); (71219, 71226); (71229, 71229); (71231, 71232); (71339, 71339); (71341, 71341); (71344, 71349);
  (71351, 71351); (71453, 71455); (71458, 71461); (71463, 71467); (71727, 71735); (71737, 71738); (72193, 72202); (72243, 72248);
  (72251, 72254); (72263, 72263); (72273, 72278); (72281, 72283); (72330, 72342); (72344, 72345); (72752, 72758); (72760, 72765);
  (72767, 72767); (72850, 72871); (72874, 72880); (72882, 72883); (72885, 72886); (73009, 73014); (73018, 73018); (73020, 73021);
  (73023, 73029); (73031, 73031); (73104, 73105); (73109, 73109); (73111, 73111); (73459, 73460); (92912, 92916); (92976, 92982);
  (94095, 94098); (113821, 113822); (119141, 119141); (119143, 119145); (119150, 119154); (119163, 119170); (119173, 119179);
  (119210, 119213); (119362, 119364); (121344, 121398); (121403, 121452); (121461, 121461); (121476, 121476); (121499, 121503);
  (121505, 121519); (122880, 122886); (122888, 122904); (122907, 122913); (122915, 122916); (122918, 122922); (125136, 125142);
  (125252, 125258); (127995, 127999); (917536, 917631); (917760, 917999)].
(* grapheme/graphemeclasses.go:326-329 *)
Definition Regional_Indicator : ranges := [(127462, 127487)].
(* grapheme/graphemeclasses.go:1117-1162 *)
Definition SpacingMark : ranges := [(2307, 2307); (2363, 2363); (2366, 2368); (2377, 2380); (2382, 2383); (2434, 2435); (2495, 2496);
  (2503, 2504); (2507, 2508); (2563, 2563); (2622, 2624); (2691, 2691); (2750, 2752); (2761, 2761); (2763, 2764); (2818, 2819);
  (2880, 2880); (2887, 2888); (2891, 2892); (3007, 3007); (3009, 3010); (3014, 3016); (3018, 3020); (3073, 3075); (3137, 3140);
  (3202, 3203); (3262, 3262); (3264, 3265); (3267, 3268); (3271, 3272); (3274, 3275); (3330, 3331); (3391, 3392); (3398, 3400);
  (3402, 3404); (3458, 3459); (3536, 3537); (3544, 3550); (3570, 3571); (3635, 3635); (3763, 3763); (3902, 3903); (3967, 3967);
  (4145, 4145); (4155, 4156); (4182, 4183); (4228, 4228); (6070, 6070); (6078, 6085); (6087, 6088); (6435, 6438); (6441, 6443);
  (6448, 6449); (6451, 6456); (6681, 6682); (6741, 6741); (6743, 6743); (6765, 6770); (6916, 6916); (6965, 6965); (6971, 6971);
  (6973, 6977); (6979, 6980); (7042, 7042); (7073, 7073); (7078, 7079); (7082, 7082); (7143, 7143); (7146, 7148); (7150, 7150);
  (7154, 7155); (7204, 7211); (7220, 7221); (7393, 7393); (7410, 7411); (7415, 7415); (43043, 43044); (43047, 43047); (43136, 43137);
  (43188, 43203); (43346, 43347); (43395, 43395); (43444, 43445); (43450, 43451); (43453, 43456); (43567, 43568); (43571, 43572);
  (43597, 43597); (43755, 43755); (43758, 43759); (43765, 43765); (44003, 44004); (44006, 44007); (44009, 44010); (44012, 44012);
  (69632, 69632); (69634, 69634); (69762, 69762); (69808, 69810); (69815, 69816); (69932, 69932); (69957, 69958); (70018, 70018);
  (70067, 70069); (70079, 70080); (70188, 70190); (70194, 70195); (70197, 70197); (70368, 70370); (70402, 70403); (70463, 70463);
  (70465, 70468); (70471, 70472); (70475, 70477); (70498, 70499); (70709, 70711); (70720, 70721); (70725, 70725); (70833, 70834);
  (70841, 70841); (70843, 70844); (70846, 70846); (70849, 70849); (71088, 71089); (71096, 71099); (71102, 71102); (71216, 71218);
  (71227, 71228); (71230, 71230); (71340, 71340); (71342, 71343); (71350, 71350); (71456, 71457); (71462, 71462); (71724, 71726);
  (71736, 71736); (72249, 72249); (72279, 72280); (72343, 72343); (72751, 72751); (72766, 72766); (72873, 72873); (72881, 72881);
  (72884, 72884); (73098, 73102); (73107, 73108); (73110, 73110); (73461, 73462); (94033, 94078); (119142, 119142); (119149, 119149)].
(* grapheme/graphemeclasses.go:333-348 *)
Definition L : ranges := [(4352, 4447); (43360, 43388)].
(* grapheme/graphemeclasses.go:1230-1242 *)
Definition V : ranges := [(4448, 4519); (55216, 55238)].
(* grapheme/graphemeclasses.go:352-369 *)
Definition T : ranges := [(4520, 4607); (55243, 55291)].
(* grapheme/graphemeclasses.go:1166-1216 *)
Definition LV : ranges := [(44032, 44032); (44060, 44060); (44088, 44088); (44116, 44116); (44144, 44144); (44172, 44172); (44200, 44200);
  (44228, 44228); (44256, 44256); (44284, 44284); (44312, 44312); (44340, 44340); (44368, 44368); (44396, 44396); (44424, 44424);
  (44452, 44452); (44480, 44480); (44508, 44508); (44536, 44536); (44564, 44564); (44592, 44592); (44620, 44620); (44648, 44648);
  (44676, 44676); (44704, 44704); (44732, 44732); (44760, 44760); (44788, 44788); (44816, 44816); (44844, 44844); (44872, 44872);
  (44900, 44900); (44928, 44928); (44956, 44956); (44984, 44984); (45012, 45012); (45040, 45040); (45068, 45068); (45096, 45096);
  (45124, 45124); (45152, 45152); (45180, 45180); (45208, 45208); (45236, 45236); (45264, 45264); (45292, 45292); (45320, 45320);
  (45348, 45348); (45376, 45376); (45404, 45404); (45432, 45432); (45460, 45460); (45488, 45488); (45516, 45516); (45544, 45544);
  (45572, 45572); (45600, 45600); (45628, 45628); (45656, 45656); (45684, 45684); (45712, 45712); (45740, 45740); (45768, 45768);
  (45796, 45796); (45824, 45824); (45852, 45852); (45880, 45880); (45908, 45908); (45936, 45936); (45964, 45964); (45992, 45992);
  (46020, 46020); (46048, 46048); (46076, 46076); (46104, 46104); (46132, 46132); (46160, 46160); (46188, 46188); (46216, 46216);
  (46244, 46244); (46272, 46272); (46300, 46300); (46328, 46328); (46356, 46356); (46384, 46384); (46412, 46412); (46440, 46440);
  (46468, 46468); (46496, 46496); (46524, 46524); (46552, 46552); (46580, 46580); (46608, 46608); (46636, 46636); (46664, 46664);
  (46692, 46692); (46720, 46720); (46748, 46748); (46776, 46776); (46804, 46804); (46832, 46832); (46860, 46860); (46888, 46888);
  (46916, 46916); (46944, 46944); (46972, 46972); (47000, 47000); (47028, 47028); (47056, 47056); (47084, 47084); (47112, 47112);
  (47140, 47140); (47168, 47168); (47196, 47196); (47224, 47224); (47252, 47252); (47280, 47280); (47308, 47308); (47336, 47336);
  (47364, 47364); (47392, 47392); (47420, 47420); (47448, 47448); (47476, 47476); (47504, 47504); (47532, 47532); (47560, 47560);
  (47588, 47588); (47616, 47616); (47644, 47644); (47672, 47672); (47700, 47700); (47728, 47728); (47756, 47756); (47784, 47784);
  (47812, 47812); (47840, 47840); (47868, 47868); (47896, 47896); (47924, 47924); (47952, 47952); (47980, 47980); (48008, 48008);
  (48036, 48036); (48064, 48064); (48092, 48092); (48120, 48120); (48148, 48148); (48176, 48176); (48204, 48204); (48232, 48232);
  (48260, 48260); (48288, 48288); (48316, 48316); (48344, 48344); (48372, 48372); (48400, 48400); (48428, 48428); (48456, 48456);
  (48484, 48484); (48512, 48512); (48540, 48540); (48568, 48568); (48596, 48596); (48624, 48624); (48652, 48652); (48680, 48680);
  (48708, 48708); (48736, 48736); (48764, 48764); (48792, 48792); (48820, 48820); (48848, 48848); (48876, 48876); (48904, 48904);
  (48932, 48932); (48960, 48960); (48988, 48988); (49016, 49016); (49044, 49044); (49072, 49072); (49100, 49100); (49128, 49128);
  (49156, 49156); (49184, 49184); (49212, 49212); (49240, 49240); (49268, 49268); (49296, 49296); (49324, 49324); (49352, 49352);
  (49380, 49380); (49408, 49408); (49436, 49436); (49464, 49464); (49492, 49492); (49520, 49520); (49548, 49548); (49576, 49576);
  (49604, 49604); (49632, 49632); (49660, 49660); (49688, 49688); (49716, 49716); (49744, 49744); (49772, 49772); (49800, 49800);
  (49828, 49828); (49856, 49856); (49884, 49884); (49912, 49912); (49940, 49940); (49968, 49968); (49996, 49996); (50024, 50024);
  (50052, 50052); (50080, 50080); (50108, 50108); (50136, 50136); (50164, 50164); (50192, 50192); (50220, 50220); (50248, 50248);
  (50276, 50276); (50304, 50304); (50332, 50332); (50360, 50360); (50388, 50388); (50416, 50416); (50444, 50444); (50472, 50472);
  (50500, 50500); (50528, 50528); (50556, 50556); (50584, 50584); (50612, 50612); (50640, 50640); (50668, 50668); (50696, 50696);
  (50724, 50724); (50752, 50752); (50780, 50780); (50808, 50808); (50836, 50836); (50864, 50864); (50892, 50892); (50920, 50920);
  (50948, 50948); (50976, 50976); (51004, 51004); (51032, 51032); (51060, 51060); (51088, 51088); (51116, 51116); (51144, 51144);
  (51172, 51172); (51200, 51200); (51228, 51228); (51256, 51256); (51284, 51284); (51312, 51312); (51340, 51340); (51368, 51368);
  (51396, 51396); (51424, 51424); (51452, 51452); (51480, 51480); (51508, 51508); (51536, 51536); (51564, 51564); (51592, 51592);
  (51620, 51620); (51648, 51648); (51676, 51676); (51704, 51704); (51732, 51732); (51760, 51760); (51788, 51788); (51816, 51816);
  (51844, 51844); (51872, 51872); (51900, 51900); (51928, 51928); (51956, 51956); (51984, 51984); (52012, 52012); (52040, 52040);
  (52068, 52068); (52096, 52096); (52124, 52124); (52152, 52152); (52180, 52180); (52208, 52208); (52236, 52236); (52264, 52264);
  (52292, 52292); (52320, 52320); (52348, 52348); (52376, 52376); (52404, 52404); (52432, 52432); (52460, 52460); (52488, 52488);
  (52516, 52516); (52544, 52544); (52572, 52572); (52600, 52600); (52628, 52628); (52656, 52656); (52684, 52684); (52712, 52712);
  (52740, 52740); (52768, 52768); (52796, 52796); (52824, 52824); (52852, 52852); (52880, 52880); (52908, 52908); (52936, 52936);
  (52964, 52964); (52992, 52992); (53020, 53020); (53048, 53048); (53076, 53076); (53104, 53104); (53132, 53132); (53160, 53160);
  (53188, 53188); (53216, 53216); (53244, 53244); (53272, 53272); (53300, 53300); (53328, 53328); (53356, 53356); (53384, 53384);
  (53412, 53412); (53440, 53440); (53468, 53468); (53496, 53496); (53524, 53524); (53552, 53552); (53580, 53580); (53608, 53608);
  (53636, 53636); (53664, 53664); (53692, 53692); (53720, 53720); (53748, 53748); (53776, 53776); (53804, 53804); (53832, 53832);
  (53860, 53860); (53888, 53888); (53916, 53916); (53944, 53944); (53972, 53972); (54000, 54000); (54028, 54028); (54056, 54056);
  (54084, 54084); (54112, 54112); (54140, 54140); (54168, 54168); (54196, 54196); (54224, 54224); (54252, 54252); (54280, 54280);
  (54308, 54308); (54336, 54336); (54364, 54364); (54392, 54392); (54420, 54420); (54448, 54448); (54476, 54476); (54504, 54504);
  (54532, 54532); (54560, 54560); (54588, 54588); (54616, 54616); (54644, 54644); (54672, 54672); (54700, 54700); (54728, 54728);
  (54756, 54756); (54784, 54784); (54812, 54812); (54840, 54840); (54868, 54868); (54896, 54896); (54924, 54924); (54952, 54952);
  (54980, 54980); (55008, 55008); (55036, 55036); (55064, 55064); (55092, 55092); (55120, 55120); (55148, 55148); (55176, 55176)].
(* grapheme/graphemeclasses.go:1246-2592 *)
Definition LVT : ranges := [(44033, 44059); (44061, 44087); (44089, 44115); (44117, 44143); (44145, 44171); (44173, 44199); (44201, 44227);
  (44229, 44255); (44257, 44283); (44285, 44311); (44313, 44339); (44341, 44367); (44369, 44395); (44397, 44423); (44425, 44451);
  (44453, 44479); (44481, 44507); (44509, 44535); (44537, 44563); (44565, 44591); (44593, 44619); (44621, 44647); (44649, 44675);
  (44677, 44703); (44705, 44731); (44733, 44759); (44761, 44787); (44789, 44815); (44817, 44843); (44845, 44871); (44873, 44899);
  (44901, 44927); (44929, 44955); (44957, 44983); (44985, 45011); (45013, 45039); (45041, 45067); (45069, 45095); (45097, 45123);
  (45125, 45151); (45153, 45179); (45181, 45207); (45209, 45235); (45237, 45263); (45265, 45291); (45293, 45319); (45321, 45347);
  (45349, 45375); (45377, 45403); (45405, 45431); (45433, 45459); (45461, 45487); (45489, 45515); (45517, 45543); (45545, 45571);
  (45573, 45599); (45601, 45627); (45629, 45655); (45657, 45683); (45685, 45711); (45713, 45739); (45741, 45767); (45769, 45795);
  (45797, 45823); (45825, 45851); (45853, 45879); (45881, 45907); (45909, 45935); (45937, 45963); (45965, 45991); (45993, 46019);
  (46021, 46047); (46049, 46075); (46077, 46103); (46105, 46131); (46133, 46159); (46161, 46187); (46189, 46215); (46217, 46243);
  (46245, 46271); (46273, 46299); (46301, 46327); (46329, 46355); (46357, 46383); (46385, 46411); (46413, 46439); (46441, 46467);
  (46469, 46495); (46497, 46523); (46525, 46551); (46553, 46579); (46581, 46607); (46609, 46635); (46637, 46663); (46665, 46691);
  (46693, 46719); (46721, 46747); (46749, 46775); (46777, 46803); (46805, 46831); (46833, 46859); (46861, 46887); (46889, 46915);
  (46917, 46943); (46945, 46971); (46973, 46999); (47001, 47027); (47029, 47055); (47057, 47083); (47085, 47111); (47113, 47139);
  (47141, 47167); (47169, 47195); (47197, 47223); (47225, 47251); (47253, 47279); (47281, 47307); (47309, 47335); (47337, 47363);
  (47365, 47391); (47393, 47419); (47421, 47447); (47449, 47475); (47477, 47503); (47505, 47531); (47533, 47559); (47561, 47587);
  (47589, 47615); (47617, 47643); (47645, 47671); (47673, 47699); (47701, 47727); (47729, 47755); (47757, 47783); (47785, 47811);
  (47813, 47839); (47841, 47867); (47869, 47895); (47897, 47923); (47925, 47951); (47953, 47979); (47981, 48007); (48009, 48035);
  (48037, 48063); (48065, 48091); (48093, 48119); (48121, 48147); (48149, 48175); (48177, 48203); (48205, 48231); (48233, 48259);
  (48261, 48287); (48289, 48315); (48317, 48343); (48345, 48371); (48373, 48399); (48401, 48427); (48429, 48455); (48457, 48483);
  (48485, 48511); (48513, 48539); (48541, 48567); (48569, 48595); (48597, 48623); (48625, 48651); (48653, 48679); (48681, 48707);
  (48709, 48735); (48737, 48763); (48765, 48791); (48793, 48819); (48821, 48847); (48849, 48875); (48877, 48903); (48905, 48931);
  (48933, 48959); (48961, 48987); (48989, 49015); (49017, 49043); (49045, 49071); (49073, 49099); (49101, 49127); (49129, 49155);
  (49157, 49183); (49185, 49211); (49213, 49239); (49241, 49267); (49269, 49295); (49297, 49323); (49325, 49351); (49353, 49379);
  (49381, 49407); (49409, 49435); (49437, 49463); (49465, 49491); (49493, 49519); (49521, 49547); (49549, 49575); (49577, 49603);
  (49605, 49631); (49633, 49659); (49661, 49687); (49689, 49715); (49717, 49743); (49745, 49771); (49773, 49799); (49801, 49827);
  (49829, 49855); (49857, 49883); (49885, 49911); (49913, 49939); (49941, 49967); (49969, 49995); (49997, 50023); (50025, 50051);
  (50053, 50079); (50081, 50107); (50109, 50135); (50137, 50163); (50165, 50191); (50193, 50219); (50221, 50247); (50249, 50275);
  (50277, 50303); (50305, 50331); (50333, 50359); (50361, 50387); (50389, 50415); (50417, 50443); (50445, 50471); (50473, 50499);
  (50501, 50527); (50529, 50555); (50557, 50583); (50585, 50611); (50613, 50639); (50641, 50667); (50669, 50695); (50697, 50723);
  (50725, 50751); (50753, 50779); (50781, 50807); (50809, 50835); (50837, 50863); (50865, 50891); (50893, 50919); (50921, 50947);
  (50949, 50975); (50977, 51003); (51005, 51031); (51033, 51059); (51061, 51087); (51089, 51115); (51117, 51143); (51145, 51171);
  (51173, 51199); (51201, 51227); (51229, 51255); (51257, 51283); (51285, 51311); (51313, 51339); (51341, 51367); (51369, 51395);
  (51397, 51423); (51425, 51451); (51453, 51479); (51481, 51507); (51509, 51535); (51537, 51563); (51565, 51591); (51593, 51619);
  (51621, 51647); (51649, 51675); (51677, 51703); (51705, 51731); (51733, 51759); (51761, 51787); (51789, 51815); (51817, 51843);
  (51845, 51871); (51873, 51899); (51901, 51927); (51929, 51955); (51957, 51983); (51985, 52011); (52013, 52039); (52041, 52067);
  (52069, 52095); (52097, 52123); (52125, 52151); (52153, 52179); (52181, 52207); (52209, 52235); (52237, 52263); (52265, 52291);
  (52293, 52319); (52321, 52347); (52349, 52375); (52377, 52403); (52405, 52431); (52433, 52459); (52461, 52487); (52489, 52515);
  (52517, 52543); (52545, 52571); (52573, 52599); (52601, 52627); (52629, 52655); (52657, 52683); (52685, 52711); (52713, 52739);
  (52741, 52767); (52769, 52795); (52797, 52823); (52825, 52851); (52853, 52879); (52881, 52907); (52909, 52935); (52937, 52963);
  (52965, 52991); (52993, 53019); (53021, 53047); (53049, 53075); (53077, 53103); (53105, 53131); (53133, 53159); (53161, 53187);
  (53189, 53215); (53217, 53243); (53245, 53271); (53273, 53299); (53301, 53327); (53329, 53355); (53357, 53383); (53385, 53411);
  (53413, 53439); (53441, 53467); (53469, 53495); (53497, 53523); (53525, 53551); (53553, 53579); (53581, 53607); (53609, 53635);
  (53637, 53663); (53665, 53691); (53693, 53719); (53721, 53747); (53749, 53775); (53777, 53803); (53805, 53831); (53833, 53859);
  (53861, 53887); (53889, 53915); (53917, 53943); (53945, 53971); (53973, 53999); (54001, 54027); (54029, 54055); (54057, 54083);
  (54085, 54111); (54113, 54139); (54141, 54167); (54169, 54195); (54197, 54223); (54225, 54251); (54253, 54279); (54281, 54307);
  (54309, 54335); (54337, 54363); (54365, 54391); (54393, 54419); (54421, 54447); (54449, 54475); (54477, 54503); (54505, 54531);
  (54533, 54559); (54561, 54587); (54589, 54615); (54617, 54643); (54645, 54671); (54673, 54699); (54701, 54727); (54729, 54755);
  (54757, 54783); (54785, 54811); (54813, 54839); (54841, 54867); (54869, 54895); (54897, 54923); (54925, 54951); (54953, 54979);
  (54981, 55007); (55009, 55035); (55037, 55063); (55065, 55091); (55093, 55119); (55121, 55147); (55149, 55175); (55177, 55203)].
(* grapheme/graphemeclasses.go:1220 *)
Definition ZWJ : ranges := [(8205, 8205)].
End GraphemeTab.

Module WordTab.
(* uax29/uax29classes.go:498-4060 *)
Definition ALetter : ranges := [(65, 90); (97, 122); (170, 170); (181, 181); (186, 186); (192, 214); (216, 246); (248, 727); (734, 740);
  (748, 767); (880, 884); (886, 887); (890, 893); (895, 895); (902, 902); (904, 906); (908, 908); (910, 929); (931, 1013); (1015, 1153);
  (1162, 1327); (1329, 1366); (1369, 1369); (1371, 1372); (1374, 1374); (1376, 1416); (1523, 1523); (1568, 1610); (1646, 1647);
  (1649, 1747); (1749, 1749); (1765, 1766); (1774, 1775); (1786, 1788); (1791, 1791); (1808, 1808); (1810, 1839); (1869, 1957);
  (1969, 1969); (1994, 2026); (2036, 2037); (2042, 2042); (2048, 2069); (2074, 2074); (2084, 2084); (2088, 2088); (2112, 2136);
  (2144, 2154); (2208, 2228); (2230, 2237); (2308, 2361); (2365, 2365); (2384, 2384); (2392, 2401); (2417, 2432); (2437, 2444);
  (2447, 2448); (2451, 2472); (2474, 2480); (2482, 2482); (2486, 2489); (2493, 2493); (2510, 2510); (2524, 2525); (2527, 2529);
  (2544, 2545); (2556, 2556); (2565, 2570); (2575, 2576); (2579, 2600); (2602, 2608); (2610, 2611); (2613, 2614); (2616, 2617);
  (2649, 2652); (2654, 2654); (2674, 2676); (2693, 2701); (2703, 2705); (2707, 2728); (2730, 2736); (2738, 2739); (2741, 2745);
  (2749, 2749); (2768, 2768); (2784, 2785); (2809, 2809); (2821, 2828); (2831, 2832); (2835, 2856); (2858, 2864); (2866, 2867);
  (2869, 2873); (2877, 2877); (2908, 2909); (2911, 2913); (2929, 2929); (2947, 2947); (2949, 2954); (2958, 2960); (2962, 2965);
  (2969, 2970); (2972, 2972); (2974, 2975); (2979, 2980); (2984, 2986); (2990, 3001); (3024, 3024); (3077, 3084); (3086, 3088);
  (3090, 3112); (3114, 3129); (3133, 3133); (3160, 3162); (3168, 3169); (3200, 3200); (3205, 3212); (3214, 3216); (3218, 3240);
  (3242, 3251); (3253, 3257); (3261, 3261); (3294, 3294); (3296, 3297); (3313, 3314); (3333, 3340); (3342, 3344); (3346, 3386);
  (3389, 3389); (3406, 3406); (3412, 3414); (3423, 3425); (3450, 3455); (3461, 3478); (3482, 3505); (3507, 3515); (3517, 3517);
  (3520, 3526); (3840, 3840); (3904, 3911); (3913, 3948); (3976, 3980); (4256, 4293); (4295, 4295); (4301, 4301); (4304, 4346);
  (4348, 4680); (4682, 4685); (4688, 4694); (4696, 4696); (4698, 4701); (4704, 4744); (4746, 4749); (4752, 4784); (4786, 4789);
  (4792, 4798); (4800, 4800); (4802, 4805); (4808, 4822); (4824, 4880); (4882, 4885); (4888, 4954); (4992, 5007); (5024, 5109);
  (5112, 5117); (5121, 5740); (5743, 5759); (5761, 5786); (5792, 5866); (5870, 5880); (5888, 5900); (5902, 5905); (5920, 5937);
  (5952, 5969); (5984, 5996); (5998, 6000); (6176, 6264); (6272, 6276); (6279, 6312); (6314, 6314); (6320, 6389); (6400, 6430);
  (6656, 6678); (6917, 6963); (6981, 6987); (7043, 7072); (7086, 7087); (7098, 7141); (7168, 7203); (7245, 7247); (7258, 7293);
  (7296, 7304); (7312, 7354); (7357, 7359); (7401, 7404); (7406, 7409); (7413, 7414); (7424, 7615); (7680, 7957); (7960, 7965);
  (7968, 8005); (8008, 8013); (8016, 8023); (8025, 8025); (8027, 8027); (8029, 8029); (8031, 8061); (8064, 8116); (8118, 8124);
  (8126, 8126); (8130, 8132); (8134, 8140); (8144, 8147); (8150, 8155); (8160, 8172); (8178, 8180); (8182, 8188); (8305, 8305);
  (8319, 8319); (8336, 8348); (8450, 8450); (8455, 8455); (8458, 8467); (8469, 8469); (8473, 8477); (8484, 8484); (8486, 8486);
  (8488, 8488); (8490, 8493); (8495, 8505); (8508, 8511); (8517, 8521); (8526, 8526); (8544, 8584); (9398, 9449); (11264, 11310);
  (11312, 11358); (11360, 11492); (11499, 11502); (11506, 11507); (11520, 11557); (11559, 11559); (11565, 11565); (11568, 11623);
  (11631, 11631); (11648, 11670); (11680, 11686); (11688, 11694); (11696, 11702); (11704, 11710); (11712, 11718); (11720, 11726);
  (11728, 11734); (11736, 11742); (11823, 11823); (12293, 12293); (12347, 12348); (12549, 12591); (12593, 12686); (12704, 12730);
  (40960, 42124); (42192, 42237); (42240, 42508); (42512, 42527); (42538, 42539); (42560, 42606); (42623, 42653); (42656, 42735);
  (42775, 42937); (42999, 43009); (43011, 43013); (43015, 43018); (43020, 43042); (43072, 43123); (43138, 43187); (43250, 43255);
  (43259, 43259); (43261, 43262); (43274, 43301); (43312, 43334); (43360, 43388); (43396, 43442); (43471, 43471); (43520, 43560);
  (43584, 43586); (43588, 43595); (43744, 43754); (43762, 43764); (43777, 43782); (43785, 43790); (43793, 43798); (43808, 43814);
  (43816, 43822); (43824, 43877); (43888, 44002); (44032, 55203); (55216, 55238); (55243, 55291); (64256, 64262); (64275, 64279);
  (64336, 64433); (64467, 64829); (64848, 64911); (64914, 64967); (65008, 65019); (65136, 65140); (65142, 65276); (65313, 65338);
  (65345, 65370); (65440, 65470); (65474, 65479); (65482, 65487); (65490, 65495); (65498, 65500); (65536, 65547); (65549, 65574);
  (65576, 65594); (65596, 65597); (65599, 65613); (65616, 65629); (65664, 65786); (65856, 65908); (66176, 66204); (66208, 66256);
  (66304, 66335); (66349, 66378); (66384, 66421); (66432, 66461); (66464, 66499); (66504, 66511); (66513, 66517); (66560, 66717);
  (66736, 66771); (66776, 66811); (66816, 66855); (66864, 66915); (67072, 67382); (67392, 67413); (67424, 67431); (67584, 67589);
  (67592, 67592); (67594, 67637); (67639, 67640); (67644, 67644); (67647, 67669); (67680, 67702); (67712, 67742); (67808, 67826);
  (67828, 67829); (67840, 67861); (67872, 67897); (67968, 68023); (68030, 68031); (68096, 68096); (68112, 68115); (68117, 68119);
  (68121, 68149); (68192, 68220); (68224, 68252); (68288, 68295); (68297, 68324); (68352, 68405); (68416, 68437); (68448, 68466);
  (68480, 68497); (68608, 68680); (68736, 68786); (68800, 68850); (68864, 68899); (69376, 69404); (69415, 69415); (69424, 69445);
  (69635, 69687); (69763, 69807); (69840, 69864); (69891, 69926); (69956, 69956); (69968, 70002); (70006, 70006); (70019, 70066);
  (70081, 70084); (70106, 70106); (70108, 70108); (70144, 70161); (70163, 70187); (70272, 70278); (70280, 70280); (70282, 70285);
  (70287, 70301); (70303, 70312); (70320, 70366); (70405, 70412); (70415, 70416); (70419, 70440); (70442, 70448); (70450, 70451);
  (70453, 70457); (70461, 70461); (70480, 70480); (70493, 70497); (70656, 70708); (70727, 70730); (70784, 70831); (70852, 70853);
  (70855, 70855); (71040, 71086); (71128, 71131); (71168, 71215); (71236, 71236); (71296, 71338); (71680, 71723); (71840, 71903);
  (71935, 71935); (72192, 72192); (72203, 72242); (72250, 72250); (72272, 72272); (72284, 72323); (72326, 72329); (72349, 72349);
  (72384, 72440); (72704, 72712); (72714, 72750); (72768, 72768); (72818, 72847); (72960, 72966); (72968, 72969); (72971, 73008);
  (73030, 73030); (73056, 73061); (73063, 73064); (73066, 73097); (73112, 73112); (73440, 73458); (73728, 74649); (74752, 74862);
  (74880, 75075); (77824, 78894); (82944, 83526); (92160, 92728); (92736, 92766); (92880, 92909); (92928, 92975); (92992, 92995);
  (93027, 93047); (93053, 93071); (93760, 93823); (93952, 94020); (94032, 94032); (94099, 94111); (94176, 94177); (113664, 113770);
  (113776, 113788); (113792, 113800); (113808, 113817); (119808, 119892); (119894, 119964); (119966, 119967); (119970, 119970);
  (119973, 119974); (119977, 119980); (119982, 119993); (119995, 119995); (119997, 120003); (120005, 120069); (120071, 120074);
  (120077, 120084); (120086, 120092); (120094, 120121); (120123, 120126); (120128, 120132); (120134, 120134); (120138, 120144);
  (120146, 120485); (120488, 120512); (120514, 120538); (120540, 120570); (120572, 120596); (120598, 120628); (120630, 120654);
  (120656, 120686); (120688, 120712); (120714, 120744); (120746, 120770); (120772, 120779); (124928, 125124); (125184, 125251);
  (126464, 126467); (126469, 126495); (126497, 126498); (126500, 126500); (126503, 126503); (126505, 126514); (126516, 126519);
  (126521, 126521); (126523, 126523); (126530, 126530); (126535, 126535); (126537, 126537); (126539, 126539); (126541, 126543);
  (126545, 126546); (126548, 126548); (126551, 126551); (126553, 126553); (126555, 126555); (126557, 126557); (126559, 126559);
  (126561, 126562); (126564, 126564); (126567, 126570); (126572, 126578); (126580, 126583); (126585, 126588); (126590, 126590);
  (126592, 126601); (126603, 126619); (126625, 126627); (126629, 126633); (126635, 126651); (127280, 127305); (127312, 127337);
  (127344, 127369)].
(* uax29/uax29classes.go:76 *)
Definition CR : ranges := [(13, 13)].
(* uax29/uax29classes.go:494 *)
Definition Double_Quote : ranges := [(34, 34)].
(* uax29/uax29classes.go:198-490 *)
Definition Extend : ranges := [(768, 879); (1155, 1161); (1425, 1469); (1471, 1471); (1473, 1474); (1476, 1477); (1479, 1479); (1552, 1562);
  (1611, 1631); (1648, 1648); (1750, 1756); (1759, 1764); (1767, 1768); (1770, 1773); (1809, 1809); (1840, 1866); (1958, 1968);
  (2027, 2035); (2045, 2045); (2070, 2073); (2075, 2083); (2085, 2087); (2089, 2093); (2137, 2139); (2259, 2273); (2275, 2307);
  (2362, 2364); (2366, 2383); (2385, 2391); (2402, 2403); (2433, 2435); (2492, 2492); (2494, 2500); (2503, 2504); (2507, 2509);
  (2519, 2519); (2530, 2531); (2558, 2558); (2561, 2563); (2620, 2620); (2622, 2626); (2631, 2632); (2635, 2637); (2641, 2641);
  (2672, 2673); (2677, 2677); (2689, 2691); (2748, 2748); (2750, 2757); (2759, 2761); (2763, 2765); (2786, 2787); (2810, 2815);
  (2817, 2819); (2876, 2876); (2878, 2884); (2887, 2888); (2891, 2893); (2902, 2903); (2914, 2915); (2946, 2946); (3006, 3010);
  (3014, 3016); (3018, 3021); (3031, 3031); (3072, 3076); (3134, 3140); (3142, 3144); (3146, 3149); (3157, 3158); (3170, 3171);
  (3201, 3203); (3260, 3260); (3262, 3268); (3270, 3272); (3274, 3277); (3285, 3286); (3298, 3299); (3328, 3331); (3387, 3388);
  (3390, 3396); (3398, 3400); (3402, 3405); (3415, 3415); (3426, 3427); (3458, 3459); (3530, 3530); (3535, 3540); (3542, 3542);
  (3544, 3551); (3570, 3571); (3633, 3633); (3636, 3642); (3655, 3662); (3761, 3761); (3764, 3769); (3771, 3772); (3784, 3789);
  (3864, 3865); (3893, 3893); (3895, 3895); (3897, 3897); (3902, 3903); (3953, 3972); (3974, 3975); (3981, 3991); (3993, 4028);
  (4038, 4038); (4139, 4158); (4182, 4185); (4190, 4192); (4194, 4196); (4199, 4205); (4209, 4212); (4226, 4237); (4239, 4239);
  (4250, 4253); (4957, 4959); (5906, 5908); (5938, 5940); (5970, 5971); (6002, 6003); (6068, 6099); (6109, 6109); (6155, 6157);
  (6277, 6278); (6313, 6313); (6432, 6443); (6448, 6459); (6679, 6683); (6741, 6750); (6752, 6780); (6783, 6783); (6832, 6846);
  (6912, 6916); (6964, 6980); (7019, 7027); (7040, 7042); (7073, 7085); (7142, 7155); (7204, 7223); (7376, 7378); (7380, 7400);
  (7405, 7405); (7410, 7412); (7415, 7417); (7616, 7673); (7675, 7679); (8204, 8204); (8400, 8432); (11503, 11505); (11647, 11647);
  (11744, 11775); (12330, 12335); (12441, 12442); (42607, 42610); (42612, 42621); (42654, 42655); (42736, 42737); (43010, 43010);
  (43014, 43014); (43019, 43019); (43043, 43047); (43136, 43137); (43188, 43205); (43232, 43249); (43263, 43263); (43302, 43309);
  (43335, 43347); (43392, 43395); (43443, 43456); (43493, 43493); (43561, 43574); (43587, 43587); (43596, 43597); (43643, 43645);
  (43696, 43696); (43698, 43700); (43703, 43704); (43710, 43711); (43713, 43713); (43755, 43759); (43765, 43766); (44003, 44010);
  (44012, 44013); (64286, 64286); (65024, 65039); (65056, 65071); (65438, 65439); (66045, 66045); (66272, 66272); (66422, 66426);
  (68097, 68099); (68101, 68102); (68108, 68111); (68152, 68154); (68159, 68159); (68325, 68326); (68900, 68903); (69446, 69456);
  (69632, 69634); (69688, 69702); (69759, 69762); (69808, 69818); (69888, 69890); (69927, 69940); (69957, 69958); (70003, 70003);
  (70016, 70018); (70067, 70080); (70089, 70092); (70188, 70199); (70206, 70206); (70367, 70378); (70400, 70403); (70459, 70460);
  (70462, 70468); (70471, 70472); (70475, 70477); (70487, 70487); (70498, 70499); (70502, 70508); (70512, 70516); (70709, 70726);
  (70750, 70750); (70832, 70851); (71087, 71093); (71096, 71104); (71132, 71133); (71216, 71232); (71339, 71351); (71453, 71467);
  (71724, 71738); (72193, 72202); (72243, 72249); (72251, 72254); (72263, 72263); (72273, 72283); (72330, 72345); (72751, 72758);
  (72760, 72767); (72850, 72871); (72873, 72886); (73009, 73014); (73018, 73018); (73020, 73021); (73023, 73029); (73031, 73031);
  (73098, 73102); (73104, 73105); (73107, 73111); (73459, 73462); (92912, 92916); (92976, 92982); (94033, 94078); (94095, 94098);
  (113821, 113822); (119141, 119145); (119149, 119154); (119163, 119170); (119173, 119179); (119210, 119213); (119362, 119364);
  (121344, 121398); (121403, 121452); (121461, 121461); (121476, 121476); (121499, 121503); (121505, 121519); (122880, 122886);
  (122888, 122904); (122907, 122913); (122915, 122916); (122918, 122922); (125136, 125142); (125252, 125258); (127995, 127999);
  (917536, 917631); (917760, 917999)].
(* uax29/uax29classes.go:80-81 *)
Definition ExtendNumLet : ranges := [(95, 95); (8239, 8239); (8255, 8256); (8276, 8276); (65075, 65076); (65101, 65103); (65343, 65343)].
(* uax29/uax29classes.go:4124-4130 *)
Definition Format : ranges := [(173, 173); (1536, 1541); (1564, 1564); (1757, 1757); (1807, 1807); (2274, 2274); (6158, 6158); (8206, 8207);
  (8234, 8238); (8288, 8292); (8294, 8303); (65279, 65279); (65529, 65531); (69821, 69821); (69837, 69837); (113824, 113827);
  (119155, 119162); (917505, 917505)].
(* uax29/uax29classes.go:96-105 *)
Definition Hebrew_Letter : ranges := [(1488, 1514); (1519, 1522); (64285, 64285); (64287, 64296); (64298, 64310); (64312, 64316);
  (64318, 64318); (64320, 64321); (64323, 64324); (64326, 64335)].
(* uax29/uax29classes.go:4077-4115 *)
Definition Katakana : ranges := [(12337, 12341); (12443, 12444); (12448, 12538); (12540, 12543); (12784, 12799); (13008, 13054);
  (13056, 13143); (65382, 65437); (110592, 110592)].
(* uax29/uax29classes.go:85 *)
Definition LF : ranges := [(10, 10)].
(* uax29/uax29classes.go:4119-4120 *)
Definition MidLetter : ranges := [(58, 58); (183, 183); (903, 903); (1524, 1524); (8231, 8231); (65043, 65043); (65109, 65109);
  (65306, 65306)].
(* uax29/uax29classes.go:192-194 *)
Definition MidNum : ranges := [(44, 44); (59, 59); (894, 894); (1417, 1417); (1548, 1549); (1644, 1644); (2040, 2040); (8260, 8260);
  (65040, 65040); (65044, 65044); (65104, 65104); (65108, 65108); (65292, 65292); (65307, 65307)].
(* uax29/uax29classes.go:4134-4135 *)
Definition MidNumLet : ranges := [(46, 46); (8216, 8217); (8228, 8228); (65106, 65106); (65287, 65287); (65294, 65294)].
(* uax29/uax29classes.go:4073 *)
Definition Newline : ranges := [(11, 12); (133, 133); (8232, 8233)].
(* uax29/uax29classes.go:109-184 *)
Definition Numeric : ranges := [(48, 57); (1632, 1641); (1643, 1643); (1776, 1785); (1984, 1993); (2406, 2415); (2534, 2543); (2662, 2671);
  (2790, 2799); (2918, 2927); (3046, 3055); (3174, 3183); (3302, 3311); (3430, 3439); (3558, 3567); (3664, 3673); (3792, 3801);
  (3872, 3881); (4160, 4169); (4240, 4249); (6112, 6121); (6160, 6169); (6470, 6479); (6608, 6617); (6784, 6793); (6800, 6809);
  (6992, 7001); (7088, 7097); (7232, 7241); (7248, 7257); (42528, 42537); (43216, 43225); (43264, 43273); (43472, 43481); (43504, 43513);
  (43600, 43609); (44016, 44025); (66720, 66729); (68912, 68921); (69734, 69743); (69872, 69881); (69942, 69951); (70096, 70105);
  (70384, 70393); (70736, 70745); (70864, 70873); (71248, 71257); (71360, 71369); (71472, 71481); (71904, 71913); (72784, 72793);
  (73040, 73049); (73120, 73129); (92768, 92777); (93008, 93017); (120782, 120831); (125264, 125273)].
(* uax29/uax29classes.go:89-92 *)
Definition Regional_Indicator : ranges := [(127462, 127487)].
(* uax29/uax29classes.go:4069 *)
Definition Single_Quote : ranges := [(39, 39)].
(* uax29/uax29classes.go:4064-4065 *)
Definition WSegSpace : ranges := [(32, 32); (5760, 5760); (8192, 8198); (8200, 8202); (8287, 8287); (12288, 12288)].
(* uax29/uax29classes.go:188 *)
Definition ZWJ : ranges := [(8205, 8205)].
End WordTab.

Module EmojiTab.
(* emoji/emojiclasses.go:53-209 *)
Definition Emoji : ranges := [(35, 35); (42, 42); (48, 57); (169, 169); (174, 174); (8252, 8252); (8265, 8265); (8482, 8482); (8505, 8505);
  (8596, 8601); (8617, 8618); (8986, 8987); (9000, 9000); (9167, 9167); (9193, 9203); (9208, 9210); (9410, 9410); (9642, 9643);
  (9654, 9654); (9664, 9664); (9723, 9726); (9728, 9732); (9742, 9742); (9745, 9745); (9748, 9749); (9752, 9752); (9757, 9757);
  (9760, 9760); (9762, 9763); (9766, 9766); (9770, 9770); (9774, 9775); (9784, 9786); (9792, 9792); (9794, 9794); (9800, 9811);
  (9823, 9824); (9827, 9827); (9829, 9830); (9832, 9832); (9851, 9851); (9854, 9855); (9874, 9879); (9881, 9881); (9883, 9884);
  (9888, 9889); (9898, 9899); (9904, 9905); (9917, 9918); (9924, 9925); (9928, 9928); (9934, 9935); (9937, 9937); (9939, 9940);
  (9961, 9962); (9968, 9973); (9975, 9978); (9981, 9981); (9986, 9986); (9989, 9989); (9992, 9997); (9999, 9999); (10002, 10002);
  (10004, 10004); (10006, 10006); (10013, 10013); (10017, 10017); (10024, 10024); (10035, 10036); (10052, 10052); (10055, 10055);
  (10060, 10060); (10062, 10062); (10067, 10069); (10071, 10071); (10083, 10084); (10133, 10135); (10145, 10145); (10160, 10160);
  (10175, 10175); (10548, 10549); (11013, 11015); (11035, 11036); (11088, 11088); (11093, 11093); (12336, 12336); (12349, 12349);
  (12951, 12951); (12953, 12953); (126980, 126980); (127183, 127183); (127344, 127345); (127358, 127359); (127374, 127374);
  (127377, 127386); (127462, 127487); (127489, 127490); (127514, 127514); (127535, 127535); (127538, 127546); (127568, 127569);
  (127744, 127777); (127780, 127891); (127894, 127895); (127897, 127899); (127902, 127984); (127987, 127989); (127991, 128253);
  (128255, 128317); (128329, 128334); (128336, 128359); (128367, 128368); (128371, 128378); (128391, 128391); (128394, 128397);
  (128400, 128400); (128405, 128406); (128420, 128421); (128424, 128424); (128433, 128434); (128444, 128444); (128450, 128452);
  (128465, 128467); (128476, 128478); (128481, 128481); (128483, 128483); (128488, 128488); (128495, 128495); (128499, 128499);
  (128506, 128591); (128640, 128709); (128715, 128722); (128736, 128741); (128745, 128745); (128747, 128748); (128752, 128752);
  (128755, 128761); (129296, 129338); (129340, 129342); (129344, 129349); (129351, 129392); (129395, 129398); (129402, 129402);
  (129404, 129442); (129456, 129465); (129472, 129474); (129488, 129535)].
(* emoji/emojiclasses.go:213-342 *)
Definition Emoji_Presentation : ranges := [(8986, 8987); (9193, 9196); (9200, 9200); (9203, 9203); (9725, 9726); (9748, 9749); (9800, 9811);
  (9855, 9855); (9875, 9875); (9889, 9889); (9898, 9899); (9917, 9918); (9924, 9925); (9934, 9934); (9940, 9940); (9962, 9962);
  (9970, 9971); (9973, 9973); (9978, 9978); (9981, 9981); (9989, 9989); (9994, 9995); (10024, 10024); (10060, 10060); (10062, 10062);
  (10067, 10069); (10071, 10071); (10133, 10135); (10160, 10160); (10175, 10175); (11035, 11036); (11088, 11088); (11093, 11093);
  (126980, 126980); (127183, 127183); (127374, 127374); (127377, 127386); (127462, 127487); (127489, 127489); (127514, 127514);
  (127535, 127535); (127538, 127542); (127544, 127546); (127568, 127569); (127744, 127776); (127789, 127797); (127799, 127868);
  (127870, 127891); (127904, 127946); (127951, 127955); (127968, 127984); (127988, 127988); (127992, 128062); (128064, 128064);
  (128066, 128252); (128255, 128317); (128331, 128334); (128336, 128359); (128378, 128378); (128405, 128406); (128420, 128420);
  (128507, 128591); (128640, 128709); (128716, 128716); (128720, 128722); (128747, 128748); (128756, 128761); (129296, 129338);
  (129340, 129342); (129344, 129349); (129351, 129392); (129395, 129398); (129402, 129402); (129404, 129442); (129456, 129465);
  (129472, 129474); (129488, 129535)].
(* emoji/emojiclasses.go:346 *)
Definition Emoji_Modifier : ranges := [(127995, 127999)].
(* emoji/emojiclasses.go:350-363 *)
Definition Emoji_Modifier_Base : ranges := [(9757, 9757); (9977, 9977); (9994, 9997); (127877, 127877); (127938, 127940); (127943, 127943);
  (127946, 127948); (128066, 128067); (128070, 128080); (128102, 128105); (128110, 128110); (128112, 128120); (128124, 128124);
  (128129, 128131); (128133, 128135); (128170, 128170); (128372, 128373); (128378, 128378); (128400, 128400); (128405, 128406);
  (128581, 128583); (128587, 128591); (128675, 128675); (128692, 128694); (128704, 128704); (128716, 128716); (129304, 129308);
  (129310, 129311); (129318, 129318); (129328, 129337); (129341, 129342); (129461, 129462); (129464, 129465); (129489, 129501)].
(* emoji/emojiclasses.go:367-385 *)
Definition Emoji_Component : ranges := [(35, 35); (42, 42); (48, 57); (8205, 8205); (8419, 8419); (65039, 65039); (127462, 127487);
  (127995, 127999); (129456, 129459); (917536, 917631)].
(* emoji/emojiclasses.go:389-863 *)
Definition Extended_Pictographic : ranges := [(169, 169); (174, 174); (8252, 8252); (8265, 8265); (8482, 8482); (8505, 8505); (8596, 8601);
  (8617, 8618); (8986, 8987); (9000, 9000); (9096, 9096); (9167, 9167); (9193, 9203); (9208, 9210); (9410, 9410); (9642, 9643);
  (9654, 9654); (9664, 9664); (9723, 9726); (9728, 9733); (9735, 9746); (9748, 9861); (9872, 9989); (9992, 10002); (10004, 10004);
  (10006, 10006); (10013, 10013); (10017, 10017); (10024, 10024); (10035, 10036); (10052, 10052); (10055, 10055); (10060, 10060);
  (10062, 10062); (10067, 10069); (10071, 10071); (10083, 10087); (10133, 10135); (10145, 10145); (10160, 10160); (10175, 10175);
  (10548, 10549); (11013, 11015); (11035, 11036); (11088, 11088); (11093, 11093); (12336, 12336); (12349, 12349); (12951, 12951);
  (12953, 12953); (126976, 127231); (127245, 127247); (127279, 127279); (127340, 127345); (127358, 127359); (127374, 127374);
  (127377, 127386); (127405, 127461); (127489, 127503); (127514, 127514); (127535, 127535); (127538, 127546); (127548, 127551);
  (127561, 127994); (128000, 128317); (128326, 128591); (128640, 128767); (128884, 128895); (128981, 129023); (129036, 129039);
  (129096, 129103); (129114, 129119); (129160, 129167); (129198, 129279); (129292, 129338); (129340, 129349); (129351, 131069)].
End EmojiTab.
