(** Where to look for the values of powf in the sweeps of ResaveProofs.v: for
    each sample the exponent and the first and last mantissa of the linear value,
    then of the encoded one for each linear value.  Not relied on: the sweeps
    check them. *)
From Coq Require Import ZArith List.
Import ListNotations.
Open Scope Z_scope.
Definition hint : Type := Z * Z * Z * list (Z * Z * Z).
(** For the samples from 39 to 63. *)
Definition hints_lost : list hint :=
 [(-5, 10892339, 10892340, [(-2, 13227200, 13227201); (-2, 13227201, 13227201)]);
  (-5, 11391869, 11391870, [(-2, 13476652, 13476653); (-2, 13476653, 13476653)]);
  (-5, 11904513, 11904514, [(-2, 13726104, 13726105); (-2, 13726105, 13726105)]);
  (-5, 12430367, 12430368, [(-2, 13975556, 13975557); (-2, 13975556, 13975557)]);
  (-5, 12969528, 12969529, [(-2, 14225008, 14225009); (-2, 14225008, 14225009)]);
  (-5, 13522090, 13522091, [(-2, 14474460, 14474461); (-2, 14474460, 14474461)]);
  (-5, 14088149, 14088149, [(-2, 14723913, 14723914)]);
  (-5, 14667792, 14667792, [(-2, 14973365, 14973366)]);
  (-5, 15261113, 15261114, [(-2, 15222817, 15222818); (-2, 15222818, 15222818)]);
  (-5, 15868203, 15868204, [(-2, 15472269, 15472270); (-2, 15472269, 15472270)]);
  (-5, 16489153, 16489154, [(-2, 15721721, 15721722); (-2, 15721722, 15721722)]);
  (-4, 8562025, 8562026, [(-2, 15971173, 15971174); (-2, 15971174, 15971175)]);
  (-4, 8886492, 8886492, [(-2, 16220625, 16220626)]);
  (-4, 9218021, 9218022, [(-2, 16470078, 16470078); (-2, 16470078, 16470079)]);
  (-4, 9556655, 9556655, [(-2, 16719530, 16719531)]);
  (-4, 9902434, 9902435, [(-1, 8484490, 8484491); (-1, 8484491, 8484491)]);
  (-4, 10255406, 10255406, [(-1, 8609216, 8609217)]);
  (-4, 10615612, 10615613, [(-1, 8733943, 8733944); (-1, 8733944, 8733944)]);
  (-4, 10983090, 10983090, [(-1, 8858669, 8858670)]);
  (-4, 11357883, 11357883, [(-1, 8983395, 8983396)]);
  (-4, 11740032, 11740033, [(-1, 9108121, 9108122); (-1, 9108122, 9108122)]);
  (-4, 12129579, 12129579, [(-1, 9232847, 9232848)]);
  (-4, 12526563, 12526564, [(-1, 9357573, 9357574); (-1, 9357574, 9357574)]);
  (-4, 12931024, 12931025, [(-1, 9482299, 9482300); (-1, 9482299, 9482300)]);
  (-4, 13343003, 13343004, [(-1, 9607025, 9607026); (-1, 9607026, 9607026)])].
(** For the samples from 0 to 254. *)
Definition hints_all : list hint :=
 [(0, 0, 0, [(0, 0, 0)]);
  (0, 0, 0, [(0, 0, 0)]);
  (0, 0, 0, [(0, 0, 0)]);
  (0, 0, 0, [(0, 0, 0)]);
  (0, 0, 0, [(0, 0, 0)]);
  (0, 0, 0, [(0, 0, 0)]);
  (0, 0, 0, [(0, 0, 0)]);
  (0, 0, 0, [(0, 0, 0)]);
  (0, 0, 0, [(0, 0, 0)]);
  (0, 0, 0, [(0, 0, 0)]);
  (0, 0, 0, [(0, 0, 0)]);
  (-8, 14373261, 14373261, [(-3, 12485080, 12485080)]);
  (-8, 15790477, 15790477, [(-3, 12983984, 12983984)]);
  (-7, 8643014, 8643014, [(-3, 13482889, 13482889)]);
  (-7, 9430550, 9430550, [(-3, 13981794, 13981794)]);
  (-7, 10258429, 10258429, [(-3, 14480698, 14480698)]);
  (-7, 11127223, 11127223, [(-3, 14979603, 14979603)]);
  (-7, 12037487, 12037487, [(-3, 15478507, 15478507)]);
  (-7, 12989769, 12989769, [(-3, 15977410, 15977410)]);
  (-7, 13984609, 13984609, [(-3, 16476315, 16476315)]);
  (-7, 15022529, 15022529, [(-2, 8487610, 8487610)]);
  (-7, 16104048, 16104048, [(-2, 8737062, 8737062)]);
  (-6, 8614837, 8614837, [(-2, 8986514, 8986514)]);
  (-6, 9199954, 9199954, [(-2, 9235966, 9235966)]);
  (-6, 9807619, 9807619, [(-2, 9485418, 9485418)]);
  (-6, 10438078, 10438078, [(-2, 9734871, 9734871)]);
  (-6, 11091563, 11091563, [(-2, 9984323, 9984323)]);
  (-6, 11768311, 11768311, [(-2, 10233775, 10233775)]);
  (-6, 12468553, 12468553, [(-2, 10483227, 10483227)]);
  (-6, 13192515, 13192515, [(-2, 10732679, 10732679)]);
  (-6, 13940423, 13940423, [(-2, 10982131, 10982131)]);
  (-6, 14712497, 14712497, [(-2, 11231583, 11231583)]);
  (-6, 15508959, 15508959, [(-2, 11481036, 11481036)]);
  (-6, 16330018, 16330018, [(-2, 11730488, 11730488)]);
  (-5, 8587944, 8587944, [(-2, 11979940, 11979940)]);
  (-5, 9023390, 9023391, [(-2, 12229391, 12229391); (-2, 12229392, 12229392)]);
  (-5, 9471451, 9471451, [(-2, 12478844, 12478844)]);
  (-5, 9932229, 9932229, [(-2, 12728296, 12728296)]);
  (-5, 10405826, 10405826, [(-2, 12977749, 12977749)]);
  (-5, 10892339, 10892339, [(-2, 13227200, 13227200)]);
  (-5, 11391869, 11391869, [(-2, 13476653, 13476653)]);
  (-5, 11904513, 11904513, [(-2, 13726105, 13726105)]);
  (-5, 12430368, 12430368, [(-2, 13975557, 13975557)]);
  (-5, 12969529, 12969529, [(-2, 14225009, 14225009)]);
  (-5, 13522091, 13522091, [(-2, 14474461, 14474461)]);
  (-5, 14088149, 14088149, [(-2, 14723914, 14723914)]);
  (-5, 14667792, 14667792, [(-2, 14973366, 14973366)]);
  (-5, 15261113, 15261113, [(-2, 15222818, 15222818)]);
  (-5, 15868204, 15868204, [(-2, 15472270, 15472270)]);
  (-5, 16489153, 16489153, [(-2, 15721722, 15721722)]);
  (-4, 8562025, 8562025, [(-2, 15971173, 15971173)]);
  (-4, 8886492, 8886492, [(-2, 16220626, 16220626)]);
  (-4, 9218022, 9218022, [(-2, 16470079, 16470079)]);
  (-4, 9556655, 9556655, [(-2, 16719531, 16719531)]);
  (-4, 9902435, 9902435, [(-1, 8484491, 8484491)]);
  (-4, 10255406, 10255406, [(-1, 8609217, 8609217)]);
  (-4, 10615612, 10615612, [(-1, 8733944, 8733944)]);
  (-4, 10983090, 10983090, [(-1, 8858670, 8858670)]);
  (-4, 11357883, 11357883, [(-1, 8983396, 8983396)]);
  (-4, 11740032, 11740033, [(-1, 9108122, 9108122); (-1, 9108122, 9108122)]);
  (-4, 12129579, 12129579, [(-1, 9232848, 9232848)]);
  (-4, 12526563, 12526563, [(-1, 9357574, 9357574)]);
  (-4, 12931025, 12931025, [(-1, 9482300, 9482300)]);
  (-4, 13343004, 13343004, [(-1, 9607026, 9607026)]);
  (-4, 13762542, 13762543, [(-1, 9731753, 9731753); (-1, 9731753, 9731753)]);
  (-4, 14189674, 14189674, [(-1, 9856479, 9856479)]);
  (-4, 14624439, 14624440, [(-1, 9981205, 9981205); (-1, 9981205, 9981205)]);
  (-4, 15066878, 15066878, [(-1, 10105931, 10105931)]);
  (-4, 15517028, 15517028, [(-1, 10230657, 10230657)]);
  (-4, 15974927, 15974927, [(-1, 10355383, 10355383)]);
  (-4, 16440617, 16440617, [(-1, 10480110, 10480110)]);
  (-3, 8457063, 8457064, [(-1, 10604836, 10604836); (-1, 10604836, 10604836)]);
  (-3, 8697749, 8697749, [(-1, 10729562, 10729562)]);
  (-3, 8942384, 8942384, [(-1, 10854288, 10854288)]);
  (-3, 9190986, 9190986, [(-1, 10979014, 10979014)]);
  (-3, 9443574, 9443574, [(-1, 11103740, 11103740)]);
  (-3, 9700165, 9700165, [(-1, 11228466, 11228466)]);
  (-3, 9960778, 9960778, [(-1, 11353192, 11353192)]);
  (-3, 10225430, 10225430, [(-1, 11477918, 11477918)]);
  (-3, 10494139, 10494139, [(-1, 11602644, 11602644)]);
  (-3, 10766923, 10766923, [(-1, 11727370, 11727370)]);
  (-3, 11043799, 11043799, [(-1, 11852096, 11852096)]);
  (-3, 11324784, 11324784, [(-1, 11976822, 11976822)]);
  (-3, 11609896, 11609896, [(-1, 12101548, 12101548)]);
  (-3, 11899154, 11899154, [(-1, 12226275, 12226275)]);
  (-3, 12192571, 12192571, [(-1, 12351001, 12351001)]);
  (-3, 12490165, 12490165, [(-1, 12475727, 12475727)]);
  (-3, 12791954, 12791954, [(-1, 12600453, 12600453)]);
  (-3, 13097954, 13097954, [(-1, 12725179, 12725179)]);
  (-3, 13408182, 13408182, [(-1, 12849905, 12849905)]);
  (-3, 13722655, 13722655, [(-1, 12974631, 12974631)]);
  (-3, 14041388, 14041388, [(-1, 13099357, 13099357)]);
  (-3, 14364399, 14364399, [(-1, 13224083, 13224083)]);
  (-3, 14691703, 14691703, [(-1, 13348809, 13348809)]);
  (-3, 15023317, 15023317, [(-1, 13473535, 13473535)]);
  (-3, 15359257, 15359257, [(-1, 13598261, 13598261)]);
  (-3, 15699538, 15699538, [(-1, 13722987, 13722987)]);
  (-3, 16044177, 16044177, [(-1, 13847713, 13847713)]);
  (-3, 16393192, 16393192, [(-1, 13972440, 13972440)]);
  (-3, 16746593, 16746593, [(-1, 14097166, 14097166)]);
  (-2, 8552199, 8552199, [(-1, 14221892, 14221892)]);
  (-2, 8733312, 8733312, [(-1, 14346618, 14346618)]);
  (-2, 8916643, 8916643, [(-1, 14471344, 14471344)]);
  (-2, 9102200, 9102200, [(-1, 14596070, 14596070)]);
  (-2, 9289989, 9289989, [(-1, 14720796, 14720796)]);
  (-2, 9480020, 9480020, [(-1, 14845522, 14845522)]);
  (-2, 9672299, 9672299, [(-1, 14970248, 14970248)]);
  (-2, 9866834, 9866834, [(-1, 15094974, 15094974)]);
  (-2, 10063632, 10063632, [(-1, 15219700, 15219700)]);
  (-2, 10262701, 10262701, [(-1, 15344426, 15344426)]);
  (-2, 10464048, 10464048, [(-1, 15469152, 15469152)]);
  (-2, 10667683, 10667683, [(-1, 15593879, 15593879)]);
  (-2, 10873609, 10873609, [(-1, 15718605, 15718605)]);
  (-2, 11081836, 11081836, [(-1, 15843331, 15843331)]);
  (-2, 11292368, 11292368, [(-1, 15968056, 15968056)]);
  (-2, 11505217, 11505217, [(-1, 16092782, 16092782)]);
  (-2, 11720388, 11720389, [(-1, 16217508, 16217508); (-1, 16217508, 16217508)]);
  (-2, 11937889, 11937889, [(-1, 16342234, 16342234)]);
  (-2, 12157726, 12157726, [(-1, 16466960, 16466960)]);
  (-2, 12379907, 12379907, [(-1, 16591686, 16591686)]);
  (-2, 12604438, 12604438, [(-1, 16716412, 16716412)]);
  (-2, 12831327, 12831327, [(0, 8420569, 8420569)]);
  (-2, 13060580, 13060580, [(0, 8482932, 8482932)]);
  (-2, 13292206, 13292206, [(0, 8545295, 8545295)]);
  (-2, 13526210, 13526210, [(0, 8607658, 8607658)]);
  (-2, 13762599, 13762599, [(0, 8670021, 8670021)]);
  (-2, 14001382, 14001382, [(0, 8732384, 8732384)]);
  (-2, 14242563, 14242563, [(0, 8794747, 8794747)]);
  (-2, 14486155, 14486155, [(0, 8857111, 8857111)]);
  (-2, 14732156, 14732156, [(0, 8919474, 8919474)]);
  (-2, 14980576, 14980576, [(0, 8981837, 8981837)]);
  (-2, 15231423, 15231423, [(0, 9044200, 9044200)]);
  (-2, 15484704, 15484704, [(0, 9106563, 9106563)]);
  (-2, 15740428, 15740428, [(0, 9168927, 9168927)]);
  (-2, 15998596, 15998596, [(0, 9231290, 9231290)]);
  (-2, 16259216, 16259216, [(0, 9293653, 9293653)]);
  (-2, 16522296, 16522296, [(0, 9356016, 9356016)]);
  (-1, 8393922, 8393922, [(0, 9418379, 9418379)]);
  (-1, 8527932, 8527932, [(0, 9480742, 9480742)]);
  (-1, 8663181, 8663181, [(0, 9543105, 9543105)]);
  (-1, 8799674, 8799674, [(0, 9605468, 9605468)]);
  (-1, 8937413, 8937413, [(0, 9667831, 9667831)]);
  (-1, 9076402, 9076402, [(0, 9730194, 9730194)]);
  (-1, 9216643, 9216643, [(0, 9792557, 9792557)]);
  (-1, 9358141, 9358141, [(0, 9854920, 9854920)]);
  (-1, 9500897, 9500897, [(0, 9917283, 9917283)]);
  (-1, 9644916, 9644916, [(0, 9979646, 9979646)]);
  (-1, 9790200, 9790200, [(0, 10042009, 10042009)]);
  (-1, 9936753, 9936753, [(0, 10104372, 10104372)]);
  (-1, 10084578, 10084578, [(0, 10166735, 10166735)]);
  (-1, 10233678, 10233678, [(0, 10229098, 10229098)]);
  (-1, 10384055, 10384055, [(0, 10291461, 10291461)]);
  (-1, 10535714, 10535714, [(0, 10353824, 10353824)]);
  (-1, 10688658, 10688658, [(0, 10416187, 10416187)]);
  (-1, 10842888, 10842888, [(0, 10478550, 10478550)]);
  (-1, 10998409, 10998409, [(0, 10540913, 10540913)]);
  (-1, 11155224, 11155224, [(0, 10603276, 10603276)]);
  (-1, 11313335, 11313335, [(0, 10665639, 10665639)]);
  (-1, 11472745, 11472745, [(0, 10728002, 10728002)]);
  (-1, 11633459, 11633459, [(0, 10790365, 10790365)]);
  (-1, 11795480, 11795480, [(0, 10852729, 10852729)]);
  (-1, 11958808, 11958808, [(0, 10915092, 10915092)]);
  (-1, 12123447, 12123447, [(0, 10977455, 10977455)]);
  (-1, 12289401, 12289401, [(0, 11039818, 11039818)]);
  (-1, 12456673, 12456673, [(0, 11102181, 11102181)]);
  (-1, 12625265, 12625265, [(0, 11164544, 11164544)]);
  (-1, 12795181, 12795181, [(0, 11226907, 11226907)]);
  (-1, 12966423, 12966423, [(0, 11289270, 11289270)]);
  (-1, 13138995, 13138995, [(0, 11351633, 11351633)]);
  (-1, 13312899, 13312899, [(0, 11413996, 11413996)]);
  (-1, 13488139, 13488139, [(0, 11476359, 11476359)]);
  (-1, 13664717, 13664717, [(0, 11538722, 11538722)]);
  (-1, 13842636, 13842636, [(0, 11601085, 11601085)]);
  (-1, 14021899, 14021899, [(0, 11663448, 11663448)]);
  (-1, 14202509, 14202509, [(0, 11725811, 11725811)]);
  (-1, 14384468, 14384468, [(0, 11788174, 11788174)]);
  (-1, 14567781, 14567781, [(0, 11850537, 11850537)]);
  (-1, 14752449, 14752449, [(0, 11912900, 11912900)]);
  (-1, 14938475, 14938475, [(0, 11975263, 11975263)]);
  (-1, 15125863, 15125863, [(0, 12037626, 12037626)]);
  (-1, 15314614, 15314615, [(0, 12099989, 12099989); (0, 12099989, 12099989)]);
  (-1, 15504733, 15504733, [(0, 12162352, 12162352)]);
  (-1, 15696221, 15696221, [(0, 12224715, 12224715)]);
  (-1, 15889082, 15889082, [(0, 12287078, 12287078)]);
  (-1, 16083318, 16083318, [(0, 12349441, 12349441)]);
  (-1, 16278932, 16278932, [(0, 12411804, 12411804)]);
  (-1, 16475927, 16475927, [(0, 12474167, 12474167)]);
  (-1, 16674306, 16674306, [(0, 12536530, 12536530)]);
  (0, 8437037, 8437037, [(0, 12598894, 12598894)]);
  (0, 8537614, 8537614, [(0, 12661257, 12661257)]);
  (0, 8638887, 8638887, [(0, 12723620, 12723620)]);
  (0, 8740857, 8740857, [(0, 12785983, 12785983)]);
  (0, 8843526, 8843526, [(0, 12848346, 12848346)]);
  (0, 8946895, 8946895, [(0, 12910709, 12910709)]);
  (0, 9050966, 9050966, [(0, 12973072, 12973072)]);
  (0, 9155739, 9155739, [(0, 13035435, 13035435)]);
  (0, 9261216, 9261216, [(0, 13097798, 13097798)]);
  (0, 9367399, 9367399, [(0, 13160161, 13160161)]);
  (0, 9474289, 9474289, [(0, 13222524, 13222524)]);
  (0, 9581886, 9581886, [(0, 13284887, 13284887)]);
  (0, 9690193, 9690193, [(0, 13347250, 13347250)]);
  (0, 9799211, 9799211, [(0, 13409613, 13409613)]);
  (0, 9908941, 9908941, [(0, 13471976, 13471976)]);
  (0, 10019385, 10019385, [(0, 13534339, 13534339)]);
  (0, 10130543, 10130543, [(0, 13596702, 13596702)]);
  (0, 10242417, 10242417, [(0, 13659065, 13659065)]);
  (0, 10355009, 10355009, [(0, 13721428, 13721428)]);
  (0, 10468319, 10468319, [(0, 13783791, 13783791)]);
  (0, 10582350, 10582350, [(0, 13846154, 13846154)]);
  (0, 10697102, 10697102, [(0, 13908517, 13908517)]);
  (0, 10812576, 10812576, [(0, 13970880, 13970880)]);
  (0, 10928774, 10928774, [(0, 14033243, 14033243)]);
  (0, 11045697, 11045697, [(0, 14095606, 14095606)]);
  (0, 11163347, 11163347, [(0, 14157969, 14157969)]);
  (0, 11281725, 11281725, [(0, 14220332, 14220332)]);
  (0, 11400832, 11400832, [(0, 14282695, 14282695)]);
  (0, 11520670, 11520670, [(0, 14345059, 14345059)]);
  (0, 11641239, 11641239, [(0, 14407422, 14407422)]);
  (0, 11762540, 11762540, [(0, 14469785, 14469785)]);
  (0, 11884576, 11884576, [(0, 14532148, 14532148)]);
  (0, 12007347, 12007347, [(0, 14594511, 14594511)]);
  (0, 12130854, 12130854, [(0, 14656874, 14656874)]);
  (0, 12255100, 12255100, [(0, 14719237, 14719237)]);
  (0, 12380085, 12380085, [(0, 14781600, 14781600)]);
  (0, 12505810, 12505810, [(0, 14843963, 14843963)]);
  (0, 12632276, 12632276, [(0, 14906326, 14906326)]);
  (0, 12759486, 12759486, [(0, 14968689, 14968689)]);
  (0, 12887440, 12887440, [(0, 15031052, 15031052)]);
  (0, 13016139, 13016139, [(0, 15093415, 15093415)]);
  (0, 13145585, 13145585, [(0, 15155778, 15155778)]);
  (0, 13275778, 13275778, [(0, 15218141, 15218141)]);
  (0, 13406721, 13406721, [(0, 15280504, 15280504)]);
  (0, 13538414, 13538414, [(0, 15342867, 15342867)]);
  (0, 13670859, 13670859, [(0, 15405230, 15405230)]);
  (0, 13804056, 13804056, [(0, 15467593, 15467593)]);
  (0, 13938007, 13938007, [(0, 15529956, 15529956)]);
  (0, 14072714, 14072714, [(0, 15592319, 15592319)]);
  (0, 14208176, 14208177, [(0, 15654682, 15654682); (0, 15654682, 15654682)]);
  (0, 14344397, 14344397, [(0, 15717045, 15717045)]);
  (0, 14481376, 14481376, [(0, 15779408, 15779408)]);
  (0, 14619115, 14619116, [(0, 15841771, 15841771); (0, 15841771, 15841771)]);
  (0, 14757614, 14757614, [(0, 15904133, 15904133)]);
  (0, 14896879, 14896879, [(0, 15966497, 15966497)]);
  (0, 15036905, 15036905, [(0, 16028860, 16028860)]);
  (0, 15177699, 15177699, [(0, 16091224, 16091224)]);
  (0, 15319254, 15319254, [(0, 16153586, 16153586)]);
  (0, 15461581, 15461581, [(0, 16215950, 16215950)]);
  (0, 15604671, 15604671, [(0, 16278312, 16278312)]);
  (0, 15748536, 15748536, [(0, 16340676, 16340676)]);
  (0, 15893167, 15893167, [(0, 16403038, 16403038)]);
  (0, 16038574, 16038574, [(0, 16465402, 16465402)]);
  (0, 16184750, 16184750, [(0, 16527764, 16527764)]);
  (0, 16331704, 16331705, [(0, 16590128, 16590128); (0, 16590128, 16590128)]);
  (0, 16479430, 16479430, [(0, 16652490, 16652490)]);
  (0, 16627936, 16627936, [(0, 16714854, 16714854)])].
