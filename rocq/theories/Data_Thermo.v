(* GENERATED by tools/gen_thermo_data.py: the shipped data of pycycle/thermo/cea/thermo_data/janaf.py,
   co2_co_o2.py and wet_air.py, as exact decimals (mantissa, exponent of ten). *)
From Coq Require Import ZArith.
From Verif Require Export Model_Species.
Open Scope string_scope. Open Scope list_scope. Open Scope Z_scope.
Definition dec := (Z * Z)%type.
Record spD := mkSpD { d_coeffs : list (list dec); d_ranges : list dec; d_wt : dec; d_elems : dict dec }.
Record specD := mkSpecD { d_products : dict spD; d_element_wts : dict dec; d_reactants : dict (dict dec) }.
(* thermo_data/janaf.py *)
Definition janaf_dec : specD := mkSpecD
  [("Ar", mkSpD
     [[(0,0); (0,0); (25,-1); (0,0); (0,0); (0,0); (0,0); (-745375,-3); (437967491,-8)];
      [(2010538475,-8); (-599266107,-10); (2500069401,-9); (-399214116,-16); (120527214,-19); (-1819015576,-24); (1078576636,-28); (-744993961,-6); (437918011,-8)];
      [(-995126508,0); (645888726,-3); (-1675894697,-7); (2319933363,-11); (-1721080911,-15); (653193846,-19); (-9740147729,-25); (-507830034,-2); (1465298484,-6)]]
     [(2,2); (1,3); (6,3); (2,4)] (39948,-3) [("Ar", (1,0))]);
   ("CH4", mkSpD
     [[(-1766850998,-4); (278618102,-5); (-120257785,-7); (391761929,-10); (-361905443,-13); (2026853043,-17); (-497670549,-20); (-233131436,-4); (890432275,-7)];
      [(373004276,-2); (-1383501485,-5); (2049107091,-8); (-1961974759,-12); (472731304,-15); (-372881469,-19); (1623737207,-24); (753206691,-4); (-1219124889,-7)]]
     [(2,2); (1,3); (6,3)] (1604246,-5) [("C", (1,0)); ("H", (4,0))]);
   ("C2H4", mkSpD
     [[(-1163605836,-4); (255485151,-5); (-1609746428,-8); (662577932,-10); (-788508186,-13); (512522482,-16); (-1370340031,-20); (-617619107,-5); (1093338343,-7)];
      [(340876367,-2); (-1374847903,-5); (2365898074,-8); (-2423804419,-12); (443139566,-15); (-435268339,-19); (1775410633,-24); (882042938,-4); (-1371278108,-7)]]
     [(2,2); (1,3); (6,3)] (2805316,-5) [("C", (2,0)); ("H", (4,0))]);
   ("CO", mkSpD
     [[(1489045326,-5); (-2922285939,-7); (572452717,-8); (-817623503,-11); (1456903469,-14); (-1087746302,-17); (3027941827,-21); (-1303131878,-5); (-785924135,-8)];
      [(461919725,-3); (-1944704863,-6); (591671418,-8); (-566428283,-12); (139881454,-15); (-1787680361,-20); (962093557,-24); (-2466261084,-6); (-1387413108,-8)];
      [(886866296,0); (-750037784,-3); (2495474979,-7); (-39563511,-9); (329777208,-14); (-1318409933,-19); (1998937948,-24); (570142113,-2); (-2060704786,-6)]]
     [(2,2); (1,3); (6,3); (2,4)] (280101,-4) [("C", (1,0)); ("O", (1,0))]);
   ("CO2", mkSpD
     [[(494365054,-4); (-626411601,-6); (530172524,-8); (2503813816,-12); (-2127308728,-16); (-768998878,-18); (2849677801,-22); (-452819846,-4); (-704827944,-8)];
      [(1176962419,-4); (-1788791477,-6); (829152319,-8); (-922315678,-13); (486367688,-17); (-1891053312,-21); (633003659,-24); (-390835059,-4); (-2652669281,-8)];
      [(-1544423287,0); (1016847056,-3); (-256140523,-6); (336940108,-10); (-2181184337,-15); (699142084,-19); (-88423515,-23); (-804321451,-2); (2254177493,-6)]]
     [(2,2); (1,3); (6,3); (2,4)] (440095,-4) [("C", (1,0)); ("O", (2,0))]);
   ("H", mkSpD
     [[(0,0); (0,0); (25,-1); (0,0); (0,0); (0,0); (0,0); (2547370801,-5); (-446682853,-9)];
      [(607877425,-7); (-1819354417,-10); (2500211817,-9); (-1226512864,-16); (373287633,-19); (-568774456,-23); (3410210197,-28); (2547486398,-5); (-448191777,-9)];
      [(2173757694,-1); (-1312035403,-4); (33991742,-6); (-381399968,-11); (2432854837,-16); (-769427554,-20); (964410563,-25); (1067638086,-3); (-2742301051,-7)]]
     [(2,2); (1,3); (6,3); (2,4)] (100794,-5) [("H", (1,0))]);
   ("HO2", mkSpD
     [[(-759888254,-4); (1329383918,-6); (-467738824,-8); (2508308202,-11); (-3006551588,-14); (1895600056,-17); (-482856739,-20); (-580936643,-5); (519360214,-7)];
      [(-1810669724,-3); (496319203,-5); (-1039498992,-9); (456014853,-11); (-1061859447,-15); (1144567878,-19); (-476306416,-23); (-319441874,-4); (406685092,-7)]]
     [(2,2); (1,3); (6,3)] (3300674,-5) [("H", (1,0)); ("O", (2,0))]);
   ("H2", mkSpD
     [[(407832281,-4); (-800918545,-6); (821470167,-8); (-126971436,-10); (175360493,-13); (-120286016,-16); (336809316,-20); (268248438,-5); (-304378866,-7)];
      [(560812338,-3); (-837149134,-6); (297536304,-8); (125224993,-11); (-374071842,-15); (593662825,-19); (-360699573,-23); (533981585,-5); (-220276405,-8)];
      [(496671613,0); (-314744812,-3); (79838875,-6); (-841450419,-11); (475306044,-15); (-137180973,-19); (16053746,-23); (248835466,-2); (-669552419,-6)]]
     [(2,2); (1,3); (6,3); (2,4)] (201588,-5) [("H", (2,0))]);
   ("H2O", mkSpD
     [[(-394796083,-4); (575573102,-6); (931782653,-9); (722271286,-11); (-734255737,-14); (495504349,-17); (-1336933246,-21); (-330397431,-4); (1724205775,-8)];
      [(1034972096,-3); (-2412698562,-6); (464611078,-8); (2291998307,-12); (-683683048,-15); (942646893,-19); (-482238053,-23); (-1384286509,-5); (-797814851,-8)]]
     [(2,2); (1,3); (6,3)] (1801528,-5) [("H", (2,0)); ("O", (1,0))]);
   ("H2O2", mkSpD
     [[(-927953358,-4); (1564748385,-6); (-597646014,-8); (327074452,-10); (-393219326,-13); (2509255235,-17); (-646504529,-20); (-2494004728,-5); (587717418,-7)];
      [(1489428027,-3); (-517082178,-5); (112820497,-7); (-804239779,-13); (-1818383769,-17); (694726559,-20); (-48278319,-23); (1418251038,-5); (-465085566,-7)]]
     [(2,2); (1,3); (6,3)] (3401468,-5) [("H", (2,0)); ("O", (2,0))]);
   ("N", mkSpD
     [[(0,0); (0,0); (25,-1); (0,0); (0,0); (0,0); (0,0); (561046378,-4); (419390932,-8)];
      [(887650138,-4); (-10712315,-5); (2362188287,-9); (2916720081,-13); (-17295151,-14); (401265788,-19); (-2677227571,-24); (569735133,-4); (486523579,-8)];
      [(547518105,0); (-310757498,-3); (691678274,-7); (-684798813,-11); (38275724,-14); (-1098367709,-20); (1277986024,-25); (2550585618,-3); (-584876971,-6)]]
     [(2,2); (1,3); (6,3); (2,4)] (1400674,-5) [("N", (1,0))]);
   ("NH3", mkSpD
     [[(-768122615,-4); (1270951578,-6); (-389322913,-8); (2145988418,-11); (-2183766703,-14); (1317385706,-17); (-333232206,-20); (-1264886413,-5); (436601494,-7)];
      [(2452389535,-3); (-804089424,-5); (1271346201,-8); (-398018658,-12); (355250275,-16); (253092357,-20); (-332270053,-24); (438619196,-4); (-646233025,-7)]]
     [(2,2); (1,3); (6,3)] (1703056,-5) [("N", (1,0)); ("H", (3,0))]);
   ("NO", mkSpD
     [[(-1143916503,-5); (1536467592,-7); (343146873,-8); (-2668592368,-12); (848139912,-14); (-768511105,-17); (2386797655,-21); (909821441,-5); (672872749,-8)];
      [(2239018716,-4); (-1289651623,-6); (543393603,-8); (-36560349,-11); (988096645,-16); (-1416076856,-20); (938018462,-24); (1750317656,-5); (-850166709,-8)];
      [(-957530354,0); (591243448,-3); (-1384566826,-7); (1694339403,-11); (-1007351096,-15); (2912584076,-20); (-329510935,-24); (-467750124,-2); (1242081218,-6)]]
     [(2,2); (1,3); (6,3); (2,4)] (3000614,-5) [("N", (1,0)); ("O", (1,0))]);
   ("NO2", mkSpD
     [[(-564203878,-4); (963308572,-6); (-2434510974,-9); (1927760886,-11); (-1874559328,-14); (914549773,-17); (-1777647635,-21); (-1547925037,-6); (406785134,-7)];
      [(721300157,-3); (-38326152,-4); (1113963285,-8); (-2238062246,-12); (654772343,-15); (-76113359,-18); (332836105,-23); (2502497403,-5); (-430512991,-7)]]
     [(2,2); (1,3); (6,3)] (4600554,-5) [("N", (1,0)); ("O", (2,0))]);
   ("NO3", mkSpD
     [[(340539841,-4); (2266670652,-7); (-379308163,-8); (41707327,-9); (-570991327,-13); (383415811,-16); (-1021969284,-20); (70881122,-4); (427309181,-7)];
      [(-394387271,-3); (-824426353,-6); (1061325843,-8); (-2448749816,-13); (540606032,-16); (-619546675,-20); (2870000149,-25); (898201173,-5); (-34446665,-6)]]
     [(2,2); (1,3); (6,3)] (6200494,-5) [("N", (1,0)); ("O", (3,0))]);
   ("N2", mkSpD
     [[(2210371497,-5); (-381846182,-6); (608273836,-8); (-853091441,-11); (1384646189,-14); (-962579362,-17); (2519705809,-21); (710846086,-6); (-1076003316,-8)];
      [(587712406,-3); (-2239249073,-6); (606694922,-8); (-61396855,-11); (1491806679,-16); (-1923105485,-20); (1061954386,-24); (1283210415,-5); (-1586639599,-8)];
      [(831013916,0); (-642073354,-3); (2020264635,-7); (-3065092046,-11); (2486903333,-15); (-970595411,-19); (1437538881,-24); (493870704,-2); (-1672099736,-6)]]
     [(2,2); (1,3); (6,3); (2,4)] (2801348,-5) [("N", (2,0))]);
   ("O", mkSpD
     [[(-79536113,-4); (1607177787,-7); (1966226438,-9); (101367031,-11); (-1110415423,-15); (65175075,-17); (-1584779251,-22); (2840362437,-5); (840424182,-8)];
      [(2619020262,-4); (-729872203,-6); (331717727,-8); (-428133436,-12); (1036104594,-16); (-943830433,-20); (2725038297,-25); (339242806,-4); (-667958535,-9)];
      [(1779004264,-1); (-1082328257,-4); (2810778365,-8); (-2975232262,-12); (1854997534,-16); (-579623154,-20); (7191720164,-26); (889094263,-3); (-2181728151,-7)]]
     [(2,2); (1,3); (6,3); (2,4)] (159994,-4) [("O", (1,0))]);
   ("OH", mkSpD
     [[(-199885899,-5); (930013616,-7); (3050854229,-9); (1529529288,-12); (-3157890998,-15); (331544618,-17); (-1138762683,-21); (323968348,-5); (467411079,-8)];
      [(1017393379,-3); (-2509957276,-6); (511654786,-8); (130529993,-12); (-828432226,-16); (2006475941,-20); (-1556993656,-24); (204448713,-4); (-1101282337,-8)];
      [(2847234193,-1); (-1859532612,-4); (50082409,-6); (-514237498,-11); (2875536589,-16); (-822881796,-20); (956722902,-25); (1468642377,-3); (-402355558,-6)]]
     [(2,2); (1,3); (6,3); (2,4)] (1700734,-5) [("O", (1,0)); ("H", (1,0))]);
   ("O2", mkSpD
     [[(-342556342,-4); (484700097,-6); (1119010961,-9); (429388924,-11); (-683630052,-15); (-20233727,-16); (1039040018,-21); (-339145487,-5); (184969947,-7)];
      [(-1037939022,-3); (2344830282,-6); (1819732036,-9); (1267847582,-12); (-2188067988,-16); (2053719572,-20); (-819346705,-24); (-1689010929,-5); (1738716506,-8)];
      [(49752943,1); (-2866106874,-4); (669035225,-7); (-616995902,-11); (3016396027,-16); (-74214166,-19); (727817577,-25); (2293554027,-3); (-553062161,-6)]]
     [(2,2); (1,3); (6,3); (2,4)] (319988,-4) [("O", (2,0))])]
  [("C", (12017,-3)); ("O", (159994,-4)); ("Ar", (39948,-3)); ("H", (100794,-5)); ("N", (1400674,-5))]
  [("JP-7", [("C", (2,0)); ("H", (40044,-4))]); ("Jet-A(g)", [("C", (12,0)); ("H", (23,0))]); ("H2", [("H", (2,0))]); ("Methane", [("C", (1,0)); ("H", (4,0))]); ("Water", [("H", (2,0)); ("O", (1,0))])].
(* thermo_data/co2_co_o2.py; this module has no reactants *)
Definition co2_co_o2_dec : specD := mkSpecD
  [("CO", mkSpD
     [[(1489045326,-5); (-2922285939,-7); (572452717,-8); (-817623503,-11); (1456903469,-14); (-1087746302,-17); (3027941827,-21); (-1303131878,-5); (-785924135,-8)];
      [(461919725,-3); (-1944704863,-6); (591671418,-8); (-566428283,-12); (139881454,-15); (-1787680361,-20); (962093557,-24); (-2466261084,-6); (-1387413108,-8)];
      [(886866296,0); (-750037784,-3); (2495474979,-7); (-39563511,-9); (329777208,-14); (-1318409933,-19); (1998937948,-24); (570142113,-2); (-2060704786,-6)]]
     [(2,2); (1,3); (6,3); (2,4)] (2801,-2) [("C", (1,0)); ("O", (1,0))]);
   ("CO2", mkSpD
     [[(494365054,-4); (-626411601,-6); (530172524,-8); (2503813816,-12); (-2127308728,-16); (-768998878,-18); (2849677801,-22); (-452819846,-4); (-704827944,-8)];
      [(1176962419,-4); (-1788791477,-6); (829152319,-8); (-922315678,-13); (486367688,-17); (-1891053312,-21); (633003659,-24); (-390835059,-4); (-2652669281,-8)];
      [(-1544423287,0); (1016847056,-3); (-256140523,-6); (336940108,-10); (-2181184337,-15); (699142084,-19); (-88423515,-23); (-804321451,-2); (2254177493,-6)]]
     [(201,0); (1,3); (6,3); (2,4)] (4401,-2) [("C", (1,0)); ("O", (2,0))]);
   ("O2", mkSpD
     [[(-342556342,-4); (484700097,-6); (1119010961,-9); (429388924,-11); (-683630052,-15); (-20233727,-16); (1039040018,-21); (-339145487,-5); (184969947,-7)];
      [(-1037939022,-3); (2344830282,-6); (1819732036,-9); (1267847582,-12); (-2188067988,-16); (2053719572,-20); (-819346705,-24); (-1689010929,-5); (1738716506,-8)];
      [(49752943,1); (-2866106874,-4); (669035225,-7); (-616995902,-11); (3016396027,-16); (-74214166,-19); (727817577,-25); (2293554027,-3); (-553062161,-6)]]
     [(2,2); (999,0); (6,3); (2,4)] (32,0) [("O", (2,0))])]
  [("C", (1201,-2)); ("O", (16,0))]
  [].
(* thermo_data/wet_air.py:8-17: janaf without two products *)
Definition wet_air_dec : specD := mkSpecD
  (filter (fun kv => negb (String.eqb (fst kv) "CH4" || String.eqb (fst kv) "C2H4")) (d_products janaf_dec))
  (d_element_wts janaf_dec) (d_reactants janaf_dec).
Definition shipped_specs : list specD := [janaf_dec; co2_co_o2_dec; wet_air_dec].
(* as real numbers *)
Definition dR (d : dec) : R := (IZR (fst d) * powerRZ 10 (snd d))%R.
Definition dictR (d : dict dec) : dict R := map (fun kv => (fst kv, dR (snd kv))) d.
Definition spR (s : spD) : species := mkSpecies (map (map dR) (d_coeffs s)) (map dR (d_ranges s)) (dR (d_wt s)) (dictR (d_elems s)).
Definition specR (s : specD) : spec_data := mkSpec (map (fun kv => (fst kv, spR (snd kv))) (d_products s))
  (dictR (d_element_wts s)) (map (fun kv => (fst kv, dictR (snd kv))) (d_reactants s)).
