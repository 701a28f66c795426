(* GENERATED by tools/gen_map_data.py: the performance maps of example_cycles/N+3ref/N3_*_map.py. Every number z stands for z / 10^4. *)
From Coq Require Import ZArith.
From Verif Require Export Data_Maps.
Open Scope string_scope. Open Scope list_scope. Open Scope Z_scope.
(* example_cycles/N+3ref/N3_Fan_map.py *)
Definition N3FanMap_z : mapZ := mkMapZ "N3FanMap"
  [("alphaMap", "", 0, [0; 50000]); ("NcMap", "rpm", 10000, [5000; 6000; 7000; 8000; 9000; 9500; 10000; 10500; 11000]); ("RlineMap", "", 20000, [10000; 12500; 15000; 17500; 20000; 22500; 25000; 27500; 30000; 32000; 32500; 35000])]
   [("WcMap", "lbm/s", [[[11043380; 12472229; 13847280; 15147731; 16353656; 17420557; 18299553; 18665565; 18665565; 18665565; 18665565; 18665565];
       [13690782; 15193645; 16617891; 17939161; 19134485; 20129872; 20843818; 21250225; 21264814; 21264814; 21264814; 21264814];
       [16444929; 17919211; 19295121; 20548865; 21658337; 22521497; 23027083; 23156926; 23156926; 23156926; 23156926; 23156926];
       [19197177; 20549785; 21795896; 22915830; 23891497; 24602048; 24917344; 24931619; 24931619; 24931619; 24931619; 24931619];
       [21918401; 23047476; 24079941; 25002908; 25804556; 26365833; 26559902; 26559902; 26559902; 26559902; 26559902; 26559902];
       [23243926; 24227034; 25125652; 25930525; 26633154; 27125415; 27292681; 27292681; 27292681; 27292681; 27292681; 27292681];
       [24468806; 25306360; 26073428; 26763726; 27371450; 27809336; 27985239; 27988225; 27988225; 27988225; 27988225; 27988225];
       [25640947; 26320720; 26946523; 27514587; 28021399; 28402256; 28589136; 28608069; 28608069; 28608069; 28608069; 28608069];
       [26751184; 27263958; 27740383; 28178599; 28576853; 28892947; 29082825; 29142979; 29142979; 29142979; 29142979; 29142979]];
      [[8836700; 10191972; 11505194; 12753372; 13914280; 14945356; 15800111; 16390737; 16390737; 16390737; 16390737; 16390737];
       [11030485; 12501055; 13906215; 15217380; 16407301; 17402568; 18122133; 18536100; 18606985; 18606985; 18606985; 18606985];
       [13361071; 14870300; 16290968; 17592498; 18746134; 19645132; 20172321; 20305022; 20305022; 20305022; 20305022; 20305022];
       [15768409; 17241096; 18607565; 19839010; 20908706; 21680376; 22006162; 22014871; 22014871; 22014871; 22014871; 22014871];
       [18213027; 19571122; 20816206; 21924666; 22874802; 23512808; 23680996; 23680996; 23680996; 23680996; 23680996; 23680996];
       [19445967; 20714778; 21872837; 22900161; 23778403; 24352661; 24476707; 24476707; 24476707; 24476707; 24476707; 24476707];
       [20685525; 21842493; 22895361; 23828152; 24626226; 25140239; 25238010; 25238010; 25238010; 25238010; 25238010; 25238010];
       [21886860; 22922751; 23864270; 24699207; 25416360; 25880962; 25971982; 25971982; 25971982; 25971982; 25971982; 25971982];
       [23035840; 23945933; 24773633; 25510061; 26146997; 26571194; 26671841; 26671841; 26671841; 26671841; 26671841; 26671841]]]);
    ("effMap", "", [[[6585; 7756; 8552; 8821; 8316; 6642; 3039; 10; 10; 10; 10; 10];
       [7145; 8102; 8747; 8970; 8603; 7400; 4938; 386; 5; 5; 5; 5];
       [7692; 8439; 8942; 9128; 8896; 8113; 6571; 4108; 1588; 46; 46; 46];
       [8178; 8734; 9113; 9273; 9159; 8710; 7838; 6910; 5830; 4661; 4314; 2151];
       [8588; 8965; 9227; 9356; 9327; 9118; 8700; 8384; 7979; 7568; 7451; 6766];
       [8749; 9042; 9250; 9359; 9357; 9232; 8968; 8791; 8568; 8345; 8282; 7920];
       [8857; 9081; 9242; 9334; 9350; 9283; 9127; 9016; 8903; 8791; 8759; 8579];
       [8926; 9086; 9204; 9278; 9302; 9275; 9195; 9118; 9072; 9026; 9012; 8936];
       [8945; 9049; 9128; 9182; 9207; 9204; 9172; 9109; 9099; 9088; 9085; 9063]];
      [[5665; 7209; 8444; 9236; 9354; 8420; 5653; 165; 165; 165; 165; 165];
       [6269; 7585; 8631; 9301; 9428; 8756; 6810; 2552; 13; 13; 13; 13];
       [6849; 7935; 8792; 9345; 9479; 9035; 7748; 5410; 3281; 381; 69; 69];
       [7365; 8231; 8912; 9358; 9495; 9234; 8439; 7726; 6863; 5806; 5470; 3126];
       [7802; 8461; 8979; 9324; 9457; 9331; 8953; 8751; 8429; 8052; 7936; 7198];
       [7988; 8546; 8985; 9282; 9407; 9332; 9106; 8999; 8820; 8610; 8546; 8143];
       [8147; 8607; 8969; 9218; 9332; 9295; 9165; 9122; 9037; 8931; 8899; 8694];
       [8266; 8637; 8931; 9136; 9239; 9230; 9153; 9150; 9123; 9080; 9066; 8974];
       [8343; 8637; 8870; 9036; 9127; 9136; 9086; 9106; 9113; 9106; 9103; 9075]]]);
    ("PRmap", "", [[[10760; 10811; 10799; 10724; 10588; 10394; 10146; 10000; 10000; 10000; 10000; 10000];
       [11171; 11214; 11186; 11085; 10914; 10676; 10379; 10024; 10000; 10000; 10000; 10000];
       [11703; 11730; 11682; 11559; 11363; 11100; 10776; 10414; 10133; 10003; 10003; 10003];
       [12381; 12386; 12320; 12185; 11981; 11715; 11390; 11094; 10814; 10582; 10523; 10222];
       [13234; 13215; 13138; 13004; 12814; 12572; 12282; 12039; 11789; 11584; 11531; 11265];
       [13734; 13703; 13624; 13497; 13323; 13104; 12845; 12628; 12404; 12221; 12174; 11937];
       [14288; 14250; 14172; 14055; 13900; 13709; 13484; 13284; 13090; 12931; 12891; 12686];
       [14898; 14854; 14780; 14677; 14545; 14386; 14201; 14022; 13862; 13731; 13698; 13530];
       [15553; 15507; 15441; 15356; 15251; 15128; 14988; 14831; 14708; 14608; 14583; 14455]];
      [[10677; 10776; 10807; 10769; 10662; 10490; 10259; 10006; 10006; 10006; 10006; 10006];
       [11061; 11167; 11192; 11135; 10996; 10781; 10496; 10144; 10001; 10001; 10001; 10001];
       [11560; 11661; 11673; 11595; 11430; 11181; 10858; 10492; 10236; 10022; 10004; 10004];
       [12188; 12274; 12269; 12173; 11989; 11722; 11379; 11090; 10818; 10591; 10534; 10239];
       [12966; 13028; 13005; 12898; 12707; 12439; 12118; 11859; 11590; 11368; 11311; 11022];
       [13418; 13465; 13433; 13322; 13134; 12875; 12576; 12326; 12067; 11853; 11799; 11522];
       [13913; 13943; 13902; 13790; 13610; 13364; 13089; 12854; 12610; 12410; 12359; 12100];
       [14454; 14468; 14420; 14310; 14140; 13912; 13658; 13441; 13218; 13034; 12987; 12751];
       [15044; 15044; 14991; 14886; 14728; 14523; 14287; 14091; 13890; 13725; 13683; 13471]]])]
  [("alphaMap", 0); ("NcMap", 10000); ("PR", 13900); ("RlineMap", 20000)] (Some 10000).
(* example_cycles/N+3ref/N3_HPC_map.py *)
Definition N3HPCMap_z : mapZ := mkMapZ "N3HPCMap"
  [("alphaMap", "", 0, [0; 900000]); ("NcMap", "rpm", 10000, [5000; 6000; 7000; 7500; 8000; 8500; 9000; 9250; 9500; 9750; 10000; 10250; 10500]); ("RlineMap", "", 20000, [10000; 12000; 14000; 16000; 18000; 20000; 22000; 24000; 26000; 28000; 30000])]
   [("WcMap", "lbm/s", [[[227411; 240487; 251548; 260615; 267738; 272992; 276470; 278286; 278634; 278634; 278634];
       [317548; 331181; 342670; 352054; 359397; 364783; 368308; 370085; 370362; 370362; 370362];
       [461066; 474088; 485066; 494046; 501096; 506291; 509717; 511469; 511757; 511757; 511757];
       [567268; 580480; 591608; 600704; 607837; 613084; 616527; 618260; 618517; 618517; 618517];
       [701448; 715163; 726688; 736088; 743429; 748795; 752269; 753943; 754134; 754134; 754134];
       [893764; 909746; 923098; 933900; 942232; 948199; 951897; 953442; 953504; 953504; 953504];
       [1180620; 1201207; 1218253; 1231867; 1242166; 1249292; 1253385; 1254609; 1254609; 1254609; 1254609];
       [1385093; 1408966; 1428639; 1444238; 1455916; 1463836; 1468174; 1469192; 1469192; 1469192; 1469192];
       [1606243; 1625676; 1641805; 1654722; 1664536; 1671370; 1675334; 1676563; 1676563; 1676563; 1676563];
       [1817993; 1834993; 1849150; 1860545; 1869260; 1875389; 1879029; 1880273; 1880271; 1880271; 1880271];
       [2026315; 2035858; 2043958; 2050661; 2055998; 2060000; 2062702; 2064145; 2064418; 2064418; 2064418];
       [2099986; 2105917; 2111029; 2115321; 2118825; 2121554; 2123516; 2124735; 2125220; 2125227; 2125227];
       [2166847; 2170279; 2173287; 2175860; 2178015; 2179767; 2181106; 2182041; 2182586; 2182739; 2182739]];
      [[455139; 477923; 496744; 511682; 522877; 530508; 534791; 535986; 535986; 535986; 535986];
       [619648; 642862; 661998; 677166; 688513; 696225; 700509; 701629; 701629; 701629; 701629];
       [848030; 869149; 886608; 900516; 911005; 918227; 922351; 923561; 923561; 923561; 923561];
       [1000799; 1021580; 1038778; 1052502; 1062882; 1070060; 1074188; 1075439; 1075439; 1075439; 1075439];
       [1168091; 1188724; 1205804; 1219443; 1229763; 1236901; 1241001; 1242228; 1242228; 1242228; 1242228];
       [1356708; 1379187; 1397752; 1412518; 1423627; 1431228; 1435481; 1436591; 1436591; 1436591; 1436591];
       [1570283; 1596273; 1617610; 1634443; 1646937; 1655281; 1659667; 1660495; 1660495; 1660495; 1660495];
       [1677171; 1704948; 1727683; 1745537; 1758698; 1767370; 1771761; 1772440; 1772440; 1772440; 1772440];
       [1805349; 1826532; 1844021; 1857931; 1868382; 1875511; 1879446; 1880393; 1880393; 1880393; 1880393];
       [1911595; 1929175; 1943772; 1955477; 1964376; 1970574; 1974157; 1975237; 1975237; 1975237; 1975237];
       [2026315; 2035858; 2043958; 2050661; 2055998; 2060000; 2062702; 2064145; 2064418; 2064418; 2064418];
       [2099986; 2105917; 2111029; 2115321; 2118825; 2121554; 2123516; 2124735; 2125220; 2125227; 2125227];
       [2166847; 2170279; 2173287; 2175860; 2178015; 2179767; 2181106; 2182041; 2182586; 2182739; 2182739]]]);
    ("effMap", "", [[[6753; 6913; 7016; 7050; 7004; 6864; 6570; 6044; 5236; 4075; 2467];
       [6953; 7094; 7184; 7214; 7176; 7058; 6812; 6378; 5717; 4783; 3512];
       [7248; 7359; 7429; 7452; 7424; 7335; 7154; 6838; 6366; 5713; 4848];
       [7427; 7533; 7600; 7627; 7606; 7533; 7379; 7108; 6703; 6147; 5414];
       [7634; 7736; 7804; 7834; 7822; 7762; 7630; 7394; 7041; 6556; 5920];
       [7891; 8008; 8090; 8134; 8136; 8092; 7974; 7754; 7417; 6950; 6335];
       [8139; 8280; 8385; 8449; 8469; 8439; 8333; 8117; 7779; 7303; 6671];
       [8206; 8356; 8469; 8541; 8567; 8544; 8442; 8229; 7892; 7416; 6783];
       [8403; 8512; 8593; 8643; 8660; 8641; 8566; 8415; 8179; 7852; 7423];
       [8408; 8492; 8552; 8588; 8597; 8578; 8516; 8394; 8209; 7954; 7624];
       [8470; 8505; 8529; 8539; 8536; 8520; 8483; 8418; 8324; 8200; 8043];
       [8350; 8364; 8371; 8370; 8362; 8346; 8318; 8275; 8217; 8141; 8049];
       [8202; 8203; 8201; 8195; 8185; 8171; 8152; 8124; 8088; 8045; 7992]];
      [[6993; 7223; 7389; 7480; 7483; 7382; 7110; 6580; 5734; 4498; 2768];
       [7294; 7502; 7653; 7739; 7751; 7676; 7460; 7036; 6363; 5394; 4062];
       [7720; 7887; 8009; 8080; 8094; 8044; 7892; 7592; 7121; 6454; 5558];
       [7928; 8080; 8192; 8259; 8276; 8237; 8109; 7855; 7457; 6896; 6147];
       [8125; 8267; 8372; 8436; 8456; 8426; 8318; 8099; 7757; 7275; 6635];
       [8214; 8356; 8463; 8529; 8553; 8528; 8429; 8224; 7901; 7446; 6843];
       [8276; 8430; 8546; 8622; 8652; 8633; 8537; 8332; 8005; 7544; 6931];
       [8245; 8403; 8521; 8599; 8630; 8611; 8514; 8306; 7975; 7507; 6887];
       [8341; 8451; 8531; 8581; 8598; 8578; 8504; 8352; 8117; 7790; 7364];
       [8379; 8463; 8523; 8559; 8568; 8549; 8486; 8365; 8179; 7925; 7596];
       [8470; 8505; 8529; 8539; 8536; 8520; 8483; 8418; 8324; 8200; 8043];
       [8350; 8364; 8371; 8370; 8362; 8346; 8318; 8275; 8217; 8141; 8049];
       [8202; 8203; 8201; 8195; 8185; 8171; 8152; 8124; 8088; 8045; 7992]]]);
    ("PRmap", "", [[[24769; 24288; 23620; 22778; 21774; 20627; 19284; 17711; 15958; 14083; 12146];
       [34633; 33778; 32643; 31248; 29619; 27787; 25679; 23253; 20595; 17802; 14973];
       [50821; 49375; 47554; 45391; 42923; 40194; 37106; 33602; 29800; 25826; 21813];
       [63490; 61658; 59371; 56667; 53594; 50204; 46377; 42042; 37342; 32431; 27467];
       [80021; 77686; 74792; 71388; 67532; 63287; 58504; 53097; 47237; 41114; 34919];
       [104899; 101976; 98249; 93786; 88669; 82989; 76539; 69201; 61229; 52899; 44495];
       [144564; 140970; 136074; 129977; 122808; 114715; 105377; 94621; 82878; 70614; 58306];
       [174426; 170500; 164870; 157661; 149034; 139183; 127692; 114347; 99718; 84425; 69104];
       [207403; 202486; 196093; 188329; 179324; 169227; 157626; 144263; 129562; 113983; 98011];
       [238298; 232601; 225536; 217200; 207705; 197178; 185212; 171524; 156466; 140424; 123810];
       [266962; 260933; 254175; 246733; 238656; 229999; 220495; 209930; 198436; 186163; 173267];
       [276439; 270687; 264522; 257969; 251052; 243798; 236033; 227614; 218600; 209058; 199057];
       [284663; 279667; 274460; 269054; 263460; 257690; 251640; 245225; 238472; 231399; 224038]];
      [[55200; 54081; 52155; 49486; 46162; 42292; 37722; 32417; 26710; 20954; 15493];
       [75640; 73974; 71268; 67607; 63104; 57900; 51790; 44722; 37116; 29418; 22066];
       [102643; 100087; 96410; 91703; 86086; 79699; 72293; 63765; 54525; 45013; 35672];
       [120520; 117493; 113275; 107965; 101683; 94573; 86354; 76892; 66601; 55926; 45321];
       [142753; 139203; 134356; 128317; 121210; 113187; 103925; 93260; 81618; 69465; 57278];
       [169112; 165159; 159649; 152698; 144454; 135091; 124221; 111638; 97852; 83414; 68896];
       [207368; 203081; 196692; 188350; 178246; 166613; 152936; 136955; 119366; 100936; 82454];
       [225680; 221257; 214443; 205401; 194347; 181546; 166421; 148683; 129140; 108676; 88203];
       [241283; 235795; 228503; 219531; 209035; 197197; 183522; 167697; 150246; 131743; 112785];
       [257180; 251128; 243564; 234593; 224338; 212942; 199953; 185065; 168666; 151186; 133083];
       [266962; 260933; 254175; 246733; 238656; 229999; 220495; 209930; 198436; 186163; 173267];
       [276439; 270687; 264522; 257969; 251052; 243798; 236033; 227614; 218600; 209058; 199057];
       [284663; 279667; 274460; 269054; 263460; 257690; 251640; 245225; 238472; 231399; 224038]]])]
  [("alphaMap", 0); ("NcMap", 10000); ("PR", 230000); ("RlineMap", 20000)] (Some 10000).
(* example_cycles/N+3ref/N3_HPT_map.py *)
Definition N3HPTMap_z : mapZ := mkMapZ "N3HPTMap"
  [("alphaMap", "", 10000, [10000; 20000]); ("NpMap", "rpm", 1000000, [600000; 700000; 800000; 900000; 1000000; 1100000]); ("PRmap", "", 50000, [30000; 32500; 35000; 37500; 40000; 42500; 45000; 47500; 50000; 52500; 55000; 57500; 60000; 62500; 65000; 67500; 70000; 72500; 75000; 80000])]
   [("WpMap", "lbm/s", [[[304460; 305330; 305680; 305720; 305720; 305720; 305720; 305720; 305720; 305720; 305720; 305720; 305720; 305720; 305720; 305720; 305720; 305720; 305720; 305720];
       [302990; 304130; 304800; 305160; 305290; 305300; 305300; 305300; 305300; 305300; 305300; 305300; 305300; 305300; 305300; 305300; 305300; 305300; 305300; 305300];
       [301200; 302390; 303170; 303680; 303980; 304150; 304210; 304210; 304210; 304210; 304210; 304210; 304210; 304210; 304210; 304210; 304210; 304210; 304210; 304210];
       [300140; 301240; 302010; 302530; 302880; 303110; 303250; 303330; 303370; 303370; 303370; 303370; 303370; 303370; 303370; 303370; 303370; 303370; 303370; 303370];
       [298560; 299480; 300130; 300590; 300910; 301130; 301280; 301390; 301450; 301490; 301500; 301500; 301500; 301500; 301500; 301500; 301500; 301500; 301500; 301500];
       [297990; 298700; 299200; 299550; 299790; 299970; 300090; 300170; 300230; 300260; 300280; 300290; 300290; 300290; 300290; 300290; 300290; 300290; 300290; 300290]];
      [[304460; 305330; 305680; 305720; 305720; 305720; 305720; 305720; 305720; 305720; 305720; 305720; 305720; 305720; 305720; 305720; 305720; 305720; 305720; 305720];
       [302990; 304130; 304800; 305160; 305290; 305300; 305300; 305300; 305300; 305300; 305300; 305300; 305300; 305300; 305300; 305300; 305300; 305300; 305300; 305300];
       [301200; 302390; 303170; 303680; 303980; 304150; 304210; 304210; 304210; 304210; 304210; 304210; 304210; 304210; 304210; 304210; 304210; 304210; 304210; 304210];
       [300140; 301240; 302010; 302530; 302880; 303110; 303250; 303330; 303370; 303370; 303370; 303370; 303370; 303370; 303370; 303370; 303370; 303370; 303370; 303370];
       [298560; 299480; 300130; 300590; 300910; 301130; 301280; 301390; 301450; 301490; 301500; 301500; 301500; 301500; 301500; 301500; 301500; 301500; 301500; 301500];
       [297990; 298700; 299200; 299550; 299790; 299970; 300090; 300170; 300230; 300260; 300280; 300290; 300290; 300290; 300290; 300290; 300290; 300290; 300290; 300290]]]);
    ("effMap", "", [[[8460; 8405; 8349; 8296; 8249; 8206; 8165; 8127; 8092; 8060; 8030; 8002; 7976; 7953; 7931; 7911; 7892; 7875; 7858; 7826];
       [8879; 8842; 8804; 8769; 8735; 8701; 8670; 8640; 8614; 8590; 8568; 8548; 8529; 8511; 8495; 8479; 8460; 8436; 8414; 8373];
       [9125; 9111; 9096; 9078; 9055; 9034; 9014; 8995; 8979; 8964; 8950; 8936; 8924; 8903; 8877; 8853; 8830; 8808; 8787; 8749];
       [9228; 9242; 9250; 9247; 9240; 9232; 9224; 9217; 9210; 9203; 9197; 9188; 9162; 9137; 9113; 9091; 9070; 9050; 9031; 8980];
       [9215; 9258; 9289; 9304; 9313; 9319; 9323; 9326; 9328; 9329; 9330; 9311; 9288; 9266; 9245; 9225; 9206; 9188; 9161; 9107];
       [9106; 9176; 9232; 9267; 9292; 9312; 9327; 9340; 9351; 9361; 9369; 9349; 9329; 9311; 9293; 9276; 9259; 9239; 9212; 9161]];
      [[8460; 8405; 8349; 8296; 8249; 8206; 8165; 8127; 8092; 8060; 8030; 8002; 7976; 7953; 7931; 7911; 7892; 7875; 7858; 7826];
       [8879; 8842; 8804; 8769; 8735; 8701; 8670; 8640; 8614; 8590; 8568; 8548; 8529; 8511; 8495; 8479; 8460; 8436; 8414; 8373];
       [9125; 9111; 9096; 9078; 9055; 9034; 9014; 8995; 8979; 8964; 8950; 8936; 8924; 8903; 8877; 8853; 8830; 8808; 8787; 8749];
       [9228; 9242; 9250; 9247; 9240; 9232; 9224; 9217; 9210; 9203; 9197; 9188; 9162; 9137; 9113; 9091; 9070; 9050; 9031; 8980];
       [9215; 9258; 9289; 9304; 9313; 9319; 9323; 9326; 9328; 9329; 9330; 9311; 9288; 9266; 9245; 9225; 9206; 9188; 9161; 9107];
       [9106; 9176; 9232; 9267; 9292; 9312; 9327; 9340; 9351; 9361; 9369; 9349; 9329; 9311; 9293; 9276; 9259; 9239; 9212; 9161]]])]
  [("alphaMap", 10000); ("NpMap", 1000000); ("PRmap", 50000)] (None).
(* example_cycles/N+3ref/N3_LPC_map.py *)
Definition N3LPCMap_z : mapZ := mkMapZ "N3LPCMap"
  [("alphaMap", "", 0, [0; 10000]); ("NcMap", "rpm", 11000, [3000; 4000; 5000; 6000; 7000; 8000; 9000; 10000; 11000; 12000; 12500]); ("RlineMap", "", 22000, [10000; 12000; 14000; 16000; 18000; 20000; 22000; 24000; 26000; 28000; 30000; 32000])]
   [("WcMap", "lbm/s", [[[380744; 429399; 477510; 525016; 571863; 617994; 663359; 707905; 751584; 765663; 765663; 765663];
       [540383; 600388; 659233; 716816; 773038; 827808; 881038; 932648; 982565; 1010545; 1010545; 1010545];
       [703200; 775153; 844949; 912421; 977419; 1039805; 1099459; 1156273; 1210156; 1246409; 1246409; 1246409];
       [874860; 956896; 1035393; 1110128; 1180907; 1247566; 1309971; 1368019; 1421633; 1462312; 1462312; 1462312];
       [1058588; 1148071; 1232285; 1310978; 1383948; 1451045; 1512169; 1567268; 1616340; 1657319; 1657319; 1657319];
       [1251164; 1346062; 1433572; 1513454; 1585548; 1649773; 1706127; 1754677; 1795554; 1828951; 1830717; 1830717];
       [1444910; 1545703; 1636243; 1716346; 1785959; 1845149; 1894099; 1933090; 1962491; 1982745; 1984155; 1984155];
       [1659141; 1762228; 1851849; 1927986; 1990806; 2040644; 2077979; 2103410; 2117638; 2121506; 2121506; 2121506];
       [1885677; 1983532; 2066834; 2135745; 2190613; 2231942; 2260370; 2276647; 2281611; 2281611; 2281611; 2281611];
       [2141402; 2221943; 2289021; 2342963; 2384220; 2413359; 2431030; 2437959; 2438124; 2438124; 2438124; 2438124];
       [2278569; 2345820; 2401193; 2445040; 2477802; 2500000; 2512213; 2515216; 2515216; 2515216; 2515216; 2515216]];
      [[380744; 429399; 477510; 525016; 571863; 617994; 663359; 707905; 751584; 765663; 765663; 765663];
       [540383; 600388; 659233; 716816; 773038; 827808; 881038; 932648; 982565; 1010545; 1010545; 1010545];
       [703200; 775153; 844949; 912421; 977419; 1039805; 1099459; 1156273; 1210156; 1246409; 1246409; 1246409];
       [874860; 956896; 1035393; 1110128; 1180907; 1247566; 1309971; 1368019; 1421633; 1462312; 1462312; 1462312];
       [1058588; 1148071; 1232285; 1310978; 1383948; 1451045; 1512169; 1567268; 1616340; 1657319; 1657319; 1657319];
       [1251164; 1346062; 1433572; 1513454; 1585548; 1649773; 1706127; 1754677; 1795554; 1828951; 1830717; 1830717];
       [1444910; 1545703; 1636243; 1716346; 1785959; 1845149; 1894099; 1933090; 1962491; 1982745; 1984155; 1984155];
       [1659141; 1762228; 1851849; 1927986; 1990806; 2040644; 2077979; 2103410; 2117638; 2121506; 2121506; 2121506];
       [1885677; 1983532; 2066834; 2135745; 2190613; 2231942; 2260370; 2276647; 2281611; 2281611; 2281611; 2281611];
       [2141402; 2221943; 2289021; 2342963; 2384220; 2413359; 2431030; 2437959; 2438124; 2438124; 2438124; 2438124];
       [2278569; 2345820; 2401193; 2445040; 2477802; 2500000; 2512213; 2515216; 2515216; 2515216; 2515216; 2515216]]]);
    ("effMap", "", [[[7256; 7656; 7978; 8195; 8274; 8164; 7494; 5651; 1931; 0; 0; 0];
       [7474; 7848; 8147; 8351; 8430; 8339; 7757; 6161; 3003; 0; 0; 0];
       [7610; 7984; 8286; 8496; 8586; 8516; 7977; 6479; 3526; 0; 0; 0];
       [7744; 8117; 8421; 8637; 8738; 8685; 8183; 6765; 3970; 0; 0; 0];
       [7872; 8240; 8542; 8759; 8866; 8827; 8360; 7028; 4407; 0; 0; 0];
       [7965; 8329; 8627; 8843; 8953; 8924; 8485; 7222; 4748; 391; 0; 0];
       [7997; 8368; 8673; 8896; 9013; 8991; 8561; 7310; 4858; 551; 0; 0];
       [8034; 8405; 8712; 8937; 9058; 9042; 8628; 7420; 5068; 979; 0; 0];
       [8214; 8533; 8793; 8981; 9079; 9062; 8724; 7766; 5961; 2955; 0; 0];
       [8425; 8663; 8853; 8985; 9047; 9025; 8778; 8117; 6929; 5052; 2255; 0];
       [8540; 8731; 8880; 8981; 9024; 9000; 8800; 8286; 7386; 6003; 4004; 1206]];
      [[7256; 7656; 7978; 8195; 8274; 8164; 7494; 5651; 1931; 0; 0; 0];
       [7474; 7848; 8147; 8351; 8430; 8339; 7757; 6161; 3003; 0; 0; 0];
       [7610; 7984; 8286; 8496; 8586; 8516; 7977; 6479; 3526; 0; 0; 0];
       [7744; 8117; 8421; 8637; 8738; 8685; 8183; 6765; 3970; 0; 0; 0];
       [7872; 8240; 8542; 8759; 8866; 8827; 8360; 7028; 4407; 0; 0; 0];
       [7965; 8329; 8627; 8843; 8953; 8924; 8485; 7222; 4748; 391; 0; 0];
       [7997; 8368; 8673; 8896; 9013; 8991; 8561; 7310; 4858; 551; 0; 0];
       [8034; 8405; 8712; 8937; 9058; 9042; 8628; 7420; 5068; 979; 0; 0];
       [8214; 8533; 8793; 8981; 9079; 9062; 8724; 7766; 5961; 2955; 0; 0];
       [8425; 8663; 8853; 8985; 9047; 9025; 8778; 8117; 6929; 5052; 2255; 0];
       [8540; 8731; 8880; 8981; 9024; 9000; 8800; 8286; 7386; 6003; 4004; 1206]]]);
    ("PRmap", "", [[[10423; 10412; 10393; 10367; 10333; 10292; 10234; 10151; 10043; 10000; 10000; 10000];
       [10760; 10738; 10704; 10658; 10600; 10530; 10434; 10297; 10122; 10000; 10000; 10000];
       [11215; 11180; 11127; 11055; 10965; 10856; 10707; 10497; 10228; 10000; 10000; 10000];
       [11789; 11738; 11660; 11555; 11423; 11266; 11052; 10753; 10374; 10000; 10000; 10000];
       [12494; 12422; 12312; 12167; 11986; 11771; 11481; 11078; 10572; 10000; 10000; 10000];
       [13353; 13253; 13105; 12910; 12669; 12384; 12002; 11476; 10822; 10056; 10000; 10000];
       [14411; 14282; 14088; 13830; 13512; 13136; 12632; 11942; 11088; 10101; 10000; 10000];
       [15724; 15561; 15313; 14982; 14572; 14088; 13440; 12556; 11472; 10233; 10000; 10000];
       [17323; 17101; 16785; 16379; 15888; 15318; 14572; 13572; 12358; 10982; 10000; 10000];
       [19360; 19056; 18662; 18184; 17625; 16991; 16190; 15142; 13887; 12471; 10944; 10000];
       [20507; 20158; 19729; 19223; 18645; 18000; 17201; 16176; 14958; 13584; 12098; 10546]];
      [[10423; 10412; 10393; 10367; 10333; 10292; 10234; 10151; 10043; 10000; 10000; 10000];
       [10760; 10738; 10704; 10658; 10600; 10530; 10434; 10297; 10122; 10000; 10000; 10000];
       [11215; 11180; 11127; 11055; 10965; 10856; 10707; 10497; 10228; 10000; 10000; 10000];
       [11789; 11738; 11660; 11555; 11423; 11266; 11052; 10753; 10374; 10000; 10000; 10000];
       [12494; 12422; 12312; 12167; 11986; 11771; 11481; 11078; 10572; 10000; 10000; 10000];
       [13353; 13253; 13105; 12910; 12669; 12384; 12002; 11476; 10822; 10056; 10000; 10000];
       [14411; 14282; 14088; 13830; 13512; 13136; 12632; 11942; 11088; 10101; 10000; 10000];
       [15724; 15561; 15313; 14982; 14572; 14088; 13440; 12556; 11472; 10233; 10000; 10000];
       [17323; 17101; 16785; 16379; 15888; 15318; 14572; 13572; 12358; 10982; 10000; 10000];
       [19360; 19056; 18662; 18184; 17625; 16991; 16190; 15142; 13887; 12471; 10944; 10000];
       [20507; 20158; 19729; 19223; 18645; 18000; 17201; 16176; 14958; 13584; 12098; 10546]]])]
  [("alphaMap", 0); ("NcMap", 11000); ("PR", 18000); ("RlineMap", 22000)] (Some 10000).
(* example_cycles/N+3ref/N3_LPT_map.py *)
Definition N3LPTMap_z : mapZ := mkMapZ "N3LPTMap"
  [("alphaMap", "", 10000, [10000; 20000]); ("NpMap", "rpm", 1000000, [600000; 700000; 800000; 900000; 1000000; 1100000; 1200000]); ("PRmap", "", 75000, [30000; 32500; 35000; 37500; 40000; 42500; 45000; 47500; 50000; 52500; 55000; 57500; 60000; 62500; 65000; 67500; 70000; 72500; 75000; 80000])]
   [("WpMap", "lbm/s", [[[1538120; 1538120; 1538120; 1538120; 1538120; 1538120; 1538120; 1538120; 1538120; 1538120; 1538120; 1538120; 1538120; 1538120; 1538120; 1538120; 1538120; 1538120; 1538120; 1538120];
       [1535110; 1535110; 1535110; 1535110; 1535110; 1535110; 1535110; 1535110; 1535110; 1535110; 1535110; 1535110; 1535110; 1535110; 1535110; 1535110; 1535110; 1535110; 1535110; 1535110];
       [1527990; 1529820; 1530520; 1530610; 1530610; 1530610; 1530610; 1530610; 1530610; 1530610; 1530610; 1530610; 1530610; 1530610; 1530610; 1530610; 1530610; 1530610; 1530610; 1530610];
       [1509950; 1513160; 1515180; 1516470; 1517290; 1517810; 1518140; 1518340; 1518460; 1518520; 1518560; 1518580; 1518590; 1518590; 1518590; 1518590; 1518590; 1518590; 1518590; 1518590];
       [1487510; 1491070; 1493490; 1495170; 1496350; 1497190; 1497790; 1498220; 1498520; 1498720; 1498850; 1498940; 1498980; 1498990; 1498990; 1498990; 1498990; 1498990; 1498990; 1498990];
       [1453520; 1456800; 1459050; 1460610; 1461690; 1462440; 1462930; 1463240; 1463390; 1463440; 1463440; 1463440; 1463440; 1463440; 1463440; 1463440; 1463440; 1463440; 1463440; 1463440];
       [1408630; 1411310; 1413100; 1414280; 1415030; 1415470; 1415670; 1415690; 1415690; 1415690; 1415690; 1415690; 1415690; 1415690; 1415690; 1415690; 1415690; 1415690; 1415690; 1415690]];
      [[1538120; 1538120; 1538120; 1538120; 1538120; 1538120; 1538120; 1538120; 1538120; 1538120; 1538120; 1538120; 1538120; 1538120; 1538120; 1538120; 1538120; 1538120; 1538120; 1538120];
       [1535110; 1535110; 1535110; 1535110; 1535110; 1535110; 1535110; 1535110; 1535110; 1535110; 1535110; 1535110; 1535110; 1535110; 1535110; 1535110; 1535110; 1535110; 1535110; 1535110];
       [1527990; 1529820; 1530520; 1530610; 1530610; 1530610; 1530610; 1530610; 1530610; 1530610; 1530610; 1530610; 1530610; 1530610; 1530610; 1530610; 1530610; 1530610; 1530610; 1530610];
       [1509950; 1513160; 1515180; 1516470; 1517290; 1517810; 1518140; 1518340; 1518460; 1518520; 1518560; 1518580; 1518590; 1518590; 1518590; 1518590; 1518590; 1518590; 1518590; 1518590];
       [1487510; 1491070; 1493490; 1495170; 1496350; 1497190; 1497790; 1498220; 1498520; 1498720; 1498850; 1498940; 1498980; 1498990; 1498990; 1498990; 1498990; 1498990; 1498990; 1498990];
       [1453520; 1456800; 1459050; 1460610; 1461690; 1462440; 1462930; 1463240; 1463390; 1463440; 1463440; 1463440; 1463440; 1463440; 1463440; 1463440; 1463440; 1463440; 1463440; 1463440];
       [1408630; 1411310; 1413100; 1414280; 1415030; 1415470; 1415670; 1415690; 1415690; 1415690; 1415690; 1415690; 1415690; 1415690; 1415690; 1415690; 1415690; 1415690; 1415690; 1415690]]]);
    ("effMap", "", [[[8388; 8309; 8234; 8159; 8091; 8030; 7975; 7924; 7876; 7832; 7791; 7753; 7717; 7684; 7652; 7623; 7595; 7568; 7542; 7495];
       [8878; 8813; 8745; 8685; 8629; 8577; 8528; 8484; 8443; 8404; 8368; 8334; 8302; 8272; 8242; 8210; 8179; 8150; 8122; 8071];
       [9201; 9152; 9105; 9061; 9018; 8978; 8940; 8905; 8872; 8840; 8810; 8776; 8741; 8707; 8676; 8646; 8618; 8590; 8565; 8516];
       [9381; 9360; 9336; 9310; 9283; 9257; 9231; 9206; 9182; 9153; 9119; 9087; 9056; 9027; 8999; 8973; 8948; 8924; 8901; 8858];
       [9447; 9455; 9456; 9450; 9440; 9429; 9417; 9404; 9383; 9355; 9327; 9301; 9276; 9252; 9229; 9207; 9186; 9165; 9146; 9099];
       [9415; 9454; 9479; 9495; 9504; 9510; 9512; 9511; 9492; 9472; 9452; 9433; 9414; 9396; 9378; 9361; 9344; 9326; 9304; 9262];
       [9295; 9366; 9419; 9458; 9487; 9509; 9526; 9538; 9528; 9517; 9505; 9493; 9481; 9468; 9456; 9444; 9432; 9413; 9395; 9360]];
      [[8388; 8309; 8234; 8159; 8091; 8030; 7975; 7924; 7876; 7832; 7791; 7753; 7717; 7684; 7652; 7623; 7595; 7568; 7542; 7495];
       [8878; 8813; 8745; 8685; 8629; 8577; 8528; 8484; 8443; 8404; 8368; 8334; 8302; 8272; 8242; 8210; 8179; 8150; 8122; 8071];
       [9201; 9152; 9105; 9061; 9018; 8978; 8940; 8905; 8872; 8840; 8810; 8776; 8741; 8707; 8676; 8646; 8618; 8590; 8565; 8516];
       [9381; 9360; 9336; 9310; 9283; 9257; 9231; 9206; 9182; 9153; 9119; 9087; 9056; 9027; 8999; 8973; 8948; 8924; 8901; 8858];
       [9447; 9455; 9456; 9450; 9440; 9429; 9417; 9404; 9383; 9355; 9327; 9301; 9276; 9252; 9229; 9207; 9186; 9165; 9146; 9099];
       [9415; 9454; 9479; 9495; 9504; 9510; 9512; 9511; 9492; 9472; 9452; 9433; 9414; 9396; 9378; 9361; 9344; 9326; 9304; 9262];
       [9295; 9366; 9419; 9458; 9487; 9509; 9526; 9538; 9528; 9517; 9505; 9493; 9481; 9468; 9456; 9444; 9432; 9413; 9395; 9360]]])]
  [("alphaMap", 10000); ("NpMap", 1000000); ("PRmap", 75000)] (None).
Definition n3_maps : list mapZ := [N3FanMap_z; N3HPCMap_z; N3HPTMap_z; N3LPCMap_z; N3LPTMap_z].
