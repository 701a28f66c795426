(* GENERATED by tools/gen_map_data.py: the performance maps of pycycle/maps/*.py. Every number z stands for z / 10^4. *)
From Coq Require Import ZArith.
From Verif Require Export Spec_Comp Spec_Py.
Open Scope string_scope. Open Scope list_scope. Open Scope Z_scope.
(* params: name, units, default, grid; outputs: name, units, table; md_defaults: the entries of MapData.defaults *)
Record mapZ := mkMapZ { mz_name : string; mz_params : list (string * string * Z * list Z); mz_outputs : list (string * string * list (list (list Z)));
  mz_defaults : dict Z; mz_stall : option Z }.
(* maps/Fan_map.py *)
Definition FanMap_z : mapZ := mkMapZ "FanMap"
  [("alphaMap", "", 0, [0; 900000]); ("NcMap", "rpm", 9900, [3000; 4000; 5000; 6000; 7000; 7500; 8000; 8500; 9000; 9500; 10000; 10500; 11000; 11500]); ("RlineMap", "", 22000, [10000; 12000; 14000; 16000; 18000; 20000; 22000; 24000; 26000; 28000; 30000])]
   [("WcMap", "lbm/s", [[[1217970; 1508950; 1794220; 2072750; 2343590; 2605820; 2858610; 3101200; 3332910; 3553150; 3695520];
       [1948670; 2274170; 2588720; 2891010; 3179810; 3454070; 3712840; 3955350; 4180970; 4389210; 4579730];
       [2656400; 3023200; 3371090; 3698340; 4003510; 4285430; 4543200; 4776210; 4984120; 5166840; 5324530];
       [3306500; 3733040; 4127500; 4487590; 4811630; 5098510; 5347710; 5559260; 5733660; 5871880; 5975260];
       [3803730; 4339910; 4818960; 5237360; 5593140; 5885800; 6116210; 6286420; 6399480; 6459230; 6471720];
       [4083740; 4679550; 5202620; 5648860; 6016490; 6305830; 6519100; 6660080; 6733840; 6748650; 6748650];
       [4324940; 4991180; 5564910; 6041370; 6419210; 6700100; 6888380; 6990450; 7015360; 7015360; 7015360];
       [4705220; 5402480; 5991440; 6467860; 6831650; 7086370; 7238560; 7297050; 7298410; 7298410; 7298410];
       [5271460; 5946950; 6505830; 6945810; 7268810; 7480230; 7588310; 7607960; 7607960; 7607960; 7607960];
       [5930250; 6535680; 7027000; 7404380; 7671400; 7834450; 7902130; 7905330; 7905330; 7905330; 7905330];
       [6438090; 6971960; 7395680; 7711260; 7923500; 8039500; 8068920; 8068920; 8068920; 8068920; 8068920];
       [6841200; 7292830; 7648460; 7910780; 8084410; 8175540; 8194160; 8194160; 8194160; 8194160; 8194160];
       [7238810; 7605500; 7891920; 8100940; 8236670; 8304210; 8314430; 8314430; 8314430; 8314430; 8314430];
       [7628110; 7900370; 8112710; 8267530; 8367860; 8417240; 8424100; 8424100; 8424100; 8424100; 8424100]];
      [[1217970; 1508950; 1794220; 2072750; 2343590; 2605820; 2858610; 3101200; 3332910; 3553150; 3695520];
       [1948670; 2274170; 2588720; 2891010; 3179810; 3454070; 3712840; 3955350; 4180970; 4389210; 4579730];
       [2656400; 3023200; 3371090; 3698340; 4003510; 4285430; 4543200; 4776210; 4984120; 5166840; 5324530];
       [3306500; 3733040; 4127500; 4487590; 4811630; 5098510; 5347710; 5559260; 5733660; 5871880; 5975260];
       [3803730; 4339910; 4818960; 5237360; 5593140; 5885800; 6116210; 6286420; 6399480; 6459230; 6471720];
       [4083740; 4679550; 5202620; 5648860; 6016490; 6305830; 6519100; 6660080; 6733840; 6748650; 6748650];
       [4324940; 4991180; 5564910; 6041370; 6419210; 6700100; 6888380; 6990450; 7015360; 7015360; 7015360];
       [4705220; 5402480; 5991440; 6467860; 6831650; 7086370; 7238560; 7297050; 7298410; 7298410; 7298410];
       [5271460; 5946950; 6505830; 6945810; 7268810; 7480230; 7588310; 7607960; 7607960; 7607960; 7607960];
       [5930250; 6535680; 7027000; 7404380; 7671400; 7834450; 7902130; 7905330; 7905330; 7905330; 7905330];
       [6438090; 6971960; 7395680; 7711260; 7923500; 8039500; 8068920; 8068920; 8068920; 8068920; 8068920];
       [6841200; 7292830; 7648460; 7910780; 8084410; 8175540; 8194160; 8194160; 8194160; 8194160; 8194160];
       [7238810; 7605500; 7891920; 8100940; 8236670; 8304210; 8314430; 8314430; 8314430; 8314430; 8314430];
       [7628110; 7900370; 8112710; 8267530; 8367860; 8417240; 8424100; 8424100; 8424100; 8424100; 8424100]]]);
    ("effMap", "", [[[6931; 7672; 8306; 8802; 9112; 9167; 8887; 8138; 6634; 3791; 0];
       [7418; 8033; 8552; 8953; 9199; 9241; 9030; 8489; 7461; 5672; 2591];
       [7517; 8112; 8613; 8997; 9233; 9277; 9089; 8607; 7712; 6201; 3720];
       [7322; 7985; 8543; 8973; 9240; 9297; 9103; 8596; 7650; 6063; 3482];
       [6641; 7519; 8264; 8844; 9213; 9308; 9071; 8412; 7151; 4988; 1381];
       [6357; 7325; 8148; 8789; 9199; 9310; 9059; 8350; 6992; 4665; 800];
       [6109; 7155; 8044; 8738; 9183; 9307; 9044; 8294; 6858; 4403; 347];
       [6261; 7262; 8108; 8763; 9179; 9294; 9052; 8376; 7105; 4991; 1625];
       [6875; 7679; 8348; 8857; 9173; 9253; 9067; 8573; 7685; 6279; 4175];
       [7557; 8118; 8576; 8916; 9119; 9161; 9030; 8710; 8162; 7337; 6169];
       [7947; 8341; 8656; 8885; 9014; 9030; 8926; 8695; 8315; 7761; 6998];
       [8153; 8449; 8684; 8851; 8940; 8942; 8853; 8669; 8376; 7958; 7392];
       [8289; 8503; 8669; 8783; 8838; 8829; 8753; 8608; 8386; 8076; 7666];
       [8385; 8532; 8643; 8715; 8745; 8728; 8664; 8552; 8387; 8163; 7873]];
      [[6931; 7672; 8306; 8802; 9112; 9167; 8887; 8138; 6634; 3791; 0];
       [7418; 8033; 8552; 8953; 9199; 9241; 9030; 8489; 7461; 5672; 2591];
       [7517; 8112; 8613; 8997; 9233; 9277; 9089; 8607; 7712; 6201; 3720];
       [7322; 7985; 8543; 8973; 9240; 9297; 9103; 8596; 7650; 6063; 3482];
       [6641; 7519; 8264; 8844; 9213; 9308; 9071; 8412; 7151; 4988; 1381];
       [6357; 7325; 8148; 8789; 9199; 9310; 9059; 8350; 6992; 4665; 800];
       [6109; 7155; 8044; 8738; 9183; 9307; 9044; 8294; 6858; 4403; 347];
       [6261; 7262; 8108; 8763; 9179; 9294; 9052; 8376; 7105; 4991; 1625];
       [6875; 7679; 8348; 8857; 9173; 9253; 9067; 8573; 7685; 6279; 4175];
       [7557; 8118; 8576; 8916; 9119; 9161; 9030; 8710; 8162; 7337; 6169];
       [7947; 8341; 8656; 8885; 9014; 9030; 8926; 8695; 8315; 7761; 6998];
       [8153; 8449; 8684; 8851; 8940; 8942; 8853; 8669; 8376; 7958; 7392];
       [8289; 8503; 8669; 8783; 8838; 8829; 8753; 8608; 8386; 8076; 7666];
       [8385; 8532; 8643; 8715; 8745; 8728; 8664; 8552; 8387; 8163; 7873]]]);
    ("PRmap", "", [[[10546; 10558; 10553; 10532; 10494; 10440; 10372; 10290; 10196; 10089; 10000];
       [11002; 11010; 10994; 10955; 10892; 10807; 10702; 10578; 10436; 10278; 10102];
       [11593; 11606; 11584; 11527; 11434; 11307; 11149; 10964; 10753; 10517; 10258];
       [12313; 12363; 12353; 12283; 12154; 11968; 11730; 11449; 11125; 10764; 10366];
       [13042; 13232; 13306; 13261; 13100; 12825; 12450; 11992; 11457; 10854; 10193];
       [13479; 13775; 13917; 13901; 13728; 13402; 12944; 12376; 11708; 10956; 10133];
       [13935; 14356; 14581; 14602; 14420; 14040; 13488; 12797; 11982; 11065; 10068];
       [14654; 15127; 15381; 15409; 15209; 14789; 14178; 13413; 12513; 11501; 10406];
       [15830; 16221; 16408; 16386; 16155; 15723; 15116; 14367; 13492; 12512; 11448];
       [17258; 17494; 17565; 17469; 17208; 16787; 16229; 15555; 14778; 13912; 12969];
       [18381; 18472; 18432; 18260; 17960; 17537; 17006; 16386; 15684; 14910; 14073];
       [19316; 19312; 19197; 18973; 18642; 18209; 17687; 17091; 16427; 15702; 14923];
       [20237; 20149; 19970; 19704; 19352; 18918; 18414; 17850; 17231; 16562; 15848];
       [21043; 20885; 20659; 20366; 20008; 19588; 19114; 18595; 18033; 17433; 16797]];
      [[10546; 10558; 10553; 10532; 10494; 10440; 10372; 10290; 10196; 10089; 10000];
       [11002; 11010; 10994; 10955; 10892; 10807; 10702; 10578; 10436; 10278; 10102];
       [11593; 11606; 11584; 11527; 11434; 11307; 11149; 10964; 10753; 10517; 10258];
       [12313; 12363; 12353; 12283; 12154; 11968; 11730; 11449; 11125; 10764; 10366];
       [13042; 13232; 13306; 13261; 13100; 12825; 12450; 11992; 11457; 10854; 10193];
       [13479; 13775; 13917; 13901; 13728; 13402; 12944; 12376; 11708; 10956; 10133];
       [13935; 14356; 14581; 14602; 14420; 14040; 13488; 12797; 11982; 11065; 10068];
       [14654; 15127; 15381; 15409; 15209; 14789; 14178; 13413; 12513; 11501; 10406];
       [15830; 16221; 16408; 16386; 16155; 15723; 15116; 14367; 13492; 12512; 11448];
       [17258; 17494; 17565; 17469; 17208; 16787; 16229; 15555; 14778; 13912; 12969];
       [18381; 18472; 18432; 18260; 17960; 17537; 17006; 16386; 15684; 14910; 14073];
       [19316; 19312; 19197; 18973; 18642; 18209; 17687; 17091; 16427; 15702; 14923];
       [20237; 20149; 19970; 19704; 19352; 18918; 18414; 17850; 17231; 16562; 15848];
       [21043; 20885; 20659; 20366; 20008; 19588; 19114; 18595; 18033; 17433; 16797]]])]
  [("alphaMap", 0); ("NcMap", 9900); ("PR", 17540); ("RlineMap", 22000)] (Some 10000).
(* maps/HPC_map.py *)
Definition HPCMap_z : mapZ := mkMapZ "HPCMap"
  [("alphaMap", "", 0, [0; 900000]); ("NcMap", "rpm", 9760, [5000; 6000; 7000; 7500; 8000; 8500; 9000; 9250; 9500; 9750; 10000; 10250; 10500; 11500]); ("RlineMap", "", 20500, [10000; 12000; 14000; 16000; 18000; 20000; 22000; 24000; 26000; 28000; 30000])]
   [("WcMap", "lbm/s", [[[72670; 75430; 78020; 80460; 82730; 84840; 86780; 88550; 90170; 91620; 92920];
       [98090; 100810; 103310; 105580; 107640; 109480; 111110; 112530; 113740; 114750; 115570];
       [131190; 133690; 135930; 137910; 139640; 141110; 142350; 143350; 144120; 144670; 145010];
       [154870; 157540; 159900; 161960; 163720; 165190; 166380; 167290; 167940; 168340; 168500];
       [188100; 191180; 193860; 196140; 198040; 199560; 200730; 201550; 202030; 202190; 202190];
       [247260; 251630; 255380; 258510; 261050; 263020; 264440; 265320; 265700; 265720; 265720];
       [325790; 331470; 336280; 340250; 343400; 345760; 347360; 348240; 348440; 348440; 348440];
       [373180; 379190; 384260; 388430; 391730; 394180; 395820; 396690; 396850; 396850; 396850];
       [425410; 430490; 434810; 438400; 441260; 443430; 444930; 445790; 446030; 446030; 446030];
       [477400; 481520; 485050; 488010; 490400; 492250; 493580; 494400; 494720; 494730; 494730];
       [532320; 534660; 536720; 538490; 539980; 541200; 542160; 542850; 543300; 543490; 543500];
       [556140; 557490; 558700; 559760; 560680; 561460; 562110; 562610; 562990; 563230; 563350];
       [578920; 579610; 580230; 580790; 581300; 581740; 582130; 582450; 582730; 582940; 583100];
       [609600; 609630; 609660; 609690; 609720; 609750; 609770; 609800; 609830; 609850; 609870]];
      [[147080; 151300; 154960; 158070; 160640; 162690; 164240; 165300; 165910; 166080; 166080];
       [188400; 192570; 196150; 199140; 201570; 203460; 204820; 205690; 206070; 206100; 206100];
       [237390; 241310; 244690; 247530; 249860; 251680; 253020; 253900; 254330; 254390; 254390];
       [268580; 272710; 276250; 279240; 281670; 283560; 284940; 285830; 286240; 286280; 286280];
       [307840; 312490; 316480; 319800; 322480; 324540; 326010; 326900; 327240; 327250; 327250];
       [361430; 367420; 372480; 376640; 379930; 382370; 384010; 384880; 385050; 385050; 385050];
       [417430; 424320; 430110; 434830; 438510; 441190; 442910; 443710; 443790; 443790; 443790];
       [443410; 450250; 455990; 460660; 464300; 466950; 468640; 469430; 469490; 469490; 469490];
       [473550; 479030; 483660; 487480; 490500; 492760; 494270; 495080; 495230; 495230; 495230];
       [501740; 506000; 509630; 512670; 515110; 516990; 518310; 519110; 519380; 519380; 519380];
       [532320; 534660; 536720; 538490; 539980; 541200; 542160; 542850; 543300; 543490; 543500];
       [556140; 557490; 558700; 559760; 560680; 561460; 562110; 562610; 562990; 563230; 563350];
       [578920; 579610; 580230; 580790; 581300; 581740; 582130; 582450; 582730; 582940; 583100];
       [609600; 609630; 609660; 609690; 609720; 609750; 609770; 609800; 609830; 609850; 609870]]]);
    ("effMap", "", [[[7176; 7276; 7328; 7322; 7247; 7090; 6806; 6339; 5639; 4639; 3239];
       [7345; 7429; 7471; 7467; 7407; 7282; 7060; 6702; 6179; 5450; 4465];
       [7558; 7623; 7657; 7653; 7609; 7516; 7355; 7100; 6734; 6239; 5589];
       [7685; 7756; 7795; 7800; 7765; 7687; 7544; 7315; 6985; 6538; 5955];
       [7846; 7928; 7979; 7996; 7975; 7910; 7783; 7571; 7261; 6839; 6287];
       [8102; 8218; 8300; 8345; 8348; 8303; 8191; 7984; 7670; 7233; 6654];
       [8343; 8477; 8577; 8639; 8659; 8632; 8537; 8349; 8055; 7642; 7093];
       [8423; 8554; 8651; 8713; 8735; 8713; 8628; 8456; 8189; 7814; 7316];
       [8576; 8673; 8745; 8790; 8804; 8786; 8722; 8596; 8404; 8137; 7789];
       [8593; 8659; 8707; 8734; 8739; 8721; 8671; 8579; 8440; 8253; 8012];
       [8633; 8658; 8674; 8681; 8677; 8662; 8632; 8584; 8516; 8427; 8316];
       [8384; 8389; 8390; 8385; 8376; 8361; 8339; 8309; 8269; 8220; 8162];
       [8113; 8109; 8103; 8095; 8086; 8074; 8059; 8042; 8020; 7995; 7967];
       [7363; 7361; 7359; 7357; 7355; 7353; 7351; 7348; 7346; 7344; 7342]];
      [[7488; 7639; 7740; 7786; 7767; 7670; 7456; 7075; 6490; 5652; 4496];
       [7761; 7888; 7976; 8018; 8008; 7937; 7779; 7496; 7067; 6466; 5657];
       [8081; 8183; 8254; 8290; 8287; 8240; 8130; 7934; 7639; 7233; 6697];
       [8216; 8318; 8390; 8429; 8431; 8393; 8296; 8120; 7855; 7489; 7008];
       [8341; 8450; 8529; 8576; 8586; 8555; 8467; 8301; 8047; 7694; 7230];
       [8400; 8533; 8633; 8695; 8717; 8694; 8606; 8429; 8153; 7765; 7250];
       [8453; 8595; 8703; 8773; 8801; 8783; 8699; 8525; 8250; 7863; 7349];
       [8449; 8582; 8683; 8747; 8772; 8754; 8674; 8510; 8253; 7892; 7416];
       [8515; 8611; 8682; 8726; 8739; 8721; 8657; 8532; 8342; 8080; 7739];
       [8564; 8630; 8677; 8704; 8709; 8691; 8641; 8548; 8411; 8225; 7986];
       [8633; 8658; 8674; 8681; 8677; 8662; 8632; 8584; 8516; 8427; 8316];
       [8384; 8389; 8390; 8385; 8376; 8361; 8339; 8309; 8269; 8220; 8162];
       [8113; 8109; 8103; 8095; 8086; 8074; 8059; 8042; 8020; 7995; 7967];
       [7363; 7361; 7359; 7357; 7355; 7353; 7351; 7348; 7346; 7344; 7342]]]);
    ("PRmap", "", [[[16474; 16178; 15830; 15432; 14988; 14501; 13958; 13350; 12684; 11967; 11210];
       [20524; 20061; 19528; 18928; 18267; 17549; 16760; 15887; 14942; 13937; 12887];
       [26917; 26224; 25441; 24574; 23630; 22618; 21517; 20312; 19020; 17659; 16247];
       [31844; 30989; 30017; 28938; 27763; 26501; 25128; 23625; 22016; 20325; 18576];
       [39146; 38061; 36811; 35412; 33876; 32221; 30412; 28428; 26301; 24070; 21770];
       [52748; 51343; 49640; 47661; 45434; 42989; 40272; 37250; 33991; 30567; 27054];
       [72269; 70482; 68214; 65500; 62382; 58909; 54999; 50605; 45840; 40826; 35692];
       [84539; 82523; 79945; 76844; 73269; 69275; 64764; 59681; 54154; 48326; 42344];
       [97989; 95666; 92844; 89557; 85845; 81752; 77182; 72068; 66512; 60625; 54522];
       [110964; 108394; 105411; 102040; 98313; 94263; 89800; 84856; 79504; 73823; 67898];
       [123279; 120811; 118131; 115251; 112183; 108940; 105466; 101712; 97705; 93472; 89045];
       [128281; 126098; 123814; 121431; 118957; 116395; 113715; 110885; 107917; 104821; 101607];
       [132984; 131308; 129593; 127839; 126048; 124222; 122345; 120405; 118404; 116343; 114228];
       [139406; 139123; 138840; 138556; 138272; 137988; 137703; 137417; 137130; 136842; 136554]];
      [[32456; 31584; 30490; 29191; 27709; 26066; 24228; 22175; 19961; 17647; 15293];
       [40747; 39616; 38233; 36619; 34798; 32796; 30571; 28099; 25440; 22658; 19823];
       [49841; 48498; 46905; 45081; 43049; 40832; 38384; 35674; 32756; 29689; 26534];
       [56533; 55043; 53270; 51237; 48968; 46490; 43749; 40710; 37434; 33985; 30431];
       [66069; 64375; 62327; 59950; 57277; 54339; 51073; 47434; 43501; 39355; 35084];
       [81407; 79453; 76950; 73939; 70466; 66587; 62206; 57270; 51907; 46255; 40459];
       [99036; 96826; 93874; 90231; 85960; 81135; 75633; 69385; 62570; 55381; 48019];
       [106503; 104133; 100994; 97137; 92627; 87539; 81744; 75166; 67986; 60402; 52618];
       [113117; 110497; 107272; 103482; 99174; 94403; 89052; 83043; 76502; 69563; 62370];
       [119341; 116599; 113401; 109776; 105759; 101384; 96555; 91197; 85390; 79223; 72789];
       [123279; 120811; 118131; 115251; 112183; 108940; 105466; 101712; 97705; 93472; 89045];
       [128281; 126098; 123814; 121431; 118957; 116395; 113715; 110885; 107917; 104821; 101607];
       [132984; 131308; 129593; 127839; 126048; 124222; 122345; 120405; 118404; 116343; 114228];
       [139406; 139123; 138840; 138556; 138272; 137988; 137703; 137417; 137130; 136842; 136554]]])]
  [("alphaMap", 0); ("NcMap", 9760); ("PR", 108940); ("RlineMap", 20500)] (Some 10000).
(* maps/HPT_map.py *)
Definition HPTMap_z : mapZ := mkMapZ "HPTMap"
  [("alphaMap", "", 10000, [10000; 20000]); ("NpMap", "rpm", 1000000, [600000; 700000; 800000; 900000; 1000000; 1100000]); ("PRmap", "", 60000, [30000; 32500; 35000; 37500; 40000; 42500; 45000; 47500; 50000; 52500; 55000; 57500; 60000; 62500; 65000; 67500; 70000; 72500; 75000; 80000])]
   [("WpMap", "lbm/s", [[[101440; 101440; 101440; 101440; 101440; 101440; 101440; 101440; 101440; 101440; 101440; 101440; 101440; 101440; 101440; 101440; 101440; 101440; 101440; 101440];
       [101450; 101450; 101450; 101450; 101450; 101450; 101450; 101450; 101450; 101450; 101450; 101450; 101450; 101450; 101450; 101450; 101450; 101450; 101450; 101450];
       [101460; 101460; 101460; 101460; 101460; 101460; 101460; 101460; 101460; 101460; 101460; 101460; 101460; 101460; 101460; 101460; 101460; 101460; 101460; 101460];
       [101470; 101470; 101470; 101470; 101470; 101470; 101470; 101470; 101470; 101470; 101470; 101470; 101470; 101470; 101470; 101470; 101470; 101470; 101470; 101470];
       [101480; 101480; 101480; 101480; 101480; 101480; 101480; 101480; 101480; 101480; 101480; 101480; 101480; 101480; 101480; 101480; 101480; 101480; 101480; 101480];
       [101490; 101490; 101490; 101490; 101490; 101490; 101490; 101490; 101490; 101490; 101490; 101490; 101490; 101490; 101490; 101490; 101490; 101490; 101490; 101490]];
      [[134660; 135940; 137000; 137900; 138670; 139340; 139930; 140450; 140920; 141340; 141720; 142060; 142380; 142670; 142940; 143190; 143420; 143630; 143840; 144200];
       [132800; 133930; 134880; 135680; 136370; 136960; 137490; 137960; 138380; 138750; 139090; 139410; 139690; 139950; 140200; 140420; 140630; 140830; 141010; 141340];
       [133410; 134420; 135260; 135970; 136580; 137110; 137580; 138000; 138370; 138710; 139010; 139290; 139550; 139780; 140000; 140200; 140390; 140560; 140730; 141030];
       [135800; 136690; 137440; 138080; 138620; 139100; 139520; 139890; 140220; 140520; 140790; 141040; 141270; 141480; 141670; 141850; 142020; 142170; 142320; 142590];
       [139470; 140270; 140940; 141510; 142000; 142420; 142790; 143130; 143420; 143690; 143930; 144150; 144360; 144540; 144720; 144880; 145030; 145170; 145300; 145530];
       [144090; 144810; 145410; 145910; 146350; 146730; 147060; 147360; 147630; 147860; 148080; 148280; 148460; 148630; 148780; 148920; 149060; 149180; 149300; 149510]]]);
    ("effMap", "", [[[8449; 8394; 8358; 8330; 8306; 8285; 8242; 8201; 8163; 8128; 8094; 8063; 8026; 7992; 7959; 7928; 7899; 7872; 7846; 7798];
       [8801; 8767; 8743; 8723; 8698; 8659; 8622; 8589; 8557; 8520; 8480; 8443; 8408; 8376; 8345; 8316; 8288; 8262; 8233; 8178];
       [9032; 9013; 8997; 8982; 8950; 8920; 8892; 8866; 8823; 8784; 8747; 8713; 8680; 8650; 8621; 8589; 8557; 8527; 8499; 8446];
       [9177; 9165; 9155; 9140; 9118; 9097; 9077; 9041; 9002; 8966; 8933; 8901; 8871; 8840; 8806; 8774; 8743; 8714; 8687; 8635];
       [9253; 9248; 9244; 9235; 9222; 9210; 9191; 9154; 9120; 9087; 9057; 9028; 8998; 8963; 8931; 8900; 8871; 8843; 8816; 8767];
       [9277; 9279; 9280; 9279; 9275; 9271; 9252; 9220; 9189; 9160; 9133; 9107; 9074; 9042; 9011; 8982; 8954; 8927; 8902; 8854]];
      [[3574; 3442; 3330; 3234; 3151; 3077; 3011; 2952; 2899; 2851; 2807; 2766; 2729; 2694; 2662; 2633; 2605; 2578; 2554; 2509];
       [3561; 3431; 3321; 3226; 3143; 3070; 3005; 2946; 2894; 2846; 2802; 2762; 2725; 2690; 2659; 2629; 2601; 2575; 2551; 2506];
       [3542; 3415; 3307; 3213; 3132; 3059; 2995; 2938; 2885; 2838; 2795; 2755; 2718; 2684; 2653; 2623; 2596; 2570; 2546; 2501];
       [3519; 3395; 3289; 3197; 3117; 3046; 2983; 2926; 2875; 2828; 2785; 2746; 2710; 2676; 2645; 2616; 2589; 2563; 2539; 2495];
       [3491; 3371; 3268; 3178; 3100; 3031; 2969; 2913; 2862; 2816; 2774; 2735; 2700; 2667; 2636; 2607; 2580; 2555; 2531; 2487];
       [3459; 3343; 3243; 3156; 3080; 3012; 2952; 2897; 2848; 2802; 2761; 2723; 2688; 2655; 2625; 2597; 2570; 2545; 2522; 2479]]])]
  [("alphaMap", 10000); ("NpMap", 1000000); ("PRmap", 60000)] (None).
(* maps/LPC_map.py *)
Definition LPCMap_z : mapZ := mkMapZ "LPCMap"
  [("alphaMap", "", 0, [0; 900000]); ("NcMap", "rpm", 10000, [3000; 4000; 5000; 6000; 7000; 7500; 8000; 8500; 9000; 9500; 10000; 10500; 11000; 11500]); ("RlineMap", "", 21500, [10000; 12000; 14000; 16000; 18000; 20000; 22000; 24000; 26000; 28000; 30000])]
   [("WcMap", "lbm/s", [[[179070; 193390; 207490; 221360; 234980; 248330; 261410; 274200; 286690; 298870; 310110];
       [249510; 267420; 284850; 301770; 318150; 333970; 349210; 363850; 377880; 391280; 404050];
       [326820; 347150; 366620; 385200; 402860; 419580; 435330; 450110; 463900; 476690; 488480];
       [409270; 431150; 451680; 470830; 488580; 504920; 519830; 533310; 545390; 556070; 565370];
       [498500; 521220; 541950; 560680; 577410; 592150; 604940; 615800; 624790; 631970; 637390];
       [547980; 570660; 590990; 608970; 624630; 638000; 649130; 658100; 664970; 669830; 672780];
       [600510; 622520; 641850; 658510; 672550; 684050; 693070; 699730; 704130; 706380; 706750];
       [653130; 674270; 692620; 708240; 721180; 731530; 739380; 744840; 748030; 749070; 749070];
       [709950; 729020; 745420; 759200; 770430; 779200; 785600; 789740; 791740; 791980; 791980];
       [774410; 789040; 801550; 811990; 820420; 826900; 831510; 834340; 835450; 835480; 835480];
       [843440; 852110; 859520; 865720; 870740; 874600; 877350; 879030; 879670; 879680; 879680];
       [893050; 896870; 900250; 903200; 905720; 907830; 909530; 910830; 911740; 912270; 912430];
       [936260; 937120; 937930; 938680; 939390; 940040; 940640; 941200; 941700; 942160; 942570];
       [960840; 960740; 960640; 960540; 960440; 960330; 960220; 960120; 960000; 959890; 959780]];
      [[179070; 193390; 207490; 221360; 234980; 248330; 261410; 274200; 286690; 298870; 310110];
       [249510; 267420; 284850; 301770; 318150; 333970; 349210; 363850; 377880; 391280; 404050];
       [326820; 347150; 366620; 385200; 402860; 419580; 435330; 450110; 463900; 476690; 488480];
       [409270; 431150; 451680; 470830; 488580; 504920; 519830; 533310; 545390; 556070; 565370];
       [498500; 521220; 541950; 560680; 577410; 592150; 604940; 615800; 624790; 631970; 637390];
       [547980; 570660; 590990; 608970; 624630; 638000; 649130; 658100; 664970; 669830; 672780];
       [600510; 622520; 641850; 658510; 672550; 684050; 693070; 699730; 704130; 706380; 706750];
       [653130; 674270; 692620; 708240; 721180; 731530; 739380; 744840; 748030; 749070; 749070];
       [709950; 729020; 745420; 759200; 770430; 779200; 785600; 789740; 791740; 791980; 791980];
       [774410; 789040; 801550; 811990; 820420; 826900; 831510; 834340; 835450; 835480; 835480];
       [843440; 852110; 859520; 865720; 870740; 874600; 877350; 879030; 879670; 879680; 879680];
       [893050; 896870; 900250; 903200; 905720; 907830; 909530; 910830; 911740; 912270; 912430];
       [936260; 937120; 937930; 938680; 939390; 940040; 940640; 941200; 941700; 942160; 942570];
       [960840; 960740; 960640; 960540; 960440; 960330; 960220; 960120; 960000; 959890; 959780]]]);
    ("effMap", "", [[[8070; 8291; 8461; 8566; 8586; 8497; 8170; 7410; 6022; 3674; 0];
       [8230; 8454; 8628; 8741; 8775; 8708; 8419; 7732; 6477; 4372; 916];
       [8411; 8631; 8805; 8921; 8966; 8918; 8671; 8065; 6959; 5124; 2168];
       [8565; 8783; 8957; 9077; 9131; 9099; 8883; 8338; 7340; 5696; 3083];
       [8662; 8879; 9055; 9179; 9239; 9219; 9024; 8520; 7600; 6096; 3739];
       [8699; 8917; 9093; 9218; 9281; 9265; 9080; 8598; 7721; 6297; 4089];
       [8743; 8957; 9130; 9253; 9316; 9304; 9131; 8678; 7858; 6538; 4519];
       [8836; 9026; 9179; 9287; 9342; 9331; 9183; 8804; 8128; 7065; 5485];
       [8943; 9103; 9230; 9319; 9362; 9351; 9231; 8930; 8406; 7602; 6442];
       [9060; 9169; 9253; 9310; 9334; 9321; 9236; 9036; 8703; 8211; 7529];
       [9170; 9224; 9264; 9288; 9293; 9280; 9231; 9127; 8962; 8730; 8423];
       [9159; 9171; 9176; 9177; 9171; 9159; 9136; 9097; 9042; 8968; 8876];
       [9061; 9059; 9055; 9052; 9047; 9042; 9036; 9028; 9018; 9007; 8994];
       [8962; 8964; 8965; 8966; 8967; 8968; 8969; 8970; 8971; 8972; 8973]];
      [[8070; 8291; 8461; 8566; 8586; 8497; 8170; 7410; 6022; 3674; 0];
       [8230; 8454; 8628; 8741; 8775; 8708; 8419; 7732; 6477; 4372; 916];
       [8411; 8631; 8805; 8921; 8966; 8918; 8671; 8065; 6959; 5124; 2168];
       [8565; 8783; 8957; 9077; 9131; 9099; 8883; 8338; 7340; 5696; 3083];
       [8662; 8879; 9055; 9179; 9239; 9219; 9024; 8520; 7600; 6096; 3739];
       [8699; 8917; 9093; 9218; 9281; 9265; 9080; 8598; 7721; 6297; 4089];
       [8743; 8957; 9130; 9253; 9316; 9304; 9131; 8678; 7858; 6538; 4519];
       [8836; 9026; 9179; 9287; 9342; 9331; 9183; 8804; 8128; 7065; 5485];
       [8943; 9103; 9230; 9319; 9362; 9351; 9231; 8930; 8406; 7602; 6442];
       [9060; 9169; 9253; 9310; 9334; 9321; 9236; 9036; 8703; 8211; 7529];
       [9170; 9224; 9264; 9288; 9293; 9280; 9231; 9127; 8962; 8730; 8423];
       [9159; 9171; 9176; 9177; 9171; 9159; 9136; 9097; 9042; 8968; 8876];
       [9061; 9059; 9055; 9052; 9047; 9042; 9036; 9028; 9018; 9007; 8994];
       [8962; 8964; 8965; 8966; 8967; 8968; 8969; 8970; 8971; 8972; 8973]]]);
    ("PRmap", "", [[[10678; 10649; 10613; 10571; 10522; 10468; 10402; 10322; 10227; 10117; 10000];
       [11239; 11186; 11122; 11047; 10962; 10865; 10751; 10611; 10445; 10257; 10045];
       [11994; 11910; 11809; 11691; 11558; 11409; 11233; 11020; 10771; 10488; 10173];
       [12981; 12855; 12706; 12533; 12339; 12122; 11869; 11563; 11210; 10811; 10370];
       [14289; 14111; 13899; 13655; 13380; 13076; 12720; 12295; 11804; 11254; 10654];
       [15118; 14909; 14661; 14375; 14052; 13695; 13278; 12779; 12205; 11565; 10868];
       [16070; 15827; 15538; 15205; 14831; 14417; 13934; 13358; 12697; 11962; 11165];
       [17160; 16881; 16555; 16183; 15767; 15312; 14785; 14160; 13448; 12660; 11808];
       [18402; 18086; 17724; 17318; 16869; 16381; 15824; 15170; 14430; 13615; 12736];
       [19930; 19587; 19206; 18788; 18336; 17852; 17309; 16685; 15988; 15225; 14405];
       [21593; 21257; 20899; 20518; 20117; 19695; 19235; 18724; 18163; 17557; 16909];
       [22764; 22510; 22248; 21978; 21701; 21416; 21118; 20801; 20464; 20108; 19735];
       [23771; 23664; 23557; 23448; 23339; 23229; 23118; 23004; 22887; 22768; 22646];
       [24343; 24365; 24387; 24409; 24430; 24452; 24473; 24495; 24516; 24538; 24559]];
      [[10678; 10649; 10613; 10571; 10522; 10468; 10402; 10322; 10227; 10117; 10000];
       [11239; 11186; 11122; 11047; 10962; 10865; 10751; 10611; 10445; 10257; 10045];
       [11994; 11910; 11809; 11691; 11558; 11409; 11233; 11020; 10771; 10488; 10173];
       [12981; 12855; 12706; 12533; 12339; 12122; 11869; 11563; 11210; 10811; 10370];
       [14289; 14111; 13899; 13655; 13380; 13076; 12720; 12295; 11804; 11254; 10654];
       [15118; 14909; 14661; 14375; 14052; 13695; 13278; 12779; 12205; 11565; 10868];
       [16070; 15827; 15538; 15205; 14831; 14417; 13934; 13358; 12697; 11962; 11165];
       [17160; 16881; 16555; 16183; 15767; 15312; 14785; 14160; 13448; 12660; 11808];
       [18402; 18086; 17724; 17318; 16869; 16381; 15824; 15170; 14430; 13615; 12736];
       [19930; 19587; 19206; 18788; 18336; 17852; 17309; 16685; 15988; 15225; 14405];
       [21593; 21257; 20899; 20518; 20117; 19695; 19235; 18724; 18163; 17557; 16909];
       [22764; 22510; 22248; 21978; 21701; 21416; 21118; 20801; 20464; 20108; 19735];
       [23771; 23664; 23557; 23448; 23339; 23229; 23118; 23004; 22887; 22768; 22646];
       [24343; 24365; 24387; 24409; 24430; 24452; 24473; 24495; 24516; 24538; 24559]]])]
  [("alphaMap", 0); ("NcMap", 10000); ("PR", 19690); ("RlineMap", 21500)] (Some 10000).
(* maps/LPT_map.py *)
Definition LPTMap_z : mapZ := mkMapZ "LPTMap"
  [("alphaMap", "", 10000, [10000; 20000]); ("NpMap", "rpm", 1000000, [600000; 700000; 800000; 900000; 1000000; 1100000; 1200000]); ("PRmap", "", 60000, [30000; 32500; 35000; 37500; 40000; 42500; 45000; 47500; 50000; 52500; 55000; 57500; 60000; 62500; 65000; 67500; 70000; 72500; 75000; 80000])]
   [("WpMap", "lbm/s", [[[358830; 358970; 358970; 358970; 358970; 358970; 358970; 358970; 358970; 358970; 358970; 358970; 358970; 358970; 358970; 358970; 358970; 358970; 358970; 358970];
       [357120; 357960; 358340; 358430; 358430; 358430; 358430; 358430; 358430; 358430; 358430; 358430; 358430; 358430; 358430; 358430; 358430; 358430; 358430; 358430];
       [354590; 355710; 356410; 356830; 357060; 357170; 357210; 357210; 357210; 357210; 357210; 357210; 357210; 357210; 357210; 357210; 357210; 357210; 357210; 357210];
       [352330; 353460; 354230; 354750; 355100; 355340; 355500; 355600; 355670; 355710; 355740; 355750; 355760; 355760; 355760; 355760; 355760; 355760; 355760; 355760];
       [349570; 350570; 351260; 351750; 352100; 352350; 352530; 352660; 352750; 352820; 352880; 352920; 352950; 352970; 352990; 353010; 353020; 353020; 353030; 353030];
       [347200; 348000; 348550; 348940; 349210; 349410; 349560; 349670; 349740; 349800; 349840; 349870; 349900; 349910; 349920; 349920; 349920; 349920; 349920; 349920];
       [344440; 345010; 345390; 345660; 345850; 345980; 346070; 346130; 346180; 346200; 346220; 346230; 346230; 346230; 346230; 346230; 346230; 346230; 346230; 346230]];
      [[416730; 424210; 430560; 435940; 440240; 443950; 447190; 450020; 452500; 454700; 456640; 458370; 459910; 461250; 462440; 463520; 464490; 465360; 466150; 467510];
       [416360; 422650; 428060; 432730; 436540; 439820; 442710; 445270; 447550; 449590; 451410; 453060; 454550; 455880; 457070; 458160; 459150; 460070; 460910; 462390];
       [419520; 424630; 429050; 432910; 436190; 438930; 441360; 443520; 445460; 447210; 448790; 450220; 451520; 452720; 453770; 454740; 455640; 456470; 457230; 458600];
       [424980; 429010; 432520; 435580; 438280; 440520; 442480; 444220; 445800; 447220; 448500; 449680; 450750; 451730; 452640; 453440; 454190; 454880; 455520; 456680];
       [430280; 433360; 436040; 438390; 440460; 442290; 443800; 445140; 446360; 447460; 448460; 449370; 450200; 450970; 451670; 452320; 452910; 453450; 453950; 454860];
       [435530; 437800; 439770; 441500; 443020; 444370; 445560; 446550; 447440; 448250; 448980; 449650; 450270; 450830; 451340; 451820; 452270; 452670; 453040; 453710];
       [439200; 440810; 442190; 443390; 444440; 445380; 446210; 446940; 447550; 448110; 448610; 449070; 449490; 449870; 450220; 450540; 450840; 451120; 451380; 451830]]]);
    ("effMap", "", [[[8560; 8532; 8497; 8463; 8432; 8402; 8371; 8341; 8313; 8288; 8263; 8240; 8214; 8188; 8165; 8142; 8121; 8101; 8082; 8046];
       [8855; 8853; 8844; 8832; 8818; 8799; 8782; 8764; 8748; 8726; 8703; 8682; 8661; 8642; 8624; 8606; 8589; 8573; 8557; 8527];
       [8983; 9012; 9030; 9042; 9043; 9042; 9039; 9035; 9020; 9005; 8991; 8977; 8964; 8951; 8938; 8925; 8913; 8901; 8890; 8868];
       [8974; 9038; 9084; 9120; 9140; 9156; 9169; 9172; 9168; 9164; 9159; 9153; 9147; 9140; 9134; 9127; 9121; 9114; 9107; 9095];
       [8851; 8952; 9028; 9089; 9131; 9165; 9194; 9209; 9217; 9222; 9227; 9230; 9231; 9232; 9232; 9232; 9231; 9230; 9228; 9225];
       [8630; 8772; 8878; 8965; 9030; 9083; 9128; 9160; 9180; 9197; 9211; 9223; 9233; 9241; 9248; 9254; 9259; 9264; 9268; 9274];
       [8323; 8508; 8646; 8759; 8851; 8923; 8985; 9039; 9071; 9099; 9123; 9145; 9163; 9179; 9193; 9206; 9218; 9228; 9237; 9253]];
      [[3778; 3827; 3870; 3907; 3926; 3944; 3960; 3974; 3987; 3999; 4010; 4021; 4030; 4037; 4043; 4048; 4054; 4059; 4063; 4072];
       [3697; 3753; 3803; 3848; 3875; 3897; 3917; 3935; 3951; 3966; 3980; 3993; 4006; 4015; 4023; 4031; 4038; 4045; 4051; 4063];
       [3589; 3652; 3708; 3758; 3797; 3823; 3847; 3868; 3888; 3906; 3922; 3938; 3952; 3965; 3975; 3985; 3994; 4002; 4010; 4024];
       [3458; 3529; 3591; 3645; 3695; 3728; 3755; 3780; 3802; 3823; 3842; 3860; 3876; 3892; 3906; 3917; 3928; 3937; 3947; 3964];
       [3309; 3386; 3454; 3514; 3567; 3615; 3646; 3674; 3699; 3722; 3744; 3764; 3782; 3800; 3816; 3831; 3844; 3855; 3866; 3885];
       [3142; 3227; 3300; 3365; 3423; 3476; 3520; 3552; 3580; 3606; 3630; 3652; 3673; 3692; 3710; 3727; 3743; 3757; 3770; 3792];
       [2953; 3051; 3131; 3201; 3264; 3320; 3371; 3415; 3447; 3476; 3502; 3527; 3550; 3571; 3591; 3609; 3627; 3644; 3659; 3685]]])]
  [("alphaMap", 10000); ("NpMap", 1000000); ("PRmap", 60000)] (None).
(* maps/axi3_2.py *)
Definition AXI3_2_z : mapZ := mkMapZ "AXI3_2"
  [("alphaMap", "", 0, [0; 900000]); ("NcMap", "rpm", 10000, [4000; 5000; 6000; 7000; 8000; 9000; 9500; 10000; 10500; 11000]); ("RlineMap", "", 20000, [10000; 12000; 14000; 16000; 18000; 20000; 22000; 24000; 26000])]
   [("WcMap", "lbm/s", [[[66560; 73780; 80800; 87630; 94230; 100600; 106730; 112600; 118200];
       [94910; 101880; 108600; 115050; 121220; 127100; 132680; 137960; 142930];
       [118970; 127140; 134870; 142140; 148930; 155240; 161050; 166370; 171200];
       [140890; 151920; 162040; 171240; 179480; 186760; 193090; 198470; 202920];
       [167140; 181860; 194900; 206220; 215790; 223640; 229810; 234360; 237380];
       [188580; 210350; 228840; 243980; 255790; 264360; 269870; 272540; 272900];
       [225030; 242310; 256780; 268470; 277440; 283790; 287680; 289300; 289370];
       [277110; 283620; 289140; 293680; 297290; 300000; 301840; 302860; 303120];
       [299040; 301610; 303840; 305720; 307270; 308500; 309410; 310020; 310330];
       [309850; 311020; 312040; 312910; 313630; 314210; 314650; 314950; 315120]];
      [[105010; 115350; 125100; 134220; 142690; 150480; 157580; 163980; 169670];
       [157570; 167120; 175880; 183810; 190930; 197220; 202700; 207370; 211260];
       [180670; 190970; 200220; 208400; 215530; 221610; 226660; 230720; 233810];
       [193440; 206660; 218250; 228180; 236480; 243180; 248330; 251990; 254250];
       [204640; 221230; 235420; 247200; 256610; 263700; 268590; 271420; 272350];
       [210100; 231990; 250250; 264830; 275810; 283340; 287640; 288980; 288980];
       [235820; 252890; 267040; 278300; 286740; 292490; 295750; 296690; 296690];
       [277110; 283620; 289140; 293680; 297290; 300000; 301840; 302860; 303120];
       [299040; 301610; 303840; 305720; 307270; 308500; 309410; 310020; 310330];
       [309850; 311020; 312040; 312910; 313630; 314210; 314650; 314950; 315120]]]);
    ("effMap", "", [[[6351; 6886; 7311; 7604; 7732; 7656; 7301; 6566; 5323];
       [6976; 7385; 7706; 7924; 8017; 7961; 7710; 7203; 6373];
       [7060; 7522; 7890; 8149; 8276; 8243; 8001; 7484; 6620];
       [6777; 7390; 7891; 8257; 8458; 8455; 8181; 7540; 6423];
       [6433; 7197; 7828; 8299; 8572; 8601; 8299; 7548; 6202];
       [5603; 6639; 7506; 8167; 8568; 8639; 8252; 7220; 5303];
       [6258; 7084; 7766; 8276; 8576; 8619; 8317; 7553; 6187];
       [7730; 8037; 8276; 8442; 8523; 8510; 8382; 8115; 7689];
       [8181; 8289; 8367; 8414; 8427; 8404; 8337; 8223; 8055];
       [8238; 8280; 8307; 8318; 8312; 8289; 8246; 8180; 8091]];
      [[6421; 7081; 7620; 8011; 8220; 8199; 7862; 7088; 5724];
       [7200; 7689; 8083; 8365; 8515; 8505; 8290; 7807; 6989];
       [7234; 7737; 8143; 8436; 8595; 8595; 8390; 7920; 7124];
       [6836; 7479; 8005; 8391; 8612; 8630; 8383; 7787; 6749];
       [6399; 7185; 7834; 8318; 8601; 8639; 8346; 7611; 6298];
       [5576; 6616; 7486; 8147; 8548; 8619; 8237; 7222; 5347];
       [6217; 7040; 7719; 8225; 8521; 8560; 8257; 7496; 6143];
       [7730; 8037; 8276; 8442; 8523; 8510; 8382; 8115; 7689];
       [8181; 8289; 8367; 8414; 8427; 8404; 8337; 8223; 8055];
       [8238; 8280; 8307; 8318; 8312; 8289; 8246; 8180; 8091]]]);
    ("PRmap", "", [[[12111; 12157; 12145; 12078; 11954; 11775; 11539; 11246; 10898];
       [13489; 13505; 13454; 13336; 13153; 12907; 12596; 12219; 11781];
       [15300; 15360; 15306; 15139; 14861; 14477; 13986; 13389; 12696];
       [17787; 18068; 18112; 17918; 17493; 16847; 15984; 14916; 13678];
       [21243; 22036; 22368; 22224; 21611; 20556; 19080; 17227; 15092];
       [24235; 26404; 27664; 27917; 27142; 25400; 22769; 19416; 15639];
       [28688; 30534; 31474; 31445; 30451; 28555; 25827; 22406; 18550];
       [35470; 35566; 35254; 34543; 33449; 32000; 30207; 28093; 25717];
       [37752; 37298; 36683; 35912; 34994; 33935; 32737; 31402; 29944];
       [38744; 38211; 37601; 36915; 36159; 35334; 34440; 33476; 32447]];
      [[14770; 14966; 15005; 14884; 14607; 14180; 13603; 12879; 12028];
       [19042; 19205; 19158; 18903; 18445; 17795; 16956; 15935; 14760];
       [21812; 22081; 22062; 21756; 21170; 20322; 19216; 17871; 16327];
       [23966; 24656; 24877; 24620; 23896; 22735; 21155; 19199; 16959];
       [25861; 27183; 27803; 27686; 26839; 25309; 23141; 20425; 17336];
       [26763; 29474; 31087; 31461; 30564; 28474; 25297; 21261; 16760];
       [30338; 32416; 33490; 33485; 32401; 30314; 27305; 23538; 19309];
       [35470; 35566; 35254; 34543; 33449; 32000; 30207; 28093; 25717];
       [37752; 37298; 36683; 35912; 34994; 33935; 32737; 31402; 29944];
       [38744; 38211; 37601; 36915; 36159; 35334; 34440; 33476; 32447]]])]
  [("alphaMap", 0); ("NcMap", 10000); ("PRmap", 32000); ("RlineMap", 20000)] (Some 10000).
(* maps/axi5.py *)
Definition AXI5_z : mapZ := mkMapZ "AXI5"
  [("alphaMap", "", 0, [0; 900000]); ("NcMap", "rpm", 10000, [4000; 5000; 6000; 7000; 8000; 9000; 9500; 10000; 10500; 11000]); ("RlineMap", "", 20000, [10000; 12000; 14000; 16000; 18000; 20000; 22000; 24000; 26000])]
   [("WcMap", "lbm/s", [[[48430; 51909; 55289; 58564; 61729; 64780; 67714; 70525; 73212];
       [68115; 71360; 74477; 77462; 80313; 83026; 85600; 88033; 90323];
       [89765; 92855; 95780; 98535; 101121; 103536; 105781; 107855; 109760];
       [110367; 114245; 117795; 121017; 123913; 126485; 128738; 130679; 132314];
       [145914; 151491; 156401; 160650; 164249; 167213; 169563; 171322; 172515];
       [200347; 210987; 219935; 227217; 232879; 236987; 239625; 240887; 241034];
       [232785; 244288; 253829; 261447; 267207; 271196; 273519; 274292; 274293];
       [286553; 290317; 293528; 296202; 298354; 300000; 301159; 301849; 302090];
       [305418; 307022; 308417; 309606; 310595; 311387; 311988; 312402; 312635];
       [314065; 314886; 315601; 316213; 316723; 317133; 317445; 317661; 317782]];
      [[83219; 88244; 92916; 97228; 101172; 104747; 107951; 110786; 113257];
       [127911; 132400; 136433; 140011; 143141; 145828; 148084; 149921; 151352];
       [155913; 159958; 163567; 166745; 169499; 171837; 173772; 175315; 176479];
       [176696; 182008; 186663; 190672; 194047; 196806; 198968; 200558; 201599];
       [204281; 211455; 217595; 222721; 226860; 230045; 232319; 233726; 234316];
       [232298; 243738; 253232; 260816; 266557; 270539; 272866; 273654; 273655];
       [247860; 259617; 269293; 276936; 282621; 286444; 288521; 289012; 289012];
       [286553; 290317; 293528; 296202; 298354; 300000; 301159; 301849; 302090];
       [305418; 307022; 308417; 309606; 310595; 311387; 311988; 312402; 312635];
       [314065; 314886; 315601; 316213; 316723; 317133; 317445; 317661; 317782]]]);
    ("effMap", "", [[[6673; 6982; 7210; 7340; 7349; 7208; 6849; 6177; 5090];
       [7098; 7315; 7471; 7553; 7550; 7445; 7199; 6759; 6082];
       [7399; 7577; 7704; 7771; 7770; 7690; 7502; 7172; 6673];
       [7425; 7677; 7867; 7985; 8019; 7954; 7752; 7366; 6757];
       [7489; 7833; 8103; 8287; 8372; 8338; 8141; 7722; 7033];
       [7138; 7681; 8120; 8440; 8617; 8624; 8390; 7825; 6847];
       [7111; 7667; 8116; 8443; 8626; 8638; 8408; 7849; 6883];
       [8151; 8306; 8424; 8500; 8530; 8510; 8427; 8264; 8013];
       [8267; 8319; 8353; 8370; 8368; 8346; 8299; 8222; 8113];
       [8180; 8199; 8209; 8208; 8197; 8176; 8141; 8091; 8024]];
      [[6837; 7226; 7527; 7724; 7792; 7704; 7386; 6742; 5669];
       [7499; 7786; 8006; 8151; 8206; 8157; 7963; 7574; 6949];
       [7858; 8079; 8249; 8358; 8401; 8366; 8228; 7956; 7528];
       [7808; 8089; 8308; 8457; 8525; 8502; 8355; 8044; 7541];
       [7666; 8027; 8312; 8513; 8616; 8606; 8441; 8070; 7456];
       [7119; 7672; 8119; 8445; 8626; 8638; 8409; 7852; 6891];
       [7053; 7608; 8056; 8381; 8561; 8570; 8339; 7781; 6822];
       [8151; 8306; 8424; 8500; 8530; 8510; 8427; 8264; 8013];
       [8267; 8319; 8353; 8370; 8368; 8346; 8299; 8222; 8113];
       [8180; 8199; 8209; 8208; 8197; 8176; 8141; 8091; 8024]]]);
    ("PRmap", "", [[[12763; 12720; 12629; 12490; 12306; 12076; 11796; 11460; 11072];
       [14620; 14520; 14364; 14152; 13888; 13573; 13201; 12766; 12274];
       [17279; 17111; 16871; 16561; 16185; 15747; 15237; 14651; 13995];
       [21250; 21062; 20723; 20239; 19616; 18865; 17973; 16934; 15771];
       [28737; 28679; 28280; 27549; 26505; 25175; 23541; 21604; 19432];
       [41211; 42350; 42502; 41658; 39861; 37202; 33667; 29333; 24492];
       [48577; 50260; 50648; 49720; 47525; 44188; 39702; 34187; 28058];
       [59603; 58925; 57804; 56258; 54313; 52000; 49289; 46166; 42701];
       [62935; 61874; 60632; 59218; 57642; 55914; 54014; 51930; 49678];
       [64390; 63324; 62162; 60908; 59568; 58145; 56627; 55004; 53284]];
      [[17567; 17543; 17358; 17016; 16524; 15890; 15103; 14157; 13078];
       [24783; 24610; 24214; 23602; 22787; 21784; 20579; 19167; 17585];
       [29457; 29160; 28640; 27907; 26972; 25851; 24528; 22995; 21288];
       [34221; 34045; 33514; 32639; 31441; 29945; 28132; 25998; 23609];
       [40790; 40961; 40527; 39500; 37915; 35820; 33193; 30047; 26517];
       [48443; 50097; 50468; 49535; 47350; 44035; 39581; 34109; 28024];
       [52659; 54656; 55180; 54201; 51776; 48046; 43011; 36821; 29960];
       [59603; 58925; 57804; 56258; 54313; 52000; 49289; 46166; 42701];
       [62935; 61874; 60632; 59218; 57642; 55914; 54014; 51930; 49678];
       [64390; 63324; 62162; 60908; 59568; 58145; 56627; 55004; 53284]]])]
  [("alphaMap", 0); ("NcMap", 10000); ("PRmap", 52000); ("RlineMap", 20000)] (Some 10000).
(* maps/hpt1269.py *)
Definition HPT1269_z : mapZ := mkMapZ "HPT1269"
  [("alphaMap", "", 10000, [10000; 20000]); ("NpMap", "rpm", 1000000, [600000; 700000; 800000; 900000; 1000000; 1100000]); ("PRmap", "", 60000, [30000; 32500; 35000; 37500; 40000; 42500; 45000; 47500; 50000; 52500; 55000; 57500; 60000; 62500; 65000; 67500; 70000; 72500; 75000; 80000])]
   [("WpMap", "lbm/s", [[[304460; 305330; 305680; 305720; 305720; 305720; 305720; 305720; 305720; 305720; 305720; 305720; 305720; 305720; 305720; 305720; 305720; 305720; 305720; 305720];
       [302990; 304130; 304800; 305160; 305290; 305300; 305300; 305300; 305300; 305300; 305300; 305300; 305300; 305300; 305300; 305300; 305300; 305300; 305300; 305300];
       [301200; 302390; 303170; 303680; 303980; 304150; 304210; 304210; 304210; 304210; 304210; 304210; 304210; 304210; 304210; 304210; 304210; 304210; 304210; 304210];
       [300140; 301240; 302010; 302530; 302880; 303110; 303250; 303330; 303370; 303370; 303370; 303370; 303370; 303370; 303370; 303370; 303370; 303370; 303370; 303370];
       [298560; 299480; 300130; 300590; 300910; 301130; 301280; 301390; 301450; 301490; 301500; 301500; 301500; 301500; 301500; 301500; 301500; 301500; 301500; 301500];
       [297990; 298700; 299200; 299550; 299790; 299970; 300090; 300170; 300230; 300260; 300280; 300290; 300290; 300290; 300290; 300290; 300290; 300290; 300290; 300290]];
      [[304460; 305330; 305680; 305720; 305720; 305720; 305720; 305720; 305720; 305720; 305720; 305720; 305720; 305720; 305720; 305720; 305720; 305720; 305720; 305720];
       [302990; 304130; 304800; 305160; 305290; 305300; 305300; 305300; 305300; 305300; 305300; 305300; 305300; 305300; 305300; 305300; 305300; 305300; 305300; 305300];
       [301200; 302390; 303170; 303680; 303980; 304150; 304210; 304210; 304210; 304210; 304210; 304210; 304210; 304210; 304210; 304210; 304210; 304210; 304210; 304210];
       [300140; 301240; 302010; 302530; 302880; 303110; 303250; 303330; 303370; 303370; 303370; 303370; 303370; 303370; 303370; 303370; 303370; 303370; 303370; 303370];
       [298560; 299480; 300130; 300590; 300910; 301130; 301280; 301390; 301450; 301490; 301500; 301500; 301500; 301500; 301500; 301500; 301500; 301500; 301500; 301500];
       [297990; 298700; 299200; 299550; 299790; 299970; 300090; 300170; 300230; 300260; 300280; 300290; 300290; 300290; 300290; 300290; 300290; 300290; 300290; 300290]]]);
    ("effMap", "", [[[8460; 8405; 8349; 8296; 8249; 8206; 8165; 8127; 8092; 8060; 8030; 8002; 7976; 7953; 7931; 7911; 7892; 7875; 7858; 7826];
       [8879; 8842; 8804; 8769; 8735; 8701; 8670; 8640; 8614; 8590; 8568; 8548; 8529; 8511; 8495; 8479; 8460; 8436; 8414; 8373];
       [9125; 9111; 9096; 9078; 9055; 9034; 9014; 8995; 8979; 8964; 8950; 8936; 8924; 8903; 8877; 8853; 8830; 8808; 8787; 8749];
       [9228; 9242; 9250; 9247; 9240; 9232; 9224; 9217; 9210; 9203; 9197; 9188; 9162; 9137; 9113; 9091; 9070; 9050; 9031; 8980];
       [9215; 9258; 9289; 9304; 9313; 9319; 9323; 9326; 9328; 9329; 9330; 9311; 9288; 9266; 9245; 9225; 9206; 9188; 9161; 9107];
       [9106; 9176; 9232; 9267; 9292; 9312; 9327; 9340; 9351; 9361; 9369; 9349; 9329; 9311; 9293; 9276; 9259; 9239; 9212; 9161]];
      [[8460; 8405; 8349; 8296; 8249; 8206; 8165; 8127; 8092; 8060; 8030; 8002; 7976; 7953; 7931; 7911; 7892; 7875; 7858; 7826];
       [8879; 8842; 8804; 8769; 8735; 8701; 8670; 8640; 8614; 8590; 8568; 8548; 8529; 8511; 8495; 8479; 8460; 8436; 8414; 8373];
       [9125; 9111; 9096; 9078; 9055; 9034; 9014; 8995; 8979; 8964; 8950; 8936; 8924; 8903; 8877; 8853; 8830; 8808; 8787; 8749];
       [9228; 9242; 9250; 9247; 9240; 9232; 9224; 9217; 9210; 9203; 9197; 9188; 9162; 9137; 9113; 9091; 9070; 9050; 9031; 8980];
       [9215; 9258; 9289; 9304; 9313; 9319; 9323; 9326; 9328; 9329; 9330; 9311; 9288; 9266; 9245; 9225; 9206; 9188; 9161; 9107];
       [9106; 9176; 9232; 9267; 9292; 9312; 9327; 9340; 9351; 9361; 9369; 9349; 9329; 9311; 9293; 9276; 9259; 9239; 9212; 9161]]])]
  [("alphaMap", 10000); ("NpMap", 1000000); ("PRmap", 60000)] (None).
(* maps/lpt2269.py *)
Definition LPT2269_z : mapZ := mkMapZ "LPT2269"
  [("alphaMap", "", 10000, [10000; 20000]); ("NpMap", "rpm", 1000000, [600000; 700000; 800000; 900000; 1000000; 1100000; 1200000]); ("PRmap", "", 60000, [30000; 32500; 35000; 37500; 40000; 42500; 45000; 47500; 50000; 52500; 55000; 57500; 60000; 62500; 65000; 67500; 70000; 72500; 75000; 80000])]
   [("WpMap", "lbm/s", [[[1538120; 1538120; 1538120; 1538120; 1538120; 1538120; 1538120; 1538120; 1538120; 1538120; 1538120; 1538120; 1538120; 1538120; 1538120; 1538120; 1538120; 1538120; 1538120; 1538120];
       [1535110; 1535110; 1535110; 1535110; 1535110; 1535110; 1535110; 1535110; 1535110; 1535110; 1535110; 1535110; 1535110; 1535110; 1535110; 1535110; 1535110; 1535110; 1535110; 1535110];
       [1527990; 1529820; 1530520; 1530610; 1530610; 1530610; 1530610; 1530610; 1530610; 1530610; 1530610; 1530610; 1530610; 1530610; 1530610; 1530610; 1530610; 1530610; 1530610; 1530610];
       [1509950; 1513160; 1515180; 1516470; 1517290; 1517810; 1518140; 1518340; 1518460; 1518520; 1518560; 1518580; 1518590; 1518590; 1518590; 1518590; 1518590; 1518590; 1518590; 1518590];
       [1487510; 1491070; 1493490; 1495170; 1496350; 1497190; 1497790; 1498220; 1498520; 1498720; 1498850; 1498940; 1498980; 1498990; 1498990; 1498990; 1498990; 1498990; 1498990; 1498990];
       [1453520; 1456800; 1459050; 1460610; 1461690; 1462440; 1462930; 1463240; 1463390; 1463440; 1463440; 1463440; 1463440; 1463440; 1463440; 1463440; 1463440; 1463440; 1463440; 1463440];
       [1408630; 1411310; 1413100; 1414280; 1415030; 1415470; 1415670; 1415690; 1415690; 1415690; 1415690; 1415690; 1415690; 1415690; 1415690; 1415690; 1415690; 1415690; 1415690; 1415690]];
      [[1538120; 1538120; 1538120; 1538120; 1538120; 1538120; 1538120; 1538120; 1538120; 1538120; 1538120; 1538120; 1538120; 1538120; 1538120; 1538120; 1538120; 1538120; 1538120; 1538120];
       [1535110; 1535110; 1535110; 1535110; 1535110; 1535110; 1535110; 1535110; 1535110; 1535110; 1535110; 1535110; 1535110; 1535110; 1535110; 1535110; 1535110; 1535110; 1535110; 1535110];
       [1527990; 1529820; 1530520; 1530610; 1530610; 1530610; 1530610; 1530610; 1530610; 1530610; 1530610; 1530610; 1530610; 1530610; 1530610; 1530610; 1530610; 1530610; 1530610; 1530610];
       [1509950; 1513160; 1515180; 1516470; 1517290; 1517810; 1518140; 1518340; 1518460; 1518520; 1518560; 1518580; 1518590; 1518590; 1518590; 1518590; 1518590; 1518590; 1518590; 1518590];
       [1487510; 1491070; 1493490; 1495170; 1496350; 1497190; 1497790; 1498220; 1498520; 1498720; 1498850; 1498940; 1498980; 1498990; 1498990; 1498990; 1498990; 1498990; 1498990; 1498990];
       [1453520; 1456800; 1459050; 1460610; 1461690; 1462440; 1462930; 1463240; 1463390; 1463440; 1463440; 1463440; 1463440; 1463440; 1463440; 1463440; 1463440; 1463440; 1463440; 1463440];
       [1408630; 1411310; 1413100; 1414280; 1415030; 1415470; 1415670; 1415690; 1415690; 1415690; 1415690; 1415690; 1415690; 1415690; 1415690; 1415690; 1415690; 1415690; 1415690; 1415690]]]);
    ("effMap", "", [[[8388; 8309; 8234; 8159; 8091; 8030; 7975; 7924; 7876; 7832; 7791; 7753; 7717; 7684; 7652; 7623; 7595; 7568; 7542; 7495];
       [8878; 8813; 8745; 8685; 8629; 8577; 8528; 8484; 8443; 8404; 8368; 8334; 8302; 8272; 8242; 8210; 8179; 8150; 8122; 8071];
       [9201; 9152; 9105; 9061; 9018; 8978; 8940; 8905; 8872; 8840; 8810; 8776; 8741; 8707; 8676; 8646; 8618; 8590; 8565; 8516];
       [9381; 9360; 9336; 9310; 9283; 9257; 9231; 9206; 9182; 9153; 9119; 9087; 9056; 9027; 8999; 8973; 8948; 8924; 8901; 8858];
       [9447; 9455; 9456; 9450; 9440; 9429; 9417; 9404; 9383; 9355; 9327; 9301; 9276; 9252; 9229; 9207; 9186; 9165; 9146; 9099];
       [9415; 9454; 9479; 9495; 9504; 9510; 9512; 9511; 9492; 9472; 9452; 9433; 9414; 9396; 9378; 9361; 9344; 9326; 9304; 9262];
       [9295; 9366; 9419; 9458; 9487; 9509; 9526; 9538; 9528; 9517; 9505; 9493; 9481; 9468; 9456; 9444; 9432; 9413; 9395; 9360]];
      [[8388; 8309; 8234; 8159; 8091; 8030; 7975; 7924; 7876; 7832; 7791; 7753; 7717; 7684; 7652; 7623; 7595; 7568; 7542; 7495];
       [8878; 8813; 8745; 8685; 8629; 8577; 8528; 8484; 8443; 8404; 8368; 8334; 8302; 8272; 8242; 8210; 8179; 8150; 8122; 8071];
       [9201; 9152; 9105; 9061; 9018; 8978; 8940; 8905; 8872; 8840; 8810; 8776; 8741; 8707; 8676; 8646; 8618; 8590; 8565; 8516];
       [9381; 9360; 9336; 9310; 9283; 9257; 9231; 9206; 9182; 9153; 9119; 9087; 9056; 9027; 8999; 8973; 8948; 8924; 8901; 8858];
       [9447; 9455; 9456; 9450; 9440; 9429; 9417; 9404; 9383; 9355; 9327; 9301; 9276; 9252; 9229; 9207; 9186; 9165; 9146; 9099];
       [9415; 9454; 9479; 9495; 9504; 9510; 9512; 9511; 9492; 9472; 9452; 9433; 9414; 9396; 9378; 9361; 9344; 9326; 9304; 9262];
       [9295; 9366; 9419; 9458; 9487; 9509; 9526; 9538; 9528; 9517; 9505; 9493; 9481; 9468; 9456; 9444; 9432; 9413; 9395; 9360]]])]
  [("alphaMap", 10000); ("NpMap", 1000000); ("PRmap", 60000)] (None).
(* maps/ncp01.py *)
Definition NCP01_z : mapZ := mkMapZ "NCP01"
  [("alphaMap", "", 0, [0; 900000]); ("NcMap", "rpm", 10000, [5000; 6000; 7000; 8000; 8500; 9000; 9500; 10000; 10500; 11000; 11500]); ("RlineMap", "", 20000, [10000; 12000; 14000; 16000; 18000; 20000; 22000; 24000; 26000; 28000; 30000; 32000])]
   [("WcMap", "lbm/s", [[[11290825; 12588474; 13821909; 14986384; 16077749; 17092917; 18028665; 18883794; 19656499; 20346738; 20954690; 21481226];
       [13969045; 15466948; 16856306; 18130896; 19285979; 20318818; 21227800; 22012161; 22674148; 23216023; 23641392; 23955188];
       [16363572; 18160977; 19773179; 21192051; 22413333; 23436414; 24263811; 24900854; 25355586; 25638640; 25761626; 25769243];
       [18840764; 20990234; 22847820; 24404712; 25659761; 26619326; 27295161; 27703828; 27866572; 27871653; 27871653; 27871653];
       [20493005; 22697354; 24565759; 26092085; 27279202; 28138420; 28687388; 28948994; 28980327; 28980327; 28980327; 28980327];
       [22883171; 24925862; 26623203; 27975042; 28989448; 29681807; 30072944; 30188535; 30188535; 30188535; 30188535; 30188535];
       [25626401; 27330469; 28722166; 29806609; 30594998; 31103328; 31351262; 31384663; 31384663; 31384663; 31384663; 31384663];
       [27696670; 29099534; 30220933; 31069241; 31656892; 31999995; 32116814; 32117039; 32117039; 32117039; 32117039; 32117039];
       [29546721; 30566882; 31379358; 31991514; 32412805; 32654429; 32728789; 32728789; 32728789; 32728789; 32728789; 32728789];
       [31301790; 31952559; 32469822; 32858452; 33124382; 33274097; 33314949; 33314949; 33314949; 33314949; 33314949; 33314949];
       [32756797; 33104507; 33383101; 33595127; 33742856; 33829170; 33856724; 33856724; 33856724; 33856724; 33856724; 33856724]];
      [[11290825; 12588474; 13821909; 14986384; 16077749; 17092917; 18028665; 18883794; 19656499; 20346738; 20954690; 21481226];
       [13969045; 15466948; 16856306; 18130896; 19285979; 20318818; 21227800; 22012161; 22674148; 23216023; 23641392; 23955188];
       [16363572; 18160977; 19773179; 21192051; 22413333; 23436414; 24263811; 24900854; 25355586; 25638640; 25761626; 25769243];
       [18840764; 20990234; 22847820; 24404712; 25659761; 26619326; 27295161; 27703828; 27866572; 27871653; 27871653; 27871653];
       [20493005; 22697354; 24565759; 26092085; 27279202; 28138420; 28687388; 28948994; 28980327; 28980327; 28980327; 28980327];
       [22883171; 24925862; 26623203; 27975042; 28989448; 29681807; 30072944; 30188535; 30188535; 30188535; 30188535; 30188535];
       [25626401; 27330469; 28722166; 29806609; 30594998; 31103328; 31351262; 31384663; 31384663; 31384663; 31384663; 31384663];
       [27696670; 29099534; 30220933; 31069241; 31656892; 31999995; 32116814; 32117039; 32117039; 32117039; 32117039; 32117039];
       [29546721; 30566882; 31379358; 31991514; 32412805; 32654429; 32728789; 32728789; 32728789; 32728789; 32728789; 32728789];
       [31301790; 31952559; 32469822; 32858452; 33124382; 33274097; 33314949; 33314949; 33314949; 33314949; 33314949; 33314949];
       [32756797; 33104507; 33383101; 33595127; 33742856; 33829170; 33856724; 33856724; 33856724; 33856724; 33856724; 33856724]]]);
    ("effMap", "", [[[7900; 8409; 8835; 9160; 9360; 9401; 9257; 8894; 8233; 7152; 5453; 2792];
       [7728; 8298; 8776; 9141; 9368; 9421; 9271; 8885; 8179; 7026; 5223; 2425];
       [7237; 7965; 8579; 9053; 9352; 9432; 9256; 8776; 7882; 6405; 4067; 380];
       [6854; 7705; 8423; 8978; 9331; 9431; 9239; 8702; 7703; 6058; 3474; 0];
       [7003; 7808; 8483; 9001; 9327; 9418; 9243; 8763; 7882; 6463; 4299; 1059];
       [7556; 8178; 8692; 9080; 9318; 9379; 9248; 8907; 8305; 7378; 6034; 4147];
       [8143; 8549; 8878; 9120; 9262; 9290; 9201; 8991; 8639; 8121; 7405; 6453];
       [8431; 8697; 8909; 9059; 9142; 9150; 9081; 8936; 8704; 8373; 7928; 7353];
       [8613; 8780; 8909; 8998; 9042; 9037; 8984; 8884; 8731; 8519; 8243; 7893];
       [8696; 8785; 8851; 8892; 8908; 8896; 8856; 8791; 8697; 8573; 8416; 8222];
       [8644; 8680; 8704; 8716; 8714; 8699; 8670; 8629; 8575; 8507; 8424; 8326]];
      [[7900; 8409; 8835; 9160; 9360; 9401; 9257; 8894; 8233; 7152; 5453; 2792];
       [7728; 8298; 8776; 9141; 9368; 9421; 9271; 8885; 8179; 7026; 5223; 2425];
       [7237; 7965; 8579; 9053; 9352; 9432; 9256; 8776; 7882; 6405; 4067; 380];
       [6854; 7705; 8423; 8978; 9331; 9431; 9239; 8702; 7703; 6058; 3474; 0];
       [7003; 7808; 8483; 9001; 9327; 9418; 9243; 8763; 7882; 6463; 4299; 1059];
       [7556; 8178; 8692; 9080; 9318; 9379; 9248; 8907; 8305; 7378; 6034; 4147];
       [8143; 8549; 8878; 9120; 9262; 9290; 9201; 8991; 8639; 8121; 7405; 6453];
       [8431; 8697; 8909; 9059; 9142; 9150; 9081; 8936; 8704; 8373; 7928; 7353];
       [8613; 8780; 8909; 8998; 9042; 9037; 8984; 8884; 8731; 8519; 8243; 7893];
       [8696; 8785; 8851; 8892; 8908; 8896; 8856; 8791; 8697; 8573; 8416; 8222];
       [8644; 8680; 8704; 8716; 8714; 8699; 8670; 8629; 8575; 8507; 8424; 8326]]]);
    ("PRmap", "", [[[11119; 11119; 11098; 11058; 10998; 10919; 10822; 10711; 10586; 10446; 10292; 10125];
       [11622; 11638; 11621; 11570; 11487; 11372; 11228; 11060; 10869; 10655; 10420; 10164];
       [12172; 12249; 12266; 12221; 12115; 11950; 11733; 11471; 11168; 10825; 10447; 10035];
       [12858; 13036; 13114; 13090; 12965; 12742; 12433; 12052; 11606; 11099; 10537; 10000];
       [13350; 13543; 13628; 13603; 13467; 13224; 12887; 12474; 11988; 11438; 10830; 10174];
       [14075; 14214; 14258; 14204; 14055; 13813; 13489; 13098; 12643; 12131; 11567; 10957];
       [14915; 14971; 14955; 14869; 14712; 14487; 14202; 13867; 13485; 13058; 12591; 12086];
       [15579; 15567; 15503; 15386; 15218; 15000; 14738; 14439; 14106; 13739; 13341; 12914];
       [16184; 16123; 16024; 15888; 15717; 15510; 15273; 15010; 14722; 14410; 14076; 13720];
       [16748; 16655; 16538; 16399; 16238; 16054; 15852; 15633; 15399; 15150; 14886; 14608];
       [17224; 17122; 17008; 16882; 16744; 16595; 16434; 16266; 16089; 15904; 15711; 15510]];
      [[11119; 11119; 11098; 11058; 10998; 10919; 10822; 10711; 10586; 10446; 10292; 10125];
       [11622; 11638; 11621; 11570; 11487; 11372; 11228; 11060; 10869; 10655; 10420; 10164];
       [12172; 12249; 12266; 12221; 12115; 11950; 11733; 11471; 11168; 10825; 10447; 10035];
       [12858; 13036; 13114; 13090; 12965; 12742; 12433; 12052; 11606; 11099; 10537; 10000];
       [13350; 13543; 13628; 13603; 13467; 13224; 12887; 12474; 11988; 11438; 10830; 10174];
       [14075; 14214; 14258; 14204; 14055; 13813; 13489; 13098; 12643; 12131; 11567; 10957];
       [14915; 14971; 14955; 14869; 14712; 14487; 14202; 13867; 13485; 13058; 12591; 12086];
       [15579; 15567; 15503; 15386; 15218; 15000; 14738; 14439; 14106; 13739; 13341; 12914];
       [16184; 16123; 16024; 15888; 15717; 15510; 15273; 15010; 14722; 14410; 14076; 13720];
       [16748; 16655; 16538; 16399; 16238; 16054; 15852; 15633; 15399; 15150; 14886; 14608];
       [17224; 17122; 17008; 16882; 16744; 16595; 16434; 16266; 16089; 15904; 15711; 15510]]])]
  [("alphaMap", 0); ("NcMap", 10000); ("RlineMap", 20000)] (Some 10000).
Definition shipped_maps : list mapZ := [FanMap_z; HPCMap_z; HPTMap_z; LPCMap_z; LPTMap_z; AXI3_2_z; AXI5_z; HPT1269_z; LPT2269_z; NCP01_z].
