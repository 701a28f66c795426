(* GENERATED by tools/gen_map_data.py: the table of pycycle/elements/US1976.py:12-65. *)
From Coq Require Import ZArith List.
Import ListNotations.
Open Scope Z_scope.
(* USatm1976Data.alt; z stands for z / 10^0 *)
Definition atm_alt_z : list Z := [(-1000); 0; 1000; 2000; 3000; 4000; 5000; 6000; 7000; 8000; 9000; 10000; 11000; 12000; 13000; 14000; 15000; 16000; 17000; 18000; 19000; 20000; 21000; 22000; 23000; 24000; 25000; 26000; 27000; 28000; 29000; 30000; 31000; 32000; 33000; 34000; 35000; 36000; 37000; 38000; 39000; 40000; 41000; 42000; 43000; 44000; 45000; 46000; 47000; 48000; 49000; 50000; 51000; 52000; 53000; 54000; 55000; 56000; 57000; 58000; 59000; 60000; 61000; 62000; 63000; 64000; 65000; 66000; 67000; 68000; 69000; 70000; 71000; 72000; 73000; 74000; 75000; 76000; 77000; 78000; 79000; 80000; 81000; 82000; 83000; 84000; 85000; 86000; 87000; 88000; 89000; 90000; 91000; 92000; 93000; 94000; 95000; 96000; 97000; 98000; 99000; 100000; 105000; 110000; 115000; 120000; 125000; 130000; 135000; 140000; 145000; 150000].
(* USatm1976Data.T; z stands for z / 10^3 *)
Definition atm_T_z : list Z := [522236; 518670; 515104; 511538; 507972; 504405; 500839; 497273; 493707; 490141; 486575; 483008; 479442; 475876; 472310; 468744; 465178; 461611; 458045; 454479; 450913; 447347; 443781; 440214; 436648; 433082; 429516; 425950; 422384; 418818; 415251; 411685; 408119; 404553; 400987; 397421; 393854; 390288; 389970; 389970; 389970; 389970; 389970; 389970; 389970; 389970; 389970; 389970; 389970; 389970; 389970; 389970; 389970; 389970; 389970; 389970; 389970; 389970; 389970; 389970; 389970; 389970; 389970; 389970; 389970; 389970; 389970; 390180; 390729; 391278; 391826; 392375; 392923; 393472; 394021; 394569; 395118; 395667; 396215; 396764; 397313; 397861; 398410; 398958; 399507; 400056; 400604; 401153; 401702; 402250; 402799; 403348; 403896; 404445; 404994; 405542; 406091; 406639; 407188; 407737; 408285; 408834; 411590; 419271; 426952; 434633; 442314; 449995; 457676; 465357; 473038; 480719].
(* USatm1976Data.P; z stands for z / 10^7 *)
Definition atm_P_z : list Z := [152348000; 146959000; 141726000; 136644000; 131711000; 126923000; 122277000; 117770000; 113398000; 109159000; 105049000; 101065000; 97204000; 93463600; 89840500; 86332100; 82935400; 79647800; 76466500; 73388900; 74123000; 67534300; 64752300; 62063800; 59466400; 56957800; 54535500; 52197400; 49941000; 47764400; 45665100; 43641300; 41690600; 39811200; 38001000; 36258000; 34580300; 32966100; 31419100; 29944700; 28539500; 27200300; 25923900; 24707300; 23547900; 22442900; 21389700; 20386000; 19429300; 18517600; 17648600; 16820400; 16031100; 15278800; 14561800; 13878500; 13227200; 12606500; 12014900; 11451100; 10913700; 10401600; 9913470; 9448270; 9004890; 8582320; 8179580; 7795780; 7430390; 7082610; 6751560; 6436410; 6136380; 5850730; 5578750; 5319760; 5073130; 4838250; 4614550; 4401480; 4198530; 4005190; 3821010; 3645530; 3478330; 3319020; 3167200; 3022530; 2884640; 2753230; 2627960; 2508560; 2394730; 2286210; 2182750; 2084100; 1990030; 1900320; 1814780; 1733190; 1655370; 1581140; 1258200; 1004100; 804600; 647290; 522725; 423688; 344637; 281301; 230369; 189267].
(* USatm1976Data.rho; z stands for z / 10^11 *)
Definition atm_rho_z : list Z := [244752000; 237717000; 230839000; 224114000; 217539000; 211114000; 204834000; 198698000; 192704000; 186850000; 181132000; 175549000; 170099000; 164779000; 159588000; 154522000; 149581000; 144761000; 140061000; 135479000; 131012000; 126659000; 122417000; 118285000; 114260000; 110341000; 106526000; 102812000; 99198400; 95682700; 92263100; 88937800; 85705000; 82562800; 79509600; 76543400; 73662700; 70865700; 67595400; 64423400; 61400200; 58518900; 55772800; 53155600; 50661200; 48283800; 46018000; 43858600; 41800400; 39838900; 37969400; 36187600; 34489400; 32870900; 31328400; 29858300; 28457100; 27121700; 25849000; 24636000; 23479900; 22378100; 21327900; 20327100; 19373200; 18464100; 17597600; 16762900; 15954800; 15186700; 14456600; 13762500; 13102600; 12475300; 11878800; 11311600; 10772200; 10259200; 9771310; 9307250; 8865820; 8445900; 8046410; 7666320; 7304670; 6960540; 6633070; 6321420; 6024810; 5742490; 5473760; 5217940; 4974410; 4742540; 4521780; 4311580; 4111400; 3920780; 3739230; 3566320; 3401620; 3244730; 2564720; 2009260; 1581080; 1249480; 991510; 789937; 631770; 507154; 408586; 330323].
(* USatm1976Data.a; z stands for z / 10^3 *)
Definition atm_a_z : list Z := [1120280; 1116450; 1112610; 1108750; 1104880; 1100990; 1097090; 1093180; 1089250; 1085310; 1081360; 1077390; 1073400; 1069400; 1065390; 1061360; 1057310; 1053250; 1049180; 1045080; 1040970; 1036850; 1032710; 1028550; 1024380; 1020190; 1015980; 1011750; 1007510; 1003240; 998963; 994664; 990347; 986010; 981655; 977280; 972885; 968471; 968076; 968076; 968076; 968076; 968076; 968076; 968076; 968076; 968076; 968076; 968076; 968076; 968076; 968076; 968076; 968076; 968076; 968076; 968076; 968076; 968076; 968076; 968076; 968076; 968076; 968076; 968076; 968076; 968076; 968337; 969017; 969698; 970377; 971056; 971735; 972413; 973091; 973768; 974445; 975121; 975797; 976472; 977147; 977822; 978496; 979169; 979842; 980515; 981187; 981858; 982530; 983200; 983871; 984541; 985210; 985879; 986547; 987215; 987883; 988550; 989217; 989883; 990549; 991214; 994549; 1003790; 1012940; 1022010; 1031000; 1039910; 1048750; 1057520; 1066210; 1074830].
(* USatm1976Data.viscosity; z stands for z / 10^9 *)
Definition atm_viscosity_z : list Z := [381; 378; 376; 374; 372; 370; 368; 366; 364; 362; 360; 357; 355; 353; 351; 349; 347; 345; 342; 340; 338; 336; 334; 331; 329; 327; 325; 322; 320; 318; 316; 313; 311; 309; 306; 304; 302; 299; 299; 299; 299; 299; 299; 299; 299; 299; 299; 299; 299; 299; 299; 299; 299; 299; 299; 299; 299; 299; 299; 299; 299; 299; 299; 299; 299; 299; 299; 299; 300; 300; 300; 301; 301; 301; 302; 302; 303; 303; 303; 304; 304; 304; 305; 305; 305; 306; 306; 306; 307; 307; 308; 308; 308; 309; 309; 309; 310; 310; 310; 311; 311; 311; 313; 318; 323; 328; 333; 337; 342; 347; 351; 356].
