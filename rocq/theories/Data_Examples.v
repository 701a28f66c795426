(* GENERATED by tools/gen_examples.py from the Cycle classes of /repo/example_cycles (read as text): elements, flow connections, other
   connections, promotions, shafts, performance element and balances, for every setting of the options `design` and those a class declares. *)
From Verif Require Export Model_Examples.
Open Scope string_scope. Open Scope list_scope. Open Scope Z_scope.
(* simple_turbojet.py:10-101, design = True *)
Definition x_Turbojet : example := mkExample "Turbojet" TABULAR "AIR_JETA_TAB_SPEC" true
  [("fc", XFlight None); ("inlet", XInlet); ("comp", XCompressor []); ("burner", XCombustor "FAR"); ("turb", XTurbine []); ("nozz", XNozzle CD Cv)]
  [mkLink ("fc", "Fl_O") ("inlet", "Fl_I") true true false; mkLink ("inlet", "Fl_O") ("comp", "Fl_I") true true true; mkLink ("comp", "Fl_O") ("burner", "Fl_I") true true true; mkLink ("burner", "Fl_O") ("turb", "Fl_I") true true true; mkLink ("turb", "Fl_O") ("nozz", "Fl_I") true true true]
  [("comp.trq", "shaft.trq_0"); ("turb.trq", "shaft.trq_1"); ("fc.Fl_O:stat:P", "nozz.Ps_exhaust"); ("inlet.Fl_O:tot:P", "perf.Pt2"); ("comp.Fl_O:tot:P", "perf.Pt3"); ("burner.Wfuel", "perf.Wfuel_0"); ("inlet.F_ram", "perf.ram_drag"); ("nozz.Fg", "perf.Fg_0"); ("balance.W", "inlet.Fl_I:stat:W"); ("perf.Fn", "balance.lhs:W"); ("balance.FAR", "burner.Fl_I:FAR"); ("burner.Fl_O:tot:T", "balance.lhs:FAR"); ("balance.turb_PR", "turb.PR"); ("shaft.pwr_net", "balance.lhs:turb_PR")]
  [("comp", ("Nmech", "Nmech")); ("turb", ("Nmech", "Nmech")); ("shaft", ("Nmech", "Nmech"))]
  [("shaft", 2%nat)] [] [("perf", (1, 1)%nat)]
  (* not modelled: subsystems none; flow connections to them none *)
  [mkXBal "W" "lbm/s" "lbf" "Fn_target" false; mkXBal "FAR" "" "degR" "T4_target" false; mkXBal "turb_PR" "" "hp" "rhs:turb_PR" false] [("balance.rhs:turb_PR", ("hp", (0, 0)))].
(* simple_turbojet.py:10-101, design = False *)
Definition x_Turbojet_od : example := mkExample "Turbojet_od" TABULAR "AIR_JETA_TAB_SPEC" false
  [("fc", XFlight None); ("inlet", XInlet); ("comp", XCompressor []); ("burner", XCombustor "FAR"); ("turb", XTurbine []); ("nozz", XNozzle CD Cv)]
  [mkLink ("fc", "Fl_O") ("inlet", "Fl_I") true true false; mkLink ("inlet", "Fl_O") ("comp", "Fl_I") true true true; mkLink ("comp", "Fl_O") ("burner", "Fl_I") true true true; mkLink ("burner", "Fl_O") ("turb", "Fl_I") true true true; mkLink ("turb", "Fl_O") ("nozz", "Fl_I") true true true]
  [("comp.trq", "shaft.trq_0"); ("turb.trq", "shaft.trq_1"); ("fc.Fl_O:stat:P", "nozz.Ps_exhaust"); ("inlet.Fl_O:tot:P", "perf.Pt2"); ("comp.Fl_O:tot:P", "perf.Pt3"); ("burner.Wfuel", "perf.Wfuel_0"); ("inlet.F_ram", "perf.ram_drag"); ("nozz.Fg", "perf.Fg_0"); ("balance.FAR", "burner.Fl_I:FAR"); ("perf.Fn", "balance.lhs:FAR"); ("balance.Nmech", "Nmech"); ("shaft.pwr_net", "balance.lhs:Nmech"); ("balance.W", "inlet.Fl_I:stat:W"); ("nozz.Throat:stat:area", "balance.lhs:W")]
  [("comp", ("Nmech", "Nmech")); ("turb", ("Nmech", "Nmech")); ("shaft", ("Nmech", "Nmech"))]
  [("shaft", 2%nat)] [] [("perf", (1, 1)%nat)]
  (* not modelled: subsystems none; flow connections to them none *)
  [mkXBal "FAR" "" "lbf" "Fn_target" false; mkXBal "Nmech" "rpm" "hp" "rhs:Nmech" false; mkXBal "W" "lbm/s" "inch**2" "rhs:W" false] [("balance.rhs:Nmech", ("hp", (0, 0)))].
(* wet_simple_turbojet.py:10-106, design = True *)
Definition x_WetTurbojet : example := mkExample "WetTurbojet" CEA "wet_air" true
  [("fc", XFlight (Some ("Water", "WAR"))); ("inlet", XInlet); ("comp", XCompressor []); ("burner", XCombustor "JP-7"); ("turb", XTurbine []); ("nozz", XNozzle CD Cv)]
  [mkLink ("fc", "Fl_O") ("inlet", "Fl_I") true true false; mkLink ("inlet", "Fl_O") ("comp", "Fl_I") true true true; mkLink ("comp", "Fl_O") ("burner", "Fl_I") true true true; mkLink ("burner", "Fl_O") ("turb", "Fl_I") true true true; mkLink ("turb", "Fl_O") ("nozz", "Fl_I") true true true]
  [("comp.trq", "shaft.trq_0"); ("turb.trq", "shaft.trq_1"); ("fc.Fl_O:stat:P", "nozz.Ps_exhaust"); ("inlet.Fl_O:tot:P", "perf.Pt2"); ("comp.Fl_O:tot:P", "perf.Pt3"); ("burner.Wfuel", "perf.Wfuel_0"); ("inlet.F_ram", "perf.ram_drag"); ("nozz.Fg", "perf.Fg_0"); ("balance.W", "inlet.Fl_I:stat:W"); ("perf.Fn", "balance.lhs:W"); ("balance.FAR", "burner.Fl_I:FAR"); ("burner.Fl_O:tot:T", "balance.lhs:FAR"); ("balance.turb_PR", "turb.PR"); ("shaft.pwr_net", "balance.lhs:turb_PR")]
  [("comp", ("Nmech", "Nmech")); ("turb", ("Nmech", "Nmech")); ("shaft", ("Nmech", "Nmech"))]
  [("shaft", 2%nat)] [] [("perf", (1, 1)%nat)]
  (* not modelled: subsystems none; flow connections to them none *)
  [mkXBal "W" "lbm/s" "lbf" "rhs:W" false; mkXBal "FAR" "" "degR" "rhs:FAR" false; mkXBal "turb_PR" "" "hp" "rhs:turb_PR" false] [("balance.rhs:turb_PR", ("hp", (0, 0)))].
(* wet_simple_turbojet.py:10-106, design = False *)
Definition x_WetTurbojet_od : example := mkExample "WetTurbojet_od" CEA "wet_air" false
  [("fc", XFlight (Some ("Water", "WAR"))); ("inlet", XInlet); ("comp", XCompressor []); ("burner", XCombustor "JP-7"); ("turb", XTurbine []); ("nozz", XNozzle CD Cv)]
  [mkLink ("fc", "Fl_O") ("inlet", "Fl_I") true true false; mkLink ("inlet", "Fl_O") ("comp", "Fl_I") true true true; mkLink ("comp", "Fl_O") ("burner", "Fl_I") true true true; mkLink ("burner", "Fl_O") ("turb", "Fl_I") true true true; mkLink ("turb", "Fl_O") ("nozz", "Fl_I") true true true]
  [("comp.trq", "shaft.trq_0"); ("turb.trq", "shaft.trq_1"); ("fc.Fl_O:stat:P", "nozz.Ps_exhaust"); ("inlet.Fl_O:tot:P", "perf.Pt2"); ("comp.Fl_O:tot:P", "perf.Pt3"); ("burner.Wfuel", "perf.Wfuel_0"); ("inlet.F_ram", "perf.ram_drag"); ("nozz.Fg", "perf.Fg_0"); ("balance.FAR", "burner.Fl_I:FAR"); ("perf.Fn", "balance.lhs:FAR"); ("balance.Nmech", "Nmech"); ("shaft.pwr_net", "balance.lhs:Nmech"); ("balance.W", "inlet.Fl_I:stat:W"); ("nozz.Throat:stat:area", "balance.lhs:W")]
  [("comp", ("Nmech", "Nmech")); ("turb", ("Nmech", "Nmech")); ("shaft", ("Nmech", "Nmech"))]
  [("shaft", 2%nat)] [] [("perf", (1, 1)%nat)]
  (* not modelled: subsystems none; flow connections to them none *)
  [mkXBal "FAR" "" "lbf" "rhs:FAR" false; mkXBal "Nmech" "rpm" "hp" "rhs:Nmech" false; mkXBal "W" "lbm/s" "inch**2" "rhs:W" false] [("balance.rhs:Nmech", ("hp", (0, 0)))].
(* afterburning_turbojet.py:10-116, design = True *)
Definition x_ABTurbojet : example := mkExample "ABTurbojet" TABULAR "AIR_JETA_TAB_SPEC" true
  [("fc", XFlight None); ("inlet", XInlet); ("duct1", XDuct (0, 0)); ("comp", XCompressor ["cool1"; "cool2"]); ("burner", XCombustor "FAR"); ("turb", XTurbine ["cool1"; "cool2"]); ("ab", XCombustor "FAR"); ("nozz", XNozzle CD Cv)]
  [mkLink ("fc", "Fl_O") ("inlet", "Fl_I") true true false; mkLink ("inlet", "Fl_O") ("duct1", "Fl_I") false true true; mkLink ("duct1", "Fl_O") ("comp", "Fl_I") false true true; mkLink ("comp", "Fl_O") ("burner", "Fl_I") false true true; mkLink ("burner", "Fl_O") ("turb", "Fl_I") false true true; mkLink ("turb", "Fl_O") ("ab", "Fl_I") false true true; mkLink ("ab", "Fl_O") ("nozz", "Fl_I") false true true; mkLink ("comp", "cool1") ("turb", "cool1") false true true; mkLink ("comp", "cool2") ("turb", "cool2") false true true]
  [("duct1.Fl_O:tot:P", "perf.Pt2"); ("comp.Fl_O:tot:P", "perf.Pt3"); ("burner.Wfuel", "perf.Wfuel_0"); ("ab.Wfuel", "perf.Wfuel_1"); ("inlet.F_ram", "perf.ram_drag"); ("nozz.Fg", "perf.Fg_0"); ("comp.trq", "shaft.trq_0"); ("turb.trq", "shaft.trq_1"); ("fc.Fl_O:stat:P", "nozz.Ps_exhaust"); ("balance.W", "inlet.Fl_I:stat:W"); ("perf.Fn", "balance.lhs:W"); ("balance.FAR", "burner.Fl_I:FAR"); ("burner.Fl_O:tot:T", "balance.lhs:FAR"); ("balance.turb_PR", "turb.PR"); ("shaft.pwr_net", "balance.lhs:turb_PR")]
  [("comp", ("Nmech", "Nmech")); ("turb", ("Nmech", "Nmech")); ("shaft", ("Nmech", "Nmech"))]
  [("shaft", 2%nat)] [] [("perf", (1, 2)%nat)]
  (* not modelled: subsystems none; flow connections to them none *)
  [mkXBal "W" "lbm/s" "lbf" "rhs:W" false; mkXBal "FAR" "" "degR" "rhs:FAR" false; mkXBal "turb_PR" "" "hp" "rhs:turb_PR" false] [("balance.rhs:turb_PR", ("hp", (0, 0)))].
(* afterburning_turbojet.py:10-116, design = False *)
Definition x_ABTurbojet_od : example := mkExample "ABTurbojet_od" TABULAR "AIR_JETA_TAB_SPEC" false
  [("fc", XFlight None); ("inlet", XInlet); ("duct1", XDuct (0, 0)); ("comp", XCompressor ["cool1"; "cool2"]); ("burner", XCombustor "FAR"); ("turb", XTurbine ["cool1"; "cool2"]); ("ab", XCombustor "FAR"); ("nozz", XNozzle CD Cv)]
  [mkLink ("fc", "Fl_O") ("inlet", "Fl_I") true true false; mkLink ("inlet", "Fl_O") ("duct1", "Fl_I") false true true; mkLink ("duct1", "Fl_O") ("comp", "Fl_I") false true true; mkLink ("comp", "Fl_O") ("burner", "Fl_I") false true true; mkLink ("burner", "Fl_O") ("turb", "Fl_I") false true true; mkLink ("turb", "Fl_O") ("ab", "Fl_I") false true true; mkLink ("ab", "Fl_O") ("nozz", "Fl_I") false true true; mkLink ("comp", "cool1") ("turb", "cool1") false true true; mkLink ("comp", "cool2") ("turb", "cool2") false true true]
  [("duct1.Fl_O:tot:P", "perf.Pt2"); ("comp.Fl_O:tot:P", "perf.Pt3"); ("burner.Wfuel", "perf.Wfuel_0"); ("ab.Wfuel", "perf.Wfuel_1"); ("inlet.F_ram", "perf.ram_drag"); ("nozz.Fg", "perf.Fg_0"); ("comp.trq", "shaft.trq_0"); ("turb.trq", "shaft.trq_1"); ("fc.Fl_O:stat:P", "nozz.Ps_exhaust"); ("balance.FAR", "burner.Fl_I:FAR"); ("burner.Fl_O:tot:T", "balance.lhs:FAR"); ("balance.Nmech", "Nmech"); ("shaft.pwr_in", "balance.lhs:Nmech"); ("shaft.pwr_out", "balance.rhs:Nmech"); ("balance.W", "inlet.Fl_I:stat:W"); ("comp.map.RlineMap", "balance.lhs:W")]
  [("comp", ("Nmech", "Nmech")); ("turb", ("Nmech", "Nmech")); ("shaft", ("Nmech", "Nmech"))]
  [("shaft", 2%nat)] [] [("perf", (1, 2)%nat)]
  (* not modelled: subsystems none; flow connections to them none *)
  [mkXBal "FAR" "" "degR" "rhs:FAR" false; mkXBal "Nmech" "rpm" "hp" "rhs:Nmech" true; mkXBal "W" "lbm/s" "" "rhs:W" false] [("balance.mult:Nmech", ("", (-1, 0))); ("balance.rhs:W", ("", (2, 0)))].
(* electric_propulsor.py:15-96, design = True *)
Definition x_Propulsor : example := mkExample "Propulsor" TABULAR "AIR_JETA_TAB_SPEC" true
  [("fc", XFlight None); ("inlet", XInlet); ("fan", XCompressor []); ("nozz", XNozzle CV Cv)]
  [mkLink ("fc", "Fl_O") ("inlet", "Fl_I") true true true; mkLink ("inlet", "Fl_O") ("fan", "Fl_I") true true true; mkLink ("fan", "Fl_O") ("nozz", "Fl_I") true true true]
  [("shaft.Nmech", "fan.Nmech"); ("fan.power", "balance.lhs:W"); ("fc.Fl_O:stat:P", "nozz.Ps_exhaust"); ("inlet.Fl_O:tot:P", "perf.Pt2"); ("fan.Fl_O:tot:P", "perf.Pt3"); ("inlet.F_ram", "perf.ram_drag"); ("nozz.Fg", "perf.Fg_0"); ("balance.W", "fc.W")]
  [("balance", ("rhs:W", "pwr_target"))]
  [] [] [("perf", (1, 0)%nat)]
  (* not modelled: subsystems shaft (IndepVarComp); flow connections to them none *)
  [mkXBal "W" "lbm/s" "hp" "rhs:W" false] [].
(* electric_propulsor.py:15-96, design = False *)
Definition x_Propulsor_od : example := mkExample "Propulsor_od" TABULAR "AIR_JETA_TAB_SPEC" false
  [("fc", XFlight None); ("inlet", XInlet); ("fan", XCompressor []); ("nozz", XNozzle CV Cv)]
  [mkLink ("fc", "Fl_O") ("inlet", "Fl_I") true true true; mkLink ("inlet", "Fl_O") ("fan", "Fl_I") true true true; mkLink ("fan", "Fl_O") ("nozz", "Fl_I") true true true]
  [("nozz.Throat:stat:area", "balance.lhs:W"); ("balance.Nmech", "fan.Nmech"); ("fan.power", "balance.lhs:Nmech"); ("fc.Fl_O:stat:P", "nozz.Ps_exhaust"); ("inlet.Fl_O:tot:P", "perf.Pt2"); ("fan.Fl_O:tot:P", "perf.Pt3"); ("inlet.F_ram", "perf.ram_drag"); ("nozz.Fg", "perf.Fg_0"); ("balance.W", "fc.W")]
  [("balance", ("rhs:Nmech", "pwr_target"))]
  [] [] [("perf", (1, 0)%nat)]
  (* not modelled: subsystems none; flow connections to them none *)
  [mkXBal "W" "lbm/s" "inch**2" "rhs:W" false; mkXBal "Nmech" "rpm" "hp" "rhs:Nmech" false] [].
(* wet_propulsor.py:8-86, design = True *)
Definition x_WetPropulsor : example := mkExample "WetPropulsor" CEA "wet_air" true
  [("fc", XFlight (Some ("Water", "WAR"))); ("inlet", XInlet); ("fan", XCompressor []); ("nozz", XNozzle CV Cv)]
  [mkLink ("fc", "Fl_O") ("inlet", "Fl_I") true true true; mkLink ("inlet", "Fl_O") ("fan", "Fl_I") true true true; mkLink ("fan", "Fl_O") ("nozz", "Fl_I") true true true]
  [("shaft.Nmech", "fan.Nmech"); ("fan.power", "balance.lhs:W"); ("fc.Fl_O:stat:P", "nozz.Ps_exhaust"); ("inlet.Fl_O:tot:P", "perf.Pt2"); ("fan.Fl_O:tot:P", "perf.Pt3"); ("inlet.F_ram", "perf.ram_drag"); ("nozz.Fg", "perf.Fg_0"); ("balance.W", "fc.W")]
  [("balance", ("rhs:W", "pwr_target"))]
  [] [] [("perf", (1, 0)%nat)]
  (* not modelled: subsystems shaft (IndepVarComp); flow connections to them none *)
  [mkXBal "W" "lbm/s" "hp" "rhs:W" false] [].
(* wet_propulsor.py:8-86, design = False *)
Definition x_WetPropulsor_od : example := mkExample "WetPropulsor_od" CEA "wet_air" false
  [("fc", XFlight (Some ("Water", "WAR"))); ("inlet", XInlet); ("fan", XCompressor []); ("nozz", XNozzle CV Cv)]
  [mkLink ("fc", "Fl_O") ("inlet", "Fl_I") true true true; mkLink ("inlet", "Fl_O") ("fan", "Fl_I") true true true; mkLink ("fan", "Fl_O") ("nozz", "Fl_I") true true true]
  [("nozz.Throat:stat:area", "balance.lhs:W"); ("balance.Nmech", "fan.Nmech"); ("fan.power", "balance.lhs:Nmech"); ("fc.Fl_O:stat:P", "nozz.Ps_exhaust"); ("inlet.Fl_O:tot:P", "perf.Pt2"); ("fan.Fl_O:tot:P", "perf.Pt3"); ("inlet.F_ram", "perf.ram_drag"); ("nozz.Fg", "perf.Fg_0"); ("balance.W", "fc.W")]
  [("balance", ("rhs:Nmech", "pwr_target"))]
  [] [] [("perf", (1, 0)%nat)]
  (* not modelled: subsystems none; flow connections to them none *)
  [mkXBal "W" "lbm/s" "inch**2" "rhs:W" false; mkXBal "Nmech" "rpm" "hp" "rhs:Nmech" false] [].
(* single_spool_turboshaft.py:9-116, design = True *)
Definition x_SingleSpoolTurboshaft : example := mkExample "SingleSpoolTurboshaft" CEA "janaf" true
  [("fc", XFlight None); ("inlet", XInlet); ("comp", XCompressor []); ("burner", XCombustor "JP-7"); ("turb", XTurbine []); ("pt", XTurbine []); ("nozz", XNozzle CV Cv)]
  [mkLink ("fc", "Fl_O") ("inlet", "Fl_I") true true false; mkLink ("inlet", "Fl_O") ("comp", "Fl_I") true true true; mkLink ("comp", "Fl_O") ("burner", "Fl_I") true true true; mkLink ("burner", "Fl_O") ("turb", "Fl_I") true true true; mkLink ("turb", "Fl_O") ("pt", "Fl_I") true true true; mkLink ("pt", "Fl_O") ("nozz", "Fl_I") true true true]
  [("comp.trq", "HP_shaft.trq_0"); ("turb.trq", "HP_shaft.trq_1"); ("pt.trq", "LP_shaft.trq_0"); ("fc.Fl_O:stat:P", "nozz.Ps_exhaust"); ("inlet.Fl_O:tot:P", "perf.Pt2"); ("comp.Fl_O:tot:P", "perf.Pt3"); ("burner.Wfuel", "perf.Wfuel_0"); ("inlet.F_ram", "perf.ram_drag"); ("nozz.Fg", "perf.Fg_0"); ("LP_shaft.pwr_net", "perf.power"); ("balance.W", "inlet.Fl_I:stat:W"); ("nozz.PR", "balance.lhs:W"); ("balance.FAR", "burner.Fl_I:FAR"); ("burner.Fl_O:tot:T", "balance.lhs:FAR"); ("balance.turb_PR", "turb.PR"); ("HP_shaft.pwr_net", "balance.lhs:turb_PR"); ("balance.pt_PR", "pt.PR"); ("LP_shaft.pwr_net", "balance.lhs:pt_PR")]
  [("comp", ("Nmech", "HP_Nmech")); ("turb", ("Nmech", "HP_Nmech")); ("pt", ("Nmech", "LP_Nmech")); ("HP_shaft", ("Nmech", "HP_Nmech")); ("LP_shaft", ("Nmech", "LP_Nmech"))]
  [("HP_shaft", 2%nat); ("LP_shaft", 1%nat)] [] [("perf", (1, 1)%nat)]
  (* not modelled: subsystems none; flow connections to them none *)
  [mkXBal "W" "lbm/s" "" "nozz_PR_target" false; mkXBal "FAR" "" "degR" "T4_target" false; mkXBal "turb_PR" "" "hp" "rhs:turb_PR" false; mkXBal "pt_PR" "" "hp" "pwr_target" false] [("balance.rhs:turb_PR", ("hp", (0, 0)))].
(* single_spool_turboshaft.py:9-116, design = False *)
Definition x_SingleSpoolTurboshaft_od : example := mkExample "SingleSpoolTurboshaft_od" CEA "janaf" false
  [("fc", XFlight None); ("inlet", XInlet); ("comp", XCompressor []); ("burner", XCombustor "JP-7"); ("turb", XTurbine []); ("pt", XTurbine []); ("nozz", XNozzle CV Cv)]
  [mkLink ("fc", "Fl_O") ("inlet", "Fl_I") true true false; mkLink ("inlet", "Fl_O") ("comp", "Fl_I") true true true; mkLink ("comp", "Fl_O") ("burner", "Fl_I") true true true; mkLink ("burner", "Fl_O") ("turb", "Fl_I") true true true; mkLink ("turb", "Fl_O") ("pt", "Fl_I") true true true; mkLink ("pt", "Fl_O") ("nozz", "Fl_I") true true true]
  [("comp.trq", "HP_shaft.trq_0"); ("turb.trq", "HP_shaft.trq_1"); ("pt.trq", "LP_shaft.trq_0"); ("fc.Fl_O:stat:P", "nozz.Ps_exhaust"); ("inlet.Fl_O:tot:P", "perf.Pt2"); ("comp.Fl_O:tot:P", "perf.Pt3"); ("burner.Wfuel", "perf.Wfuel_0"); ("inlet.F_ram", "perf.ram_drag"); ("nozz.Fg", "perf.Fg_0"); ("LP_shaft.pwr_net", "perf.power"); ("balance.FAR", "burner.Fl_I:FAR"); ("LP_shaft.pwr_net", "balance.lhs:FAR"); ("balance.HP_Nmech", "HP_Nmech"); ("HP_shaft.pwr_net", "balance.lhs:HP_Nmech"); ("balance.W", "inlet.Fl_I:stat:W"); ("nozz.Throat:stat:area", "balance.lhs:W")]
  [("comp", ("Nmech", "HP_Nmech")); ("turb", ("Nmech", "HP_Nmech")); ("pt", ("Nmech", "LP_Nmech")); ("HP_shaft", ("Nmech", "HP_Nmech")); ("LP_shaft", ("Nmech", "LP_Nmech"))]
  [("HP_shaft", 2%nat); ("LP_shaft", 1%nat)] [] [("perf", (1, 1)%nat)]
  (* not modelled: subsystems none; flow connections to them none *)
  [mkXBal "FAR" "" "hp" "pwr_target" false; mkXBal "HP_Nmech" "rpm" "hp" "rhs:HP_Nmech" false; mkXBal "W" "lbm/s" "inch**2" "rhs:W" false] [("balance.rhs:HP_Nmech", ("hp", (0, 0)))].
(* multi_spool_turboshaft.py:15-145, design = True *)
Definition x_MultiSpoolTurboshaft : example := mkExample "MultiSpoolTurboshaft" CEA "janaf" true
  [("fc", XFlight None); ("inlet", XInlet); ("duct1", XDuct (0, 0)); ("lpc", XCompressor []); ("icduct", XDuct (0, 0)); ("hpc_axi", XCompressor []); ("bld25", XBleedOut ["cool1"; "cool2"]); ("hpc_centri", XCompressor []); ("bld3", XBleedOut ["cool3"; "cool4"]); ("duct6", XDuct (0, 0)); ("burner", XCombustor "Jet-A(g)"); ("hpt", XTurbine ["cool3"; "cool4"]); ("duct43", XDuct (0, 0)); ("lpt", XTurbine ["cool1"; "cool2"]); ("itduct", XDuct (0, 0)); ("pt", XTurbine []); ("duct12", XDuct (0, 0)); ("nozzle", XNozzle CV Cv)]
  [mkLink ("fc", "Fl_O") ("inlet", "Fl_I") true true false; mkLink ("inlet", "Fl_O") ("duct1", "Fl_I") true true true; mkLink ("duct1", "Fl_O") ("lpc", "Fl_I") true true true; mkLink ("lpc", "Fl_O") ("icduct", "Fl_I") true true true; mkLink ("icduct", "Fl_O") ("hpc_axi", "Fl_I") true true true; mkLink ("hpc_axi", "Fl_O") ("bld25", "Fl_I") true true true; mkLink ("bld25", "Fl_O") ("hpc_centri", "Fl_I") true true true; mkLink ("hpc_centri", "Fl_O") ("bld3", "Fl_I") true true true; mkLink ("bld3", "Fl_O") ("duct6", "Fl_I") true true true; mkLink ("duct6", "Fl_O") ("burner", "Fl_I") true true true; mkLink ("burner", "Fl_O") ("hpt", "Fl_I") true true true; mkLink ("hpt", "Fl_O") ("duct43", "Fl_I") true true true; mkLink ("duct43", "Fl_O") ("lpt", "Fl_I") true true true; mkLink ("lpt", "Fl_O") ("itduct", "Fl_I") true true true; mkLink ("itduct", "Fl_O") ("pt", "Fl_I") true true true; mkLink ("pt", "Fl_O") ("duct12", "Fl_I") true true true; mkLink ("duct12", "Fl_O") ("nozzle", "Fl_I") true true true; mkLink ("bld25", "cool1") ("lpt", "cool1") false true true; mkLink ("bld25", "cool2") ("lpt", "cool2") false true true; mkLink ("bld3", "cool3") ("hpt", "cool3") false true true; mkLink ("bld3", "cool4") ("hpt", "cool4") false true true]
  [("duct1.Fl_O:tot:P", "perf.Pt2"); ("hpc_centri.Fl_O:tot:P", "perf.Pt3"); ("burner.Wfuel", "perf.Wfuel_0"); ("inlet.F_ram", "perf.ram_drag"); ("nozzle.Fg", "perf.Fg_0"); ("lp_shaft.pwr_in", "perf.power"); ("pt.trq", "lp_shaft.trq_0"); ("lpc.trq", "ip_shaft.trq_0"); ("lpt.trq", "ip_shaft.trq_1"); ("hpc_axi.trq", "hp_shaft.trq_0"); ("hpc_centri.trq", "hp_shaft.trq_1"); ("hpt.trq", "hp_shaft.trq_2"); ("fc.Fl_O:stat:P", "nozzle.Ps_exhaust"); ("balance.W", "inlet.Fl_I:stat:W"); ("nozzle.PR", "balance.lhs:W"); ("balance.FAR", "burner.Fl_I:FAR"); ("burner.Fl_O:tot:T", "balance.lhs:FAR"); ("balance.lpt_PR", "lpt.PR"); ("ip_shaft.pwr_net", "balance.lhs:lpt_PR"); ("balance.hpt_PR", "hpt.PR"); ("hp_shaft.pwr_net", "balance.lhs:hpt_PR"); ("balance.pt_PR", "pt.PR"); ("lp_shaft.pwr_net", "balance.lhs:pt_PR")]
  [("lpc", ("Nmech", "IP_Nmech")); ("hpc_axi", ("Nmech", "HP_Nmech")); ("hpc_centri", ("Nmech", "HP_Nmech")); ("hpt", ("Nmech", "HP_Nmech")); ("lpt", ("Nmech", "IP_Nmech")); ("pt", ("Nmech", "LP_Nmech")); ("lp_shaft", ("Nmech", "LP_Nmech")); ("ip_shaft", ("Nmech", "IP_Nmech")); ("hp_shaft", ("Nmech", "HP_Nmech"))]
  [("lp_shaft", 1%nat); ("ip_shaft", 2%nat); ("hp_shaft", 3%nat)] [] [("perf", (1, 1)%nat)]
  (* not modelled: subsystems none; flow connections to them none *)
  [mkXBal "W" "lbm/s" "" "rhs:W" false; mkXBal "FAR" "" "degR" "rhs:FAR" false; mkXBal "lpt_PR" "" "hp" "rhs:lpt_PR" false; mkXBal "hpt_PR" "" "hp" "rhs:hpt_PR" false; mkXBal "pt_PR" "" "hp" "rhs:pt_PR" false] [("balance.rhs:lpt_PR", ("hp", (0, 0))); ("balance.rhs:hpt_PR", ("hp", (0, 0))); ("balance.rhs:pt_PR", ("hp", (0, 0)))].
(* multi_spool_turboshaft.py:15-145, design = False *)
Definition x_MultiSpoolTurboshaft_od : example := mkExample "MultiSpoolTurboshaft_od" CEA "janaf" false
  [("fc", XFlight None); ("inlet", XInlet); ("duct1", XDuct (0, 0)); ("lpc", XCompressor []); ("icduct", XDuct (0, 0)); ("hpc_axi", XCompressor []); ("bld25", XBleedOut ["cool1"; "cool2"]); ("hpc_centri", XCompressor []); ("bld3", XBleedOut ["cool3"; "cool4"]); ("duct6", XDuct (0, 0)); ("burner", XCombustor "Jet-A(g)"); ("hpt", XTurbine ["cool3"; "cool4"]); ("duct43", XDuct (0, 0)); ("lpt", XTurbine ["cool1"; "cool2"]); ("itduct", XDuct (0, 0)); ("pt", XTurbine []); ("duct12", XDuct (0, 0)); ("nozzle", XNozzle CV Cv)]
  [mkLink ("fc", "Fl_O") ("inlet", "Fl_I") true true false; mkLink ("inlet", "Fl_O") ("duct1", "Fl_I") true true true; mkLink ("duct1", "Fl_O") ("lpc", "Fl_I") true true true; mkLink ("lpc", "Fl_O") ("icduct", "Fl_I") true true true; mkLink ("icduct", "Fl_O") ("hpc_axi", "Fl_I") true true true; mkLink ("hpc_axi", "Fl_O") ("bld25", "Fl_I") true true true; mkLink ("bld25", "Fl_O") ("hpc_centri", "Fl_I") true true true; mkLink ("hpc_centri", "Fl_O") ("bld3", "Fl_I") true true true; mkLink ("bld3", "Fl_O") ("duct6", "Fl_I") true true true; mkLink ("duct6", "Fl_O") ("burner", "Fl_I") true true true; mkLink ("burner", "Fl_O") ("hpt", "Fl_I") true true true; mkLink ("hpt", "Fl_O") ("duct43", "Fl_I") true true true; mkLink ("duct43", "Fl_O") ("lpt", "Fl_I") true true true; mkLink ("lpt", "Fl_O") ("itduct", "Fl_I") true true true; mkLink ("itduct", "Fl_O") ("pt", "Fl_I") true true true; mkLink ("pt", "Fl_O") ("duct12", "Fl_I") true true true; mkLink ("duct12", "Fl_O") ("nozzle", "Fl_I") true true true; mkLink ("bld25", "cool1") ("lpt", "cool1") false true true; mkLink ("bld25", "cool2") ("lpt", "cool2") false true true; mkLink ("bld3", "cool3") ("hpt", "cool3") false true true; mkLink ("bld3", "cool4") ("hpt", "cool4") false true true]
  [("duct1.Fl_O:tot:P", "perf.Pt2"); ("hpc_centri.Fl_O:tot:P", "perf.Pt3"); ("burner.Wfuel", "perf.Wfuel_0"); ("inlet.F_ram", "perf.ram_drag"); ("nozzle.Fg", "perf.Fg_0"); ("lp_shaft.pwr_in", "perf.power"); ("pt.trq", "lp_shaft.trq_0"); ("lpc.trq", "ip_shaft.trq_0"); ("lpt.trq", "ip_shaft.trq_1"); ("hpc_axi.trq", "hp_shaft.trq_0"); ("hpc_centri.trq", "hp_shaft.trq_1"); ("hpt.trq", "hp_shaft.trq_2"); ("fc.Fl_O:stat:P", "nozzle.Ps_exhaust"); ("balance.FAR", "burner.Fl_I:FAR"); ("lp_shaft.pwr_net", "balance.lhs:FAR"); ("balance.W", "inlet.Fl_I:stat:W"); ("nozzle.Throat:stat:area", "balance.lhs:W"); ("balance.IP_Nmech", "IP_Nmech"); ("ip_shaft.pwr_net", "balance.lhs:IP_Nmech"); ("balance.HP_Nmech", "HP_Nmech"); ("hp_shaft.pwr_net", "balance.lhs:HP_Nmech")]
  [("lpc", ("Nmech", "IP_Nmech")); ("hpc_axi", ("Nmech", "HP_Nmech")); ("hpc_centri", ("Nmech", "HP_Nmech")); ("hpt", ("Nmech", "HP_Nmech")); ("lpt", ("Nmech", "IP_Nmech")); ("pt", ("Nmech", "LP_Nmech")); ("lp_shaft", ("Nmech", "LP_Nmech")); ("ip_shaft", ("Nmech", "IP_Nmech")); ("hp_shaft", ("Nmech", "HP_Nmech"))]
  [("lp_shaft", 1%nat); ("ip_shaft", 2%nat); ("hp_shaft", 3%nat)] [] [("perf", (1, 1)%nat)]
  (* not modelled: subsystems none; flow connections to them none *)
  [mkXBal "FAR" "" "hp" "rhs:FAR" false; mkXBal "W" "lbm/s" "inch**2" "rhs:W" false; mkXBal "IP_Nmech" "rpm" "hp" "rhs:IP_Nmech" false; mkXBal "HP_Nmech" "rpm" "hp" "rhs:HP_Nmech" false] [("balance.rhs:IP_Nmech", ("hp", (0, 0))); ("balance.rhs:HP_Nmech", ("hp", (0, 0)))].
(* high_bypass_turbofan.py:19-230, design = True, throttle_mode = 'T4' *)
Definition x_HBTF : example := mkExample "HBTF" CEA "janaf" true
  [("fc", XFlight None); ("inlet", XInlet); ("fan", XCompressor []); ("splitter", XSplitter); ("duct4", XDuct (0, 0)); ("lpc", XCompressor []); ("duct6", XDuct (0, 0)); ("hpc", XCompressor ["cool1"; "cool2"; "cust"]); ("bld3", XBleedOut ["cool3"; "cool4"]); ("burner", XCombustor "Jet-A(g)"); ("hpt", XTurbine ["cool3"; "cool4"]); ("duct11", XDuct (0, 0)); ("lpt", XTurbine ["cool1"; "cool2"]); ("duct13", XDuct (0, 0)); ("core_nozz", XNozzle CV Cv); ("byp_bld", XBleedOut ["bypBld"]); ("duct15", XDuct (0, 0)); ("byp_nozz", XNozzle CV Cv)]
  [mkLink ("fc", "Fl_O") ("inlet", "Fl_I") true true true; mkLink ("inlet", "Fl_O") ("fan", "Fl_I") true true true; mkLink ("fan", "Fl_O") ("splitter", "Fl_I") true true true; mkLink ("splitter", "Fl_O1") ("duct4", "Fl_I") true true true; mkLink ("duct4", "Fl_O") ("lpc", "Fl_I") true true true; mkLink ("lpc", "Fl_O") ("duct6", "Fl_I") true true true; mkLink ("duct6", "Fl_O") ("hpc", "Fl_I") true true true; mkLink ("hpc", "Fl_O") ("bld3", "Fl_I") true true true; mkLink ("bld3", "Fl_O") ("burner", "Fl_I") true true true; mkLink ("burner", "Fl_O") ("hpt", "Fl_I") true true true; mkLink ("hpt", "Fl_O") ("duct11", "Fl_I") true true true; mkLink ("duct11", "Fl_O") ("lpt", "Fl_I") true true true; mkLink ("lpt", "Fl_O") ("duct13", "Fl_I") true true true; mkLink ("duct13", "Fl_O") ("core_nozz", "Fl_I") true true true; mkLink ("splitter", "Fl_O2") ("byp_bld", "Fl_I") true true true; mkLink ("byp_bld", "Fl_O") ("duct15", "Fl_I") true true true; mkLink ("duct15", "Fl_O") ("byp_nozz", "Fl_I") true true true; mkLink ("hpc", "cool1") ("lpt", "cool1") false true true; mkLink ("hpc", "cool2") ("lpt", "cool2") false true true; mkLink ("bld3", "cool3") ("hpt", "cool3") false true true; mkLink ("bld3", "cool4") ("hpt", "cool4") false true true]
  [("inlet.Fl_O:tot:P", "perf.Pt2"); ("hpc.Fl_O:tot:P", "perf.Pt3"); ("burner.Wfuel", "perf.Wfuel_0"); ("inlet.F_ram", "perf.ram_drag"); ("core_nozz.Fg", "perf.Fg_0"); ("byp_nozz.Fg", "perf.Fg_1"); ("fan.trq", "lp_shaft.trq_0"); ("lpc.trq", "lp_shaft.trq_1"); ("lpt.trq", "lp_shaft.trq_2"); ("hpc.trq", "hp_shaft.trq_0"); ("hpt.trq", "hp_shaft.trq_1"); ("fc.Fl_O:stat:P", "core_nozz.Ps_exhaust"); ("fc.Fl_O:stat:P", "byp_nozz.Ps_exhaust"); ("balance.W", "fc.W"); ("perf.Fn", "balance.lhs:W"); ("balance.FAR", "burner.Fl_I:FAR"); ("burner.Fl_O:tot:T", "balance.lhs:FAR"); ("balance.lpt_PR", "lpt.PR"); ("lp_shaft.pwr_in_real", "balance.lhs:lpt_PR"); ("lp_shaft.pwr_out_real", "balance.rhs:lpt_PR"); ("balance.hpt_PR", "hpt.PR"); ("hp_shaft.pwr_in_real", "balance.lhs:hpt_PR"); ("hp_shaft.pwr_out_real", "balance.rhs:hpt_PR")]
  [("fan", ("Nmech", "LP_Nmech")); ("lpc", ("Nmech", "LP_Nmech")); ("hpc", ("Nmech", "HP_Nmech")); ("hpt", ("Nmech", "HP_Nmech")); ("lpt", ("Nmech", "LP_Nmech")); ("lp_shaft", ("Nmech", "LP_Nmech")); ("hp_shaft", ("Nmech", "HP_Nmech")); ("balance", ("rhs:W", "Fn_DES")); ("balance", ("rhs:FAR", "T4_MAX"))]
  [("lp_shaft", 3%nat); ("hp_shaft", 2%nat)] [] [("perf", (2, 1)%nat)]
  (* not modelled: subsystems none; flow connections to them none *)
  [mkXBal "W" "lbm/s" "lbf" "rhs:W" false; mkXBal "FAR" "" "degR" "rhs:FAR" false; mkXBal "lpt_PR" "" "hp" "rhs:lpt_PR" true; mkXBal "hpt_PR" "" "hp" "rhs:hpt_PR" true] [("balance.mult:lpt_PR", ("", (-1, 0))); ("balance.mult:hpt_PR", ("", (-1, 0)))].
(* high_bypass_turbofan.py:19-230, design = False, throttle_mode = 'T4' *)
Definition x_HBTF_od : example := mkExample "HBTF_od" CEA "janaf" false
  [("fc", XFlight None); ("inlet", XInlet); ("fan", XCompressor []); ("splitter", XSplitter); ("duct4", XDuct (0, 0)); ("lpc", XCompressor []); ("duct6", XDuct (0, 0)); ("hpc", XCompressor ["cool1"; "cool2"; "cust"]); ("bld3", XBleedOut ["cool3"; "cool4"]); ("burner", XCombustor "Jet-A(g)"); ("hpt", XTurbine ["cool3"; "cool4"]); ("duct11", XDuct (0, 0)); ("lpt", XTurbine ["cool1"; "cool2"]); ("duct13", XDuct (0, 0)); ("core_nozz", XNozzle CV Cv); ("byp_bld", XBleedOut ["bypBld"]); ("duct15", XDuct (0, 0)); ("byp_nozz", XNozzle CV Cv)]
  [mkLink ("fc", "Fl_O") ("inlet", "Fl_I") true true true; mkLink ("inlet", "Fl_O") ("fan", "Fl_I") true true true; mkLink ("fan", "Fl_O") ("splitter", "Fl_I") true true true; mkLink ("splitter", "Fl_O1") ("duct4", "Fl_I") true true true; mkLink ("duct4", "Fl_O") ("lpc", "Fl_I") true true true; mkLink ("lpc", "Fl_O") ("duct6", "Fl_I") true true true; mkLink ("duct6", "Fl_O") ("hpc", "Fl_I") true true true; mkLink ("hpc", "Fl_O") ("bld3", "Fl_I") true true true; mkLink ("bld3", "Fl_O") ("burner", "Fl_I") true true true; mkLink ("burner", "Fl_O") ("hpt", "Fl_I") true true true; mkLink ("hpt", "Fl_O") ("duct11", "Fl_I") true true true; mkLink ("duct11", "Fl_O") ("lpt", "Fl_I") true true true; mkLink ("lpt", "Fl_O") ("duct13", "Fl_I") true true true; mkLink ("duct13", "Fl_O") ("core_nozz", "Fl_I") true true true; mkLink ("splitter", "Fl_O2") ("byp_bld", "Fl_I") true true true; mkLink ("byp_bld", "Fl_O") ("duct15", "Fl_I") true true true; mkLink ("duct15", "Fl_O") ("byp_nozz", "Fl_I") true true true; mkLink ("hpc", "cool1") ("lpt", "cool1") false true true; mkLink ("hpc", "cool2") ("lpt", "cool2") false true true; mkLink ("bld3", "cool3") ("hpt", "cool3") false true true; mkLink ("bld3", "cool4") ("hpt", "cool4") false true true]
  [("inlet.Fl_O:tot:P", "perf.Pt2"); ("hpc.Fl_O:tot:P", "perf.Pt3"); ("burner.Wfuel", "perf.Wfuel_0"); ("inlet.F_ram", "perf.ram_drag"); ("core_nozz.Fg", "perf.Fg_0"); ("byp_nozz.Fg", "perf.Fg_1"); ("fan.trq", "lp_shaft.trq_0"); ("lpc.trq", "lp_shaft.trq_1"); ("lpt.trq", "lp_shaft.trq_2"); ("hpc.trq", "hp_shaft.trq_0"); ("hpt.trq", "hp_shaft.trq_1"); ("fc.Fl_O:stat:P", "core_nozz.Ps_exhaust"); ("fc.Fl_O:stat:P", "byp_nozz.Ps_exhaust"); ("balance.FAR", "burner.Fl_I:FAR"); ("burner.Fl_O:tot:T", "balance.lhs:FAR"); ("balance.W", "fc.W"); ("core_nozz.Throat:stat:area", "balance.lhs:W"); ("balance.BPR", "splitter.BPR"); ("byp_nozz.Throat:stat:area", "balance.lhs:BPR"); ("balance.lp_Nmech", "LP_Nmech"); ("lp_shaft.pwr_in_real", "balance.lhs:lp_Nmech"); ("lp_shaft.pwr_out_real", "balance.rhs:lp_Nmech"); ("balance.hp_Nmech", "HP_Nmech"); ("hp_shaft.pwr_in_real", "balance.lhs:hp_Nmech"); ("hp_shaft.pwr_out_real", "balance.rhs:hp_Nmech")]
  [("fan", ("Nmech", "LP_Nmech")); ("lpc", ("Nmech", "LP_Nmech")); ("hpc", ("Nmech", "HP_Nmech")); ("hpt", ("Nmech", "HP_Nmech")); ("lpt", ("Nmech", "LP_Nmech")); ("lp_shaft", ("Nmech", "LP_Nmech")); ("hp_shaft", ("Nmech", "HP_Nmech")); ("balance", ("rhs:FAR", "T4_MAX"))]
  [("lp_shaft", 3%nat); ("hp_shaft", 2%nat)] [] [("perf", (2, 1)%nat)]
  (* not modelled: subsystems none; flow connections to them none *)
  [mkXBal "FAR" "" "degR" "rhs:FAR" false; mkXBal "W" "lbm/s" "inch**2" "rhs:W" false; mkXBal "BPR" "" "inch**2" "rhs:BPR" false; mkXBal "lp_Nmech" "rpm" "hp" "rhs:lp_Nmech" true; mkXBal "hp_Nmech" "rpm" "hp" "rhs:hp_Nmech" true] [("balance.mult:lp_Nmech", ("", (-1, 0))); ("balance.mult:hp_Nmech", ("", (-1, 0)))].
(* high_bypass_turbofan.py:19-230, design = False, throttle_mode = 'percent_thrust' *)
Definition x_HBTF_od_pc : example := mkExample "HBTF_od_pc" CEA "janaf" false
  [("fc", XFlight None); ("inlet", XInlet); ("fan", XCompressor []); ("splitter", XSplitter); ("duct4", XDuct (0, 0)); ("lpc", XCompressor []); ("duct6", XDuct (0, 0)); ("hpc", XCompressor ["cool1"; "cool2"; "cust"]); ("bld3", XBleedOut ["cool3"; "cool4"]); ("burner", XCombustor "Jet-A(g)"); ("hpt", XTurbine ["cool3"; "cool4"]); ("duct11", XDuct (0, 0)); ("lpt", XTurbine ["cool1"; "cool2"]); ("duct13", XDuct (0, 0)); ("core_nozz", XNozzle CV Cv); ("byp_bld", XBleedOut ["bypBld"]); ("duct15", XDuct (0, 0)); ("byp_nozz", XNozzle CV Cv)]
  [mkLink ("fc", "Fl_O") ("inlet", "Fl_I") true true true; mkLink ("inlet", "Fl_O") ("fan", "Fl_I") true true true; mkLink ("fan", "Fl_O") ("splitter", "Fl_I") true true true; mkLink ("splitter", "Fl_O1") ("duct4", "Fl_I") true true true; mkLink ("duct4", "Fl_O") ("lpc", "Fl_I") true true true; mkLink ("lpc", "Fl_O") ("duct6", "Fl_I") true true true; mkLink ("duct6", "Fl_O") ("hpc", "Fl_I") true true true; mkLink ("hpc", "Fl_O") ("bld3", "Fl_I") true true true; mkLink ("bld3", "Fl_O") ("burner", "Fl_I") true true true; mkLink ("burner", "Fl_O") ("hpt", "Fl_I") true true true; mkLink ("hpt", "Fl_O") ("duct11", "Fl_I") true true true; mkLink ("duct11", "Fl_O") ("lpt", "Fl_I") true true true; mkLink ("lpt", "Fl_O") ("duct13", "Fl_I") true true true; mkLink ("duct13", "Fl_O") ("core_nozz", "Fl_I") true true true; mkLink ("splitter", "Fl_O2") ("byp_bld", "Fl_I") true true true; mkLink ("byp_bld", "Fl_O") ("duct15", "Fl_I") true true true; mkLink ("duct15", "Fl_O") ("byp_nozz", "Fl_I") true true true; mkLink ("hpc", "cool1") ("lpt", "cool1") false true true; mkLink ("hpc", "cool2") ("lpt", "cool2") false true true; mkLink ("bld3", "cool3") ("hpt", "cool3") false true true; mkLink ("bld3", "cool4") ("hpt", "cool4") false true true]
  [("inlet.Fl_O:tot:P", "perf.Pt2"); ("hpc.Fl_O:tot:P", "perf.Pt3"); ("burner.Wfuel", "perf.Wfuel_0"); ("inlet.F_ram", "perf.ram_drag"); ("core_nozz.Fg", "perf.Fg_0"); ("byp_nozz.Fg", "perf.Fg_1"); ("fan.trq", "lp_shaft.trq_0"); ("lpc.trq", "lp_shaft.trq_1"); ("lpt.trq", "lp_shaft.trq_2"); ("hpc.trq", "hp_shaft.trq_0"); ("hpt.trq", "hp_shaft.trq_1"); ("fc.Fl_O:stat:P", "core_nozz.Ps_exhaust"); ("fc.Fl_O:stat:P", "byp_nozz.Ps_exhaust"); ("balance.FAR", "burner.Fl_I:FAR"); ("perf.Fn", "balance.rhs:FAR"); ("balance.W", "fc.W"); ("core_nozz.Throat:stat:area", "balance.lhs:W"); ("balance.BPR", "splitter.BPR"); ("byp_nozz.Throat:stat:area", "balance.lhs:BPR"); ("balance.lp_Nmech", "LP_Nmech"); ("lp_shaft.pwr_in_real", "balance.lhs:lp_Nmech"); ("lp_shaft.pwr_out_real", "balance.rhs:lp_Nmech"); ("balance.hp_Nmech", "HP_Nmech"); ("hp_shaft.pwr_in_real", "balance.lhs:hp_Nmech"); ("hp_shaft.pwr_out_real", "balance.rhs:hp_Nmech")]
  [("fan", ("Nmech", "LP_Nmech")); ("lpc", ("Nmech", "LP_Nmech")); ("hpc", ("Nmech", "HP_Nmech")); ("hpt", ("Nmech", "HP_Nmech")); ("lpt", ("Nmech", "LP_Nmech")); ("lp_shaft", ("Nmech", "LP_Nmech")); ("hp_shaft", ("Nmech", "HP_Nmech")); ("balance", ("mult:FAR", "PC")); ("balance", ("lhs:FAR", "Fn_max"))]
  [("lp_shaft", 3%nat); ("hp_shaft", 2%nat)] [] [("perf", (2, 1)%nat)]
  (* not modelled: subsystems none; flow connections to them none *)
  [mkXBal "FAR" "" "lbf" "rhs:FAR" true; mkXBal "W" "lbm/s" "inch**2" "rhs:W" false; mkXBal "BPR" "" "inch**2" "rhs:BPR" false; mkXBal "lp_Nmech" "rpm" "hp" "rhs:lp_Nmech" true; mkXBal "hp_Nmech" "rpm" "hp" "rhs:hp_Nmech" true] [("balance.mult:lp_Nmech", ("", (-1, 0))); ("balance.mult:hp_Nmech", ("", (-1, 0)))].
(* mixedflow_turbofan.py:11-192, design = True *)
Definition x_MixedFlowTurbofan : example := mkExample "MixedFlowTurbofan" CEA "janaf" true
  [("fc", XFlight None); ("inlet", XInlet); ("inlet_duct", XDuct (0, 0)); ("fan", XCompressor []); ("splitter", XSplitter); ("splitter_core_duct", XDuct (0, 0)); ("lpc", XCompressor []); ("lpc_duct", XDuct (0, 0)); ("hpc", XCompressor ["cool1"]); ("bld3", XBleedOut ["cool3"]); ("burner", XCombustor "Jet-A(g)"); ("hpt", XTurbine ["cool3"]); ("hpt_duct", XDuct (0, 0)); ("lpt", XTurbine ["cool1"]); ("lpt_duct", XDuct (0, 0)); ("bypass_duct", XDuct (0, 0)); ("mixer", XMixer true); ("mixer_duct", XDuct (0, 0)); ("afterburner", XCombustor "Jet-A(g)"); ("mixed_nozz", XNozzle CD Cfg)]
  [mkLink ("fc", "Fl_O") ("inlet", "Fl_I") true true true; mkLink ("inlet", "Fl_O") ("inlet_duct", "Fl_I") true true true; mkLink ("inlet_duct", "Fl_O") ("fan", "Fl_I") true true true; mkLink ("fan", "Fl_O") ("splitter", "Fl_I") true true true; mkLink ("splitter", "Fl_O1") ("splitter_core_duct", "Fl_I") true true true; mkLink ("splitter_core_duct", "Fl_O") ("lpc", "Fl_I") true true true; mkLink ("lpc", "Fl_O") ("lpc_duct", "Fl_I") true true true; mkLink ("lpc_duct", "Fl_O") ("hpc", "Fl_I") true true true; mkLink ("hpc", "Fl_O") ("bld3", "Fl_I") true true true; mkLink ("bld3", "Fl_O") ("burner", "Fl_I") true true true; mkLink ("burner", "Fl_O") ("hpt", "Fl_I") true true true; mkLink ("hpt", "Fl_O") ("hpt_duct", "Fl_I") true true true; mkLink ("hpt_duct", "Fl_O") ("lpt", "Fl_I") true true true; mkLink ("lpt", "Fl_O") ("lpt_duct", "Fl_I") true true true; mkLink ("lpt_duct", "Fl_O") ("mixer", "Fl_I1") true true true; mkLink ("splitter", "Fl_O2") ("bypass_duct", "Fl_I") true true true; mkLink ("bypass_duct", "Fl_O") ("mixer", "Fl_I2") true true true; mkLink ("mixer", "Fl_O") ("mixer_duct", "Fl_I") true true true; mkLink ("mixer_duct", "Fl_O") ("afterburner", "Fl_I") true true true; mkLink ("afterburner", "Fl_O") ("mixed_nozz", "Fl_I") true true true; mkLink ("hpc", "cool1") ("lpt", "cool1") false true true; mkLink ("bld3", "cool3") ("hpt", "cool3") false true true]
  [("inlet.Fl_O:tot:P", "perf.Pt2"); ("hpc.Fl_O:tot:P", "perf.Pt3"); ("burner.Wfuel", "perf.Wfuel_0"); ("afterburner.Wfuel", "perf.Wfuel_1"); ("inlet.F_ram", "perf.ram_drag"); ("mixed_nozz.Fg", "perf.Fg_0"); ("fan.trq", "lp_shaft.trq_0"); ("lpc.trq", "lp_shaft.trq_1"); ("lpt.trq", "lp_shaft.trq_2"); ("hpc.trq", "hp_shaft.trq_0"); ("hpt.trq", "hp_shaft.trq_1"); ("fc.Fl_O:stat:P", "mixed_nozz.Ps_exhaust"); ("balance.W", "fc.W"); ("perf.Fn", "balance.lhs:W"); ("balance.BPR", "splitter.BPR"); ("mixer.ER", "balance.lhs:BPR"); ("balance.FAR_core", "burner.Fl_I:FAR"); ("burner.Fl_O:tot:T", "balance.lhs:FAR_core"); ("balance.FAR_ab", "afterburner.Fl_I:FAR"); ("afterburner.Fl_O:tot:T", "balance.lhs:FAR_ab"); ("balance.lpt_PR", "lpt.PR"); ("lp_shaft.pwr_in", "balance.lhs:lpt_PR"); ("lp_shaft.pwr_out", "balance.rhs:lpt_PR"); ("balance.hpt_PR", "hpt.PR"); ("hp_shaft.pwr_in", "balance.lhs:hpt_PR"); ("hp_shaft.pwr_out", "balance.rhs:hpt_PR")]
  [("fan", ("Nmech", "LP_Nmech")); ("lpc", ("Nmech", "LP_Nmech")); ("hpc", ("Nmech", "HP_Nmech")); ("hpt", ("Nmech", "HP_Nmech")); ("lpt", ("Nmech", "LP_Nmech")); ("lp_shaft", ("Nmech", "LP_Nmech")); ("hp_shaft", ("Nmech", "HP_Nmech"))]
  [("lp_shaft", 3%nat); ("hp_shaft", 2%nat)] [] [("perf", (1, 2)%nat)]
  (* not modelled: subsystems none; flow connections to them none *)
  [mkXBal "W" "lbm/s" "lbf" "rhs:W" false; mkXBal "BPR" "" "" "rhs:BPR" false; mkXBal "FAR_core" "" "degR" "rhs:FAR_core" false; mkXBal "FAR_ab" "" "degR" "rhs:FAR_ab" false; mkXBal "lpt_PR" "" "hp" "rhs:lpt_PR" true; mkXBal "hpt_PR" "" "hp" "rhs:hpt_PR" true] [("balance.mult:lpt_PR", ("", (-1, 0))); ("balance.mult:hpt_PR", ("", (-1, 0)))].
(* mixedflow_turbofan.py:11-192, design = False *)
Definition x_MixedFlowTurbofan_od : example := mkExample "MixedFlowTurbofan_od" CEA "janaf" false
  [("fc", XFlight None); ("inlet", XInlet); ("inlet_duct", XDuct (0, 0)); ("fan", XCompressor []); ("splitter", XSplitter); ("splitter_core_duct", XDuct (0, 0)); ("lpc", XCompressor []); ("lpc_duct", XDuct (0, 0)); ("hpc", XCompressor ["cool1"]); ("bld3", XBleedOut ["cool3"]); ("burner", XCombustor "Jet-A(g)"); ("hpt", XTurbine ["cool3"]); ("hpt_duct", XDuct (0, 0)); ("lpt", XTurbine ["cool1"]); ("lpt_duct", XDuct (0, 0)); ("bypass_duct", XDuct (0, 0)); ("mixer", XMixer true); ("mixer_duct", XDuct (0, 0)); ("afterburner", XCombustor "Jet-A(g)"); ("mixed_nozz", XNozzle CD Cfg)]
  [mkLink ("fc", "Fl_O") ("inlet", "Fl_I") true true true; mkLink ("inlet", "Fl_O") ("inlet_duct", "Fl_I") true true true; mkLink ("inlet_duct", "Fl_O") ("fan", "Fl_I") true true true; mkLink ("fan", "Fl_O") ("splitter", "Fl_I") true true true; mkLink ("splitter", "Fl_O1") ("splitter_core_duct", "Fl_I") true true true; mkLink ("splitter_core_duct", "Fl_O") ("lpc", "Fl_I") true true true; mkLink ("lpc", "Fl_O") ("lpc_duct", "Fl_I") true true true; mkLink ("lpc_duct", "Fl_O") ("hpc", "Fl_I") true true true; mkLink ("hpc", "Fl_O") ("bld3", "Fl_I") true true true; mkLink ("bld3", "Fl_O") ("burner", "Fl_I") true true true; mkLink ("burner", "Fl_O") ("hpt", "Fl_I") true true true; mkLink ("hpt", "Fl_O") ("hpt_duct", "Fl_I") true true true; mkLink ("hpt_duct", "Fl_O") ("lpt", "Fl_I") true true true; mkLink ("lpt", "Fl_O") ("lpt_duct", "Fl_I") true true true; mkLink ("lpt_duct", "Fl_O") ("mixer", "Fl_I1") true true true; mkLink ("splitter", "Fl_O2") ("bypass_duct", "Fl_I") true true true; mkLink ("bypass_duct", "Fl_O") ("mixer", "Fl_I2") true true true; mkLink ("mixer", "Fl_O") ("mixer_duct", "Fl_I") true true true; mkLink ("mixer_duct", "Fl_O") ("afterburner", "Fl_I") true true true; mkLink ("afterburner", "Fl_O") ("mixed_nozz", "Fl_I") true true true; mkLink ("hpc", "cool1") ("lpt", "cool1") false true true; mkLink ("bld3", "cool3") ("hpt", "cool3") false true true]
  [("inlet.Fl_O:tot:P", "perf.Pt2"); ("hpc.Fl_O:tot:P", "perf.Pt3"); ("burner.Wfuel", "perf.Wfuel_0"); ("afterburner.Wfuel", "perf.Wfuel_1"); ("inlet.F_ram", "perf.ram_drag"); ("mixed_nozz.Fg", "perf.Fg_0"); ("fan.trq", "lp_shaft.trq_0"); ("lpc.trq", "lp_shaft.trq_1"); ("lpt.trq", "lp_shaft.trq_2"); ("hpc.trq", "hp_shaft.trq_0"); ("hpt.trq", "hp_shaft.trq_1"); ("fc.Fl_O:stat:P", "mixed_nozz.Ps_exhaust"); ("balance.W", "fc.W"); ("mixed_nozz.Throat:stat:area", "balance.lhs:W"); ("balance.BPR", "splitter.BPR"); ("mixer.Fl_I1_calc:stat:P", "balance.lhs:BPR"); ("bypass_duct.Fl_O:stat:P", "balance.rhs:BPR"); ("balance.FAR_core", "burner.Fl_I:FAR"); ("burner.Fl_O:tot:T", "balance.lhs:FAR_core"); ("balance.FAR_ab", "afterburner.Fl_I:FAR"); ("afterburner.Fl_O:tot:T", "balance.lhs:FAR_ab"); ("balance.LP_Nmech", "LP_Nmech"); ("lp_shaft.pwr_in", "balance.lhs:LP_Nmech"); ("lp_shaft.pwr_out", "balance.rhs:LP_Nmech"); ("balance.HP_Nmech", "HP_Nmech"); ("hp_shaft.pwr_in", "balance.lhs:HP_Nmech"); ("hp_shaft.pwr_out", "balance.rhs:HP_Nmech")]
  [("fan", ("Nmech", "LP_Nmech")); ("lpc", ("Nmech", "LP_Nmech")); ("hpc", ("Nmech", "HP_Nmech")); ("hpt", ("Nmech", "HP_Nmech")); ("lpt", ("Nmech", "LP_Nmech")); ("lp_shaft", ("Nmech", "LP_Nmech")); ("hp_shaft", ("Nmech", "HP_Nmech"))]
  [("lp_shaft", 3%nat); ("hp_shaft", 2%nat)] [] [("perf", (1, 2)%nat)]
  (* not modelled: subsystems none; flow connections to them none *)
  [mkXBal "W" "lbm/s" "inch**2" "rhs:W" false; mkXBal "BPR" "" "psi" "rhs:BPR" false; mkXBal "FAR_core" "" "degR" "rhs:FAR_core" false; mkXBal "FAR_ab" "" "degR" "rhs:FAR_ab" false; mkXBal "LP_Nmech" "rpm" "hp" "rhs:LP_Nmech" true; mkXBal "HP_Nmech" "rpm" "hp" "rhs:HP_Nmech" true] [("balance.mult:LP_Nmech", ("", (-1, 0))); ("balance.mult:HP_Nmech", ("", (-1, 0)))].
(* N+3ref/N3ref.py:25-285, design = True, cooling = False *)
Definition x_N3 : example := mkExample "N3" CEA "janaf" true
  [("fc", XFlight None); ("inlet", XInlet); ("fan", XCompressor []); ("splitter", XSplitter); ("duct2", XDuct (2, 0)); ("lpc", XCompressor []); ("bld25", XBleedOut ["sbv"]); ("duct25", XDuct (2, 0)); ("hpc", XCompressor ["bld_inlet"; "bld_exit"; "cust"]); ("bld3", XBleedOut ["bld_inlet"; "bld_exit"]); ("burner", XCombustor "Jet-A(g)"); ("hpt", XTurbine ["bld_inlet"; "bld_exit"]); ("duct45", XDuct (2, 0)); ("lpt", XTurbine ["bld_inlet"; "bld_exit"]); ("duct5", XDuct (2, 0)); ("core_nozz", XNozzle CV Cv); ("byp_bld", XBleedOut ["bypBld"]); ("duct17", XDuct (2, 0)); ("byp_nozz", XNozzle CV Cv)]
  [mkLink ("fc", "Fl_O") ("inlet", "Fl_I") true true true; mkLink ("inlet", "Fl_O") ("fan", "Fl_I") true true true; mkLink ("fan", "Fl_O") ("splitter", "Fl_I") true true true; mkLink ("splitter", "Fl_O1") ("duct2", "Fl_I") true true true; mkLink ("duct2", "Fl_O") ("lpc", "Fl_I") true true true; mkLink ("lpc", "Fl_O") ("bld25", "Fl_I") true true true; mkLink ("bld25", "Fl_O") ("duct25", "Fl_I") true true true; mkLink ("duct25", "Fl_O") ("hpc", "Fl_I") true true true; mkLink ("hpc", "Fl_O") ("bld3", "Fl_I") true true true; mkLink ("bld3", "Fl_O") ("burner", "Fl_I") true true true; mkLink ("burner", "Fl_O") ("hpt", "Fl_I") true true true; mkLink ("hpt", "Fl_O") ("duct45", "Fl_I") true true true; mkLink ("duct45", "Fl_O") ("lpt", "Fl_I") true true true; mkLink ("lpt", "Fl_O") ("duct5", "Fl_I") true true true; mkLink ("duct5", "Fl_O") ("core_nozz", "Fl_I") true true true; mkLink ("splitter", "Fl_O2") ("byp_bld", "Fl_I") true true true; mkLink ("byp_bld", "Fl_O") ("duct17", "Fl_I") true true true; mkLink ("duct17", "Fl_O") ("byp_nozz", "Fl_I") true true true; mkLink ("hpc", "bld_inlet") ("lpt", "bld_inlet") false true true; mkLink ("hpc", "bld_exit") ("lpt", "bld_exit") false true true; mkLink ("bld3", "bld_inlet") ("hpt", "bld_inlet") false true true; mkLink ("bld3", "bld_exit") ("hpt", "bld_exit") false true true]
  [("inlet.Fl_O:tot:P", "perf.Pt2"); ("hpc.Fl_O:tot:P", "perf.Pt3"); ("burner.Wfuel", "perf.Wfuel_0"); ("inlet.F_ram", "perf.ram_drag"); ("core_nozz.Fg", "perf.Fg_0"); ("byp_nozz.Fg", "perf.Fg_1"); ("fan.trq", "fan_shaft.trq_0"); ("gearbox.trq_out", "fan_shaft.trq_1"); ("gearbox.trq_in", "lp_shaft.trq_0"); ("lpc.trq", "lp_shaft.trq_1"); ("lpt.trq", "lp_shaft.trq_2"); ("hpc.trq", "hp_shaft.trq_0"); ("hpt.trq", "hp_shaft.trq_1"); ("fc.Fl_O:stat:P", "core_nozz.Ps_exhaust"); ("fc.Fl_O:stat:P", "byp_nozz.Ps_exhaust"); ("core_nozz.ideal_flow.V", "ext_ratio.core_V_ideal"); ("byp_nozz.ideal_flow.V", "ext_ratio.byp_V_ideal"); ("balance.FAR", "burner.Fl_I:FAR"); ("burner.Fl_O:tot:T", "balance.lhs:FAR"); ("balance.lpt_PR", "lpt.PR"); ("lp_shaft.pwr_net", "balance.lhs:lpt_PR"); ("balance.hpt_PR", "hpt.PR"); ("hp_shaft.pwr_net", "balance.lhs:hpt_PR"); ("balance.gb_trq", "gearbox.trq_base"); ("fan_shaft.pwr_net", "balance.lhs:gb_trq"); ("balance.hpc_PR", "hpc.PR"); ("balance.hpc_PR", "opr_calc.HPCPR"); ("opr_calc.OPR_simple", "balance.lhs:hpc_PR"); ("balance.fan_eff", "fan.eff"); ("fan.eff_poly", "balance.lhs:fan_eff"); ("balance.lpc_eff", "lpc.eff"); ("lpc.eff_poly", "balance.lhs:lpc_eff"); ("balance.hpt_eff", "hpt.eff"); ("hpt.eff_poly", "balance.lhs:hpt_eff"); ("balance.lpt_eff", "lpt.eff"); ("lpt.eff_poly", "balance.lhs:lpt_eff"); ("duct25.Fl_O:stat:W", "hpc_CS.Win"); ("hpc.Fl_O:tot:T", "hpc_CS.Tout"); ("hpc.Fl_O:tot:P", "hpc_CS.Pout"); ("hpc_CS.CS", "hpc_EtaBalance.CS"); ("hpc.eff_poly", "hpc_EtaBalance.eta_p"); ("hpc_EtaBalance.eta_a", "hpc.eff"); ("inlet.Fl_O:stat:area", "fan_dia.area")]
  [("fan", ("Nmech", "Fan_Nmech")); ("lpc", ("Nmech", "LP_Nmech")); ("hpc", ("Nmech", "HP_Nmech")); ("hpt", ("Nmech", "HP_Nmech")); ("lpt", ("Nmech", "LP_Nmech")); ("fan_shaft", ("Nmech", "Fan_Nmech")); ("gearbox", ("N_in", "LP_Nmech")); ("gearbox", ("N_out", "Fan_Nmech")); ("lp_shaft", ("Nmech", "LP_Nmech")); ("hp_shaft", ("Nmech", "HP_Nmech"))]
  [("fan_shaft", 2%nat); ("lp_shaft", 3%nat); ("hp_shaft", 2%nat)] ["gearbox"] [("perf", (2, 1)%nat)]
  (* not modelled: subsystems ext_ratio (ExecComp), hpc_CS (ExecComp), hpc_EtaBalance (SmallCoreEffBalance), fan_dia (ExecComp), opr_calc (ExecComp); flow connections to them none *)
  [mkXBal "FAR" "" "degR" "rhs:FAR" false; mkXBal "lpt_PR" "" "hp" "rhs:lpt_PR" false; mkXBal "hpt_PR" "" "hp" "rhs:hpt_PR" false; mkXBal "gb_trq" "ft*lbf" "hp" "rhs:gb_trq" false; mkXBal "hpc_PR" "" "" "rhs:hpc_PR" false; mkXBal "fan_eff" "" "" "rhs:fan_eff" false; mkXBal "lpc_eff" "" "" "rhs:lpc_eff" false; mkXBal "hpt_eff" "" "" "rhs:hpt_eff" false; mkXBal "lpt_eff" "" "" "rhs:lpt_eff" false] [("balance.rhs:lpt_PR", ("hp", (0, 0))); ("balance.rhs:hpt_PR", ("hp", (0, 0))); ("balance.rhs:gb_trq", ("hp", (0, 0)))].
(* N+3ref/N3ref.py:25-285, design = True, cooling = True *)
Definition x_N3_cooling : example := mkExample "N3_cooling" CEA "janaf" true
  [("fc", XFlight None); ("inlet", XInlet); ("fan", XCompressor []); ("splitter", XSplitter); ("duct2", XDuct (2, 0)); ("lpc", XCompressor []); ("bld25", XBleedOut ["sbv"]); ("duct25", XDuct (2, 0)); ("hpc", XCompressor ["bld_inlet"; "bld_exit"; "cust"]); ("bld3", XBleedOut ["bld_inlet"; "bld_exit"]); ("burner", XCombustor "Jet-A(g)"); ("hpt", XTurbine ["bld_inlet"; "bld_exit"]); ("duct45", XDuct (2, 0)); ("lpt", XTurbine ["bld_inlet"; "bld_exit"]); ("duct5", XDuct (2, 0)); ("core_nozz", XNozzle CV Cv); ("byp_bld", XBleedOut ["bypBld"]); ("duct17", XDuct (2, 0)); ("byp_nozz", XNozzle CV Cv)]
  [mkLink ("fc", "Fl_O") ("inlet", "Fl_I") true true true; mkLink ("inlet", "Fl_O") ("fan", "Fl_I") true true true; mkLink ("fan", "Fl_O") ("splitter", "Fl_I") true true true; mkLink ("splitter", "Fl_O1") ("duct2", "Fl_I") true true true; mkLink ("duct2", "Fl_O") ("lpc", "Fl_I") true true true; mkLink ("lpc", "Fl_O") ("bld25", "Fl_I") true true true; mkLink ("bld25", "Fl_O") ("duct25", "Fl_I") true true true; mkLink ("duct25", "Fl_O") ("hpc", "Fl_I") true true true; mkLink ("hpc", "Fl_O") ("bld3", "Fl_I") true true true; mkLink ("bld3", "Fl_O") ("burner", "Fl_I") true true true; mkLink ("burner", "Fl_O") ("hpt", "Fl_I") true true true; mkLink ("hpt", "Fl_O") ("duct45", "Fl_I") true true true; mkLink ("duct45", "Fl_O") ("lpt", "Fl_I") true true true; mkLink ("lpt", "Fl_O") ("duct5", "Fl_I") true true true; mkLink ("duct5", "Fl_O") ("core_nozz", "Fl_I") true true true; mkLink ("splitter", "Fl_O2") ("byp_bld", "Fl_I") true true true; mkLink ("byp_bld", "Fl_O") ("duct17", "Fl_I") true true true; mkLink ("duct17", "Fl_O") ("byp_nozz", "Fl_I") true true true; mkLink ("hpc", "bld_inlet") ("lpt", "bld_inlet") false true true; mkLink ("hpc", "bld_exit") ("lpt", "bld_exit") false true true; mkLink ("bld3", "bld_inlet") ("hpt", "bld_inlet") false true true; mkLink ("bld3", "bld_exit") ("hpt", "bld_exit") false true true]
  [("inlet.Fl_O:tot:P", "perf.Pt2"); ("hpc.Fl_O:tot:P", "perf.Pt3"); ("burner.Wfuel", "perf.Wfuel_0"); ("inlet.F_ram", "perf.ram_drag"); ("core_nozz.Fg", "perf.Fg_0"); ("byp_nozz.Fg", "perf.Fg_1"); ("fan.trq", "fan_shaft.trq_0"); ("gearbox.trq_out", "fan_shaft.trq_1"); ("gearbox.trq_in", "lp_shaft.trq_0"); ("lpc.trq", "lp_shaft.trq_1"); ("lpt.trq", "lp_shaft.trq_2"); ("hpc.trq", "hp_shaft.trq_0"); ("hpt.trq", "hp_shaft.trq_1"); ("fc.Fl_O:stat:P", "core_nozz.Ps_exhaust"); ("fc.Fl_O:stat:P", "byp_nozz.Ps_exhaust"); ("core_nozz.ideal_flow.V", "ext_ratio.core_V_ideal"); ("byp_nozz.ideal_flow.V", "ext_ratio.byp_V_ideal"); ("balance.FAR", "burner.Fl_I:FAR"); ("burner.Fl_O:tot:T", "balance.lhs:FAR"); ("balance.lpt_PR", "lpt.PR"); ("lp_shaft.pwr_net", "balance.lhs:lpt_PR"); ("balance.hpt_PR", "hpt.PR"); ("hp_shaft.pwr_net", "balance.lhs:hpt_PR"); ("balance.gb_trq", "gearbox.trq_base"); ("fan_shaft.pwr_net", "balance.lhs:gb_trq"); ("balance.hpc_PR", "hpc.PR"); ("balance.hpc_PR", "opr_calc.HPCPR"); ("opr_calc.OPR_simple", "balance.lhs:hpc_PR"); ("balance.fan_eff", "fan.eff"); ("fan.eff_poly", "balance.lhs:fan_eff"); ("balance.lpc_eff", "lpc.eff"); ("lpc.eff_poly", "balance.lhs:lpc_eff"); ("balance.hpt_eff", "hpt.eff"); ("hpt.eff_poly", "balance.lhs:hpt_eff"); ("balance.lpt_eff", "lpt.eff"); ("lpt.eff_poly", "balance.lhs:lpt_eff"); ("duct25.Fl_O:stat:W", "hpc_CS.Win"); ("hpc.Fl_O:tot:T", "hpc_CS.Tout"); ("hpc.Fl_O:tot:P", "hpc_CS.Pout"); ("hpc_CS.CS", "hpc_EtaBalance.CS"); ("hpc.eff_poly", "hpc_EtaBalance.eta_p"); ("hpc_EtaBalance.eta_a", "hpc.eff"); ("inlet.Fl_O:stat:area", "fan_dia.area"); ("hpt_cooling.row_1.W_cool", "hpt_chargable.W_1"); ("hpt_cooling.row_2.W_cool", "hpt_chargable.W_2"); ("hpt_cooling.row_3.W_cool", "hpt_chargable.W_3"); ("hpt.power", "hpt_cooling.turb_pwr"); ("balance.hpt_nochrg_cool_frac", "bld3.bld_inlet:frac_W"); ("bld3.bld_inlet:stat:W", "balance.lhs:hpt_nochrg_cool_frac"); ("hpt_cooling.row_0.W_cool", "balance.rhs:hpt_nochrg_cool_frac"); ("balance.hpt_chrg_cool_frac", "bld3.bld_exit:frac_W"); ("bld3.bld_exit:stat:W", "balance.lhs:hpt_chrg_cool_frac"); ("hpt_chargable.W_cool", "balance.rhs:hpt_chrg_cool_frac")]
  [("fan", ("Nmech", "Fan_Nmech")); ("lpc", ("Nmech", "LP_Nmech")); ("hpc", ("Nmech", "HP_Nmech")); ("hpt", ("Nmech", "HP_Nmech")); ("lpt", ("Nmech", "LP_Nmech")); ("fan_shaft", ("Nmech", "Fan_Nmech")); ("gearbox", ("N_in", "LP_Nmech")); ("gearbox", ("N_out", "Fan_Nmech")); ("lp_shaft", ("Nmech", "LP_Nmech")); ("hp_shaft", ("Nmech", "HP_Nmech"))]
  [("fan_shaft", 2%nat); ("lp_shaft", 3%nat); ("hp_shaft", 2%nat)] ["gearbox"] [("perf", (2, 1)%nat)]
  (* not modelled: subsystems ext_ratio (ExecComp), hpc_CS (ExecComp), hpc_EtaBalance (SmallCoreEffBalance), fan_dia (ExecComp), opr_calc (ExecComp), hpt_cooling (TurbineCooling), hpt_chargable (CombineCooling); flow connections to them bld3.bld_inlet -> hpt_cooling.Fl_cool, burner.Fl_O -> hpt_cooling.Fl_turb_I, hpt.Fl_O -> hpt_cooling.Fl_turb_O *)
  [mkXBal "FAR" "" "degR" "rhs:FAR" false; mkXBal "lpt_PR" "" "hp" "rhs:lpt_PR" false; mkXBal "hpt_PR" "" "hp" "rhs:hpt_PR" false; mkXBal "gb_trq" "ft*lbf" "hp" "rhs:gb_trq" false; mkXBal "hpc_PR" "" "" "rhs:hpc_PR" false; mkXBal "fan_eff" "" "" "rhs:fan_eff" false; mkXBal "lpc_eff" "" "" "rhs:lpc_eff" false; mkXBal "hpt_eff" "" "" "rhs:hpt_eff" false; mkXBal "lpt_eff" "" "" "rhs:lpt_eff" false; mkXBal "hpt_nochrg_cool_frac" "" "lbm/s" "rhs:hpt_nochrg_cool_frac" false; mkXBal "hpt_chrg_cool_frac" "" "lbm/s" "rhs:hpt_chrg_cool_frac" false] [("balance.rhs:lpt_PR", ("hp", (0, 0))); ("balance.rhs:hpt_PR", ("hp", (0, 0))); ("balance.rhs:gb_trq", ("hp", (0, 0)))].
(* N+3ref/N3ref.py:25-285, design = False, cooling = False *)
Definition x_N3_od : example := mkExample "N3_od" CEA "janaf" false
  [("fc", XFlight None); ("inlet", XInlet); ("fan", XCompressor []); ("splitter", XSplitter); ("duct2", XDuct (2, 0)); ("lpc", XCompressor []); ("bld25", XBleedOut ["sbv"]); ("duct25", XDuct (2, 0)); ("hpc", XCompressor ["bld_inlet"; "bld_exit"; "cust"]); ("bld3", XBleedOut ["bld_inlet"; "bld_exit"]); ("burner", XCombustor "Jet-A(g)"); ("hpt", XTurbine ["bld_inlet"; "bld_exit"]); ("duct45", XDuct (2, 0)); ("lpt", XTurbine ["bld_inlet"; "bld_exit"]); ("duct5", XDuct (2, 0)); ("core_nozz", XNozzle CV Cv); ("byp_bld", XBleedOut ["bypBld"]); ("duct17", XDuct (2, 0)); ("byp_nozz", XNozzle CV Cv)]
  [mkLink ("fc", "Fl_O") ("inlet", "Fl_I") true true true; mkLink ("inlet", "Fl_O") ("fan", "Fl_I") true true true; mkLink ("fan", "Fl_O") ("splitter", "Fl_I") true true true; mkLink ("splitter", "Fl_O1") ("duct2", "Fl_I") true true true; mkLink ("duct2", "Fl_O") ("lpc", "Fl_I") true true true; mkLink ("lpc", "Fl_O") ("bld25", "Fl_I") true true true; mkLink ("bld25", "Fl_O") ("duct25", "Fl_I") true true true; mkLink ("duct25", "Fl_O") ("hpc", "Fl_I") true true true; mkLink ("hpc", "Fl_O") ("bld3", "Fl_I") true true true; mkLink ("bld3", "Fl_O") ("burner", "Fl_I") true true true; mkLink ("burner", "Fl_O") ("hpt", "Fl_I") true true true; mkLink ("hpt", "Fl_O") ("duct45", "Fl_I") true true true; mkLink ("duct45", "Fl_O") ("lpt", "Fl_I") true true true; mkLink ("lpt", "Fl_O") ("duct5", "Fl_I") true true true; mkLink ("duct5", "Fl_O") ("core_nozz", "Fl_I") true true true; mkLink ("splitter", "Fl_O2") ("byp_bld", "Fl_I") true true true; mkLink ("byp_bld", "Fl_O") ("duct17", "Fl_I") true true true; mkLink ("duct17", "Fl_O") ("byp_nozz", "Fl_I") true true true; mkLink ("hpc", "bld_inlet") ("lpt", "bld_inlet") false true true; mkLink ("hpc", "bld_exit") ("lpt", "bld_exit") false true true; mkLink ("bld3", "bld_inlet") ("hpt", "bld_inlet") false true true; mkLink ("bld3", "bld_exit") ("hpt", "bld_exit") false true true]
  [("inlet.Fl_O:tot:P", "perf.Pt2"); ("hpc.Fl_O:tot:P", "perf.Pt3"); ("burner.Wfuel", "perf.Wfuel_0"); ("inlet.F_ram", "perf.ram_drag"); ("core_nozz.Fg", "perf.Fg_0"); ("byp_nozz.Fg", "perf.Fg_1"); ("fan.trq", "fan_shaft.trq_0"); ("gearbox.trq_out", "fan_shaft.trq_1"); ("gearbox.trq_in", "lp_shaft.trq_0"); ("lpc.trq", "lp_shaft.trq_1"); ("lpt.trq", "lp_shaft.trq_2"); ("hpc.trq", "hp_shaft.trq_0"); ("hpt.trq", "hp_shaft.trq_1"); ("fc.Fl_O:stat:P", "core_nozz.Ps_exhaust"); ("fc.Fl_O:stat:P", "byp_nozz.Ps_exhaust"); ("core_nozz.ideal_flow.V", "ext_ratio.core_V_ideal"); ("byp_nozz.ideal_flow.V", "ext_ratio.byp_V_ideal"); ("balance.FAR", "burner.Fl_I:FAR"); ("perf.Fn", "balance.lhs:FAR"); ("balance.W", "fc.W"); ("core_nozz.Throat:stat:area", "balance.lhs:W"); ("balance.BPR", "splitter.BPR"); ("fan.map.RlineMap", "balance.lhs:BPR"); ("balance.fan_Nmech", "Fan_Nmech"); ("fan_shaft.pwr_net", "balance.lhs:fan_Nmech"); ("balance.lp_Nmech", "LP_Nmech"); ("lp_shaft.pwr_net", "balance.lhs:lp_Nmech"); ("balance.hp_Nmech", "HP_Nmech"); ("hp_shaft.pwr_net", "balance.lhs:hp_Nmech")]
  [("fan", ("Nmech", "Fan_Nmech")); ("lpc", ("Nmech", "LP_Nmech")); ("hpc", ("Nmech", "HP_Nmech")); ("hpt", ("Nmech", "HP_Nmech")); ("lpt", ("Nmech", "LP_Nmech")); ("fan_shaft", ("Nmech", "Fan_Nmech")); ("gearbox", ("N_in", "LP_Nmech")); ("gearbox", ("N_out", "Fan_Nmech")); ("lp_shaft", ("Nmech", "LP_Nmech")); ("hp_shaft", ("Nmech", "HP_Nmech"))]
  [("fan_shaft", 2%nat); ("lp_shaft", 3%nat); ("hp_shaft", 2%nat)] ["gearbox"] [("perf", (2, 1)%nat)]
  (* not modelled: subsystems ext_ratio (ExecComp); flow connections to them none *)
  [mkXBal "FAR" "" "lbf" "rhs:FAR" false; mkXBal "W" "lbm/s" "inch**2" "rhs:W" false; mkXBal "BPR" "" "" "rhs:BPR" false; mkXBal "fan_Nmech" "rpm" "hp" "rhs:fan_Nmech" false; mkXBal "lp_Nmech" "rpm" "hp" "rhs:lp_Nmech" false; mkXBal "hp_Nmech" "rpm" "hp" "rhs:hp_Nmech" false] [("balance.rhs:fan_Nmech", ("hp", (0, 0))); ("balance.rhs:lp_Nmech", ("hp", (0, 0))); ("balance.rhs:hp_Nmech", ("hp", (0, 0)))].
(* N+3ref/N3ref.py:25-285, design = False, cooling = True *)
Definition x_N3_od_cooling : example := mkExample "N3_od_cooling" CEA "janaf" false
  [("fc", XFlight None); ("inlet", XInlet); ("fan", XCompressor []); ("splitter", XSplitter); ("duct2", XDuct (2, 0)); ("lpc", XCompressor []); ("bld25", XBleedOut ["sbv"]); ("duct25", XDuct (2, 0)); ("hpc", XCompressor ["bld_inlet"; "bld_exit"; "cust"]); ("bld3", XBleedOut ["bld_inlet"; "bld_exit"]); ("burner", XCombustor "Jet-A(g)"); ("hpt", XTurbine ["bld_inlet"; "bld_exit"]); ("duct45", XDuct (2, 0)); ("lpt", XTurbine ["bld_inlet"; "bld_exit"]); ("duct5", XDuct (2, 0)); ("core_nozz", XNozzle CV Cv); ("byp_bld", XBleedOut ["bypBld"]); ("duct17", XDuct (2, 0)); ("byp_nozz", XNozzle CV Cv)]
  [mkLink ("fc", "Fl_O") ("inlet", "Fl_I") true true true; mkLink ("inlet", "Fl_O") ("fan", "Fl_I") true true true; mkLink ("fan", "Fl_O") ("splitter", "Fl_I") true true true; mkLink ("splitter", "Fl_O1") ("duct2", "Fl_I") true true true; mkLink ("duct2", "Fl_O") ("lpc", "Fl_I") true true true; mkLink ("lpc", "Fl_O") ("bld25", "Fl_I") true true true; mkLink ("bld25", "Fl_O") ("duct25", "Fl_I") true true true; mkLink ("duct25", "Fl_O") ("hpc", "Fl_I") true true true; mkLink ("hpc", "Fl_O") ("bld3", "Fl_I") true true true; mkLink ("bld3", "Fl_O") ("burner", "Fl_I") true true true; mkLink ("burner", "Fl_O") ("hpt", "Fl_I") true true true; mkLink ("hpt", "Fl_O") ("duct45", "Fl_I") true true true; mkLink ("duct45", "Fl_O") ("lpt", "Fl_I") true true true; mkLink ("lpt", "Fl_O") ("duct5", "Fl_I") true true true; mkLink ("duct5", "Fl_O") ("core_nozz", "Fl_I") true true true; mkLink ("splitter", "Fl_O2") ("byp_bld", "Fl_I") true true true; mkLink ("byp_bld", "Fl_O") ("duct17", "Fl_I") true true true; mkLink ("duct17", "Fl_O") ("byp_nozz", "Fl_I") true true true; mkLink ("hpc", "bld_inlet") ("lpt", "bld_inlet") false true true; mkLink ("hpc", "bld_exit") ("lpt", "bld_exit") false true true; mkLink ("bld3", "bld_inlet") ("hpt", "bld_inlet") false true true; mkLink ("bld3", "bld_exit") ("hpt", "bld_exit") false true true]
  [("inlet.Fl_O:tot:P", "perf.Pt2"); ("hpc.Fl_O:tot:P", "perf.Pt3"); ("burner.Wfuel", "perf.Wfuel_0"); ("inlet.F_ram", "perf.ram_drag"); ("core_nozz.Fg", "perf.Fg_0"); ("byp_nozz.Fg", "perf.Fg_1"); ("fan.trq", "fan_shaft.trq_0"); ("gearbox.trq_out", "fan_shaft.trq_1"); ("gearbox.trq_in", "lp_shaft.trq_0"); ("lpc.trq", "lp_shaft.trq_1"); ("lpt.trq", "lp_shaft.trq_2"); ("hpc.trq", "hp_shaft.trq_0"); ("hpt.trq", "hp_shaft.trq_1"); ("fc.Fl_O:stat:P", "core_nozz.Ps_exhaust"); ("fc.Fl_O:stat:P", "byp_nozz.Ps_exhaust"); ("core_nozz.ideal_flow.V", "ext_ratio.core_V_ideal"); ("byp_nozz.ideal_flow.V", "ext_ratio.byp_V_ideal"); ("balance.FAR", "burner.Fl_I:FAR"); ("perf.Fn", "balance.lhs:FAR"); ("balance.W", "fc.W"); ("core_nozz.Throat:stat:area", "balance.lhs:W"); ("balance.BPR", "splitter.BPR"); ("fan.map.RlineMap", "balance.lhs:BPR"); ("balance.fan_Nmech", "Fan_Nmech"); ("fan_shaft.pwr_net", "balance.lhs:fan_Nmech"); ("balance.lp_Nmech", "LP_Nmech"); ("lp_shaft.pwr_net", "balance.lhs:lp_Nmech"); ("balance.hp_Nmech", "HP_Nmech"); ("hp_shaft.pwr_net", "balance.lhs:hp_Nmech"); ("hpt_cooling.row_1.W_cool", "hpt_chargable.W_1"); ("hpt_cooling.row_2.W_cool", "hpt_chargable.W_2"); ("hpt_cooling.row_3.W_cool", "hpt_chargable.W_3"); ("hpt.power", "hpt_cooling.turb_pwr"); ("balance.hpt_nochrg_cool_frac", "bld3.bld_inlet:frac_W"); ("bld3.bld_inlet:stat:W", "balance.lhs:hpt_nochrg_cool_frac"); ("hpt_cooling.row_0.W_cool", "balance.rhs:hpt_nochrg_cool_frac"); ("balance.hpt_chrg_cool_frac", "bld3.bld_exit:frac_W"); ("bld3.bld_exit:stat:W", "balance.lhs:hpt_chrg_cool_frac"); ("hpt_chargable.W_cool", "balance.rhs:hpt_chrg_cool_frac")]
  [("fan", ("Nmech", "Fan_Nmech")); ("lpc", ("Nmech", "LP_Nmech")); ("hpc", ("Nmech", "HP_Nmech")); ("hpt", ("Nmech", "HP_Nmech")); ("lpt", ("Nmech", "LP_Nmech")); ("fan_shaft", ("Nmech", "Fan_Nmech")); ("gearbox", ("N_in", "LP_Nmech")); ("gearbox", ("N_out", "Fan_Nmech")); ("lp_shaft", ("Nmech", "LP_Nmech")); ("hp_shaft", ("Nmech", "HP_Nmech"))]
  [("fan_shaft", 2%nat); ("lp_shaft", 3%nat); ("hp_shaft", 2%nat)] ["gearbox"] [("perf", (2, 1)%nat)]
  (* not modelled: subsystems ext_ratio (ExecComp), hpt_cooling (TurbineCooling), hpt_chargable (CombineCooling); flow connections to them bld3.bld_inlet -> hpt_cooling.Fl_cool, burner.Fl_O -> hpt_cooling.Fl_turb_I, hpt.Fl_O -> hpt_cooling.Fl_turb_O *)
  [mkXBal "FAR" "" "lbf" "rhs:FAR" false; mkXBal "W" "lbm/s" "inch**2" "rhs:W" false; mkXBal "BPR" "" "" "rhs:BPR" false; mkXBal "fan_Nmech" "rpm" "hp" "rhs:fan_Nmech" false; mkXBal "lp_Nmech" "rpm" "hp" "rhs:lp_Nmech" false; mkXBal "hp_Nmech" "rpm" "hp" "rhs:hp_Nmech" false; mkXBal "hpt_nochrg_cool_frac" "" "lbm/s" "rhs:hpt_nochrg_cool_frac" false; mkXBal "hpt_chrg_cool_frac" "" "lbm/s" "rhs:hpt_chrg_cool_frac" false] [("balance.rhs:fan_Nmech", ("hp", (0, 0))); ("balance.rhs:lp_Nmech", ("hp", (0, 0))); ("balance.rhs:hp_Nmech", ("hp", (0, 0)))].
Definition examples : list example := [x_Turbojet; x_Turbojet_od; x_WetTurbojet; x_WetTurbojet_od; x_ABTurbojet; x_ABTurbojet_od; x_Propulsor; x_Propulsor_od; x_WetPropulsor; x_WetPropulsor_od; x_SingleSpoolTurboshaft; x_SingleSpoolTurboshaft_od; x_MultiSpoolTurboshaft; x_MultiSpoolTurboshaft_od; x_HBTF; x_HBTF_od; x_HBTF_od_pc; x_MixedFlowTurbofan; x_MixedFlowTurbofan_od; x_N3; x_N3_cooling; x_N3_od; x_N3_od_cooling].
