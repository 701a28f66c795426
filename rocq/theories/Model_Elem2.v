(* Model of the setup of pycycle/elements/{compressor,compressor_map,turbine,turbine_map,nozzle,mixer}.py: subsystems, promotions, connections.
   Same conventions and simplifications as Model_Elem1. *)
From Verif Require Export Model_Elem1 Model_Turbo Model_Nozzle.
Open Scope string_scope. Open Scope list_scope. Open Scope R_scope.

(* ---------- compressor_map.py:157-245 CompressorMap ---------- *)
Section CMap.
(* the table lookup of the map: alphaMap, NcMap, RlineMap, output name, value (MetaModelStructuredComp; Model_Maps has the lookup itself) *)
Variable mp : R -> R -> R -> string -> R -> Prop.
(* map_data.RlineStall *)
Variable r_stall : R.
(* compressor_map.py:180-184: input and output names and units as in every shipped compressor map (param_data, output_data) *)
Definition c_readmap (name : string) (pi po : list promo) : sub :=
  mkSub name [("alphaMap", ("", "default")); ("NcMap", ("rpm", "default")); ("RlineMap", ("", "default"))]
    [("effMap", ("", "default")); ("PRmap", ("", "default")); ("WcMap", ("lbm/s", "default"))] pi po
    (fun li lo => forall x, In x ["effMap"; "PRmap"; "WcMap"] -> mp (li "alphaMap" 0%nat) (li "NcMap" 0%nat) (li "RlineMap" 0%nat) x (lo x 0%nat)).
(* compressor_map.py:56-82 *)
Definition c_scalars_sub : sub :=
  mkSub "scalars" [("Nc", ("rpm", "2.0")); ("NcMap", ("rpm", "2.0")); ("PR", ("", "2.0")); ("PRmap", ("", "2.0")); ("eff", ("", "1.0")); ("effMap", ("", "1.0"));
                   ("Wc", ("lbm/s", "2.0")); ("WcMap", ("lbm/s", "2.0"))]
    [("s_Nc", ("", "")); ("s_PR", ("", "")); ("s_eff", ("", "")); ("s_Wc", ("", ""))]
    [PN "PR"; PN "eff"; PN "Nc"; PN "Wc"; PN "NcMap"; PN "effMap"; PN "PRmap"; PN "WcMap"] [PN "s_Nc"; PN "s_PR"; PN "s_eff"; PN "s_Wc"] (expl_rel c_map_scalars).
(* compressor_map.py:110-133 *)
Definition c_scaled_sub : sub :=
  mkSub "scaledOutput" [("effMap", ("", "2.0")); ("PRmap", ("", "2.0")); ("WcMap", ("lbm/s", "2.0")); ("NcMap", ("rpm", "2.0")); ("s_PR", ("", "2.0")); ("s_eff", ("", "2.0"));
                        ("s_Wc", ("", "2.0")); ("s_Nc", ("", "2.0"))]
    [("PR", ("", "")); ("eff", ("", "")); ("Wc", ("lbm/s", "")); ("Nc", ("rpm", ""))]
    [PN "s_PR"; PN "s_eff"; PN "s_Wc"; PN "s_Nc"; PN "NcMap"; PN "effMap"; PN "PRmap"; PN "WcMap"] [PN "PR"; PN "eff"] (expl_rel c_scaled_map).
(* om.IndepVarComp with one output *)
Definition indep (name x : string) (v : R) : sub := mkSub name [] [(x, ("", "val"))] [] [] (fun _ lo => lo x 0%nat = v).
(* compressor_map.py:11-21 *)
Definition stall_sub : sub :=
  mkSub "stall_margins" [("PR_SMN", ("", "1.0")); ("PR_SMW", ("", "1.0")); ("PR_actual", ("", "1.0")); ("Wc_SMN", ("lbm/s", "1.0")); ("Wc_actual", ("lbm/s", "1.0"))]
    [("SMN", ("", "0.0")); ("SMW", ("", "0.0"))] [PA "PR_actual" "PRmap"; PA "Wc_actual" "WcMap"] [PN "SMN"; PN "SMW"] (expl_rel stall_calcs).
Definition compressor_map (design : bool) : group :=
  mkGroup
    ([c_readmap "map" [PN "RlineMap"; PN "NcMap"; PN "alphaMap"] [PN "effMap"; PN "PRmap"; PN "WcMap"]] ++
     (if design then [c_scalars_sub]
      else [c_scaled_sub; bal_sub "map_bal" [mkBal "NcMap" "rpm" "rpm" "lhs:NcMap" "rhs:NcMap"; mkBal "RlineMap" "" "lbm/s" "lhs:RlineMap" "rhs:RlineMap"]
                            [PA "lhs:NcMap" "Nc"; PA "lhs:RlineMap" "Wc"] [PN "NcMap"; PN "RlineMap"]]) ++
     [indep "stall_R" "RlineStall" r_stall; c_readmap "SMN_map" [PN "NcMap"; PN "alphaMap"] []; c_readmap "SMW_map" [PN "alphaMap"] [];
      bal_sub "SMW_bal" [mkBal "NcMap" "rpm" "lbm/s" "lhs:NcMap" "rhs:NcMap"] [] []; stall_sub])
    ((if design then [] else [("scaledOutput.Nc", "map_bal.rhs:NcMap"); ("scaledOutput.Wc", "map_bal.rhs:RlineMap")]) ++
     [("stall_R.RlineStall", "SMN_map.RlineMap"); ("stall_R.RlineStall", "SMW_map.RlineMap"); ("SMW_bal.NcMap", "SMW_map.NcMap"); ("WcMap", "SMW_bal.lhs:NcMap");
      ("SMW_map.WcMap", "SMW_bal.rhs:NcMap"); ("SMN_map.PRmap", "stall_margins.PR_SMN"); ("SMW_map.PRmap", "stall_margins.PR_SMW"); ("SMN_map.WcMap", "stall_margins.Wc_SMN")])
    (if design then ["RlineMap"; "NcMap"] else []).
End CMap.

(* ---------- turbine_map.py:101-156 TurbineMap ---------- *)
Section TMap.
(* alphaMap, NpMap, PRmap, output name, value *)
Variable mp : R -> R -> R -> string -> R -> Prop.
Definition t_readmap : sub :=
  mkSub "readMap" [("alphaMap", ("", "default")); ("NpMap", ("rpm", "default")); ("PRmap", ("", "default"))]
    [("effMap", ("", "default")); ("WpMap", ("lbm/s", "default"))] [PN "alphaMap"; PN "NpMap"; PN "PRmap"] [PN "effMap"; PN "WpMap"]
    (fun li lo => forall x, In x ["effMap"; "WpMap"] -> mp (li "alphaMap" 0%nat) (li "NpMap" 0%nat) (li "PRmap" 0%nat) x (lo x 0%nat)).
(* turbine_map.py:9-32 *)
Definition t_scalars_sub : sub :=
  mkSub "scalars" [("eff", ("", "2.0")); ("Np", ("rpm", "2.0")); ("PR", ("", "2.0")); ("Wp", ("lbm/s", "2.0")); ("effMap", ("", "2.0")); ("NpMap", ("rpm", "1.0")); ("PRmap", ("", "1.0"));
                   ("WpMap", ("lbm/s", "2.0"))]
    [("s_eff", ("", "")); ("s_Np", ("", "")); ("s_PR", ("", "")); ("s_Wp", ("", ""))]
    [PN "PR"; PN "eff"; PN "Np"; PN "Wp"; PN "NpMap"; PN "effMap"; PN "PRmap"; PN "WpMap"] [PN "s_Np"; PN "s_PR"; PN "s_eff"; PN "s_Wp"] (expl_rel t_map_scalars).
(* turbine_map.py:58-77 *)
Definition t_scaled_sub : sub :=
  mkSub "scaledOutput" [("effMap", ("", "1.0")); ("NpMap", ("rpm", "1.0")); ("PRmap", ("", "1.0")); ("WpMap", ("lbm/s", "1.0")); ("s_eff", ("", "1.0")); ("s_Np", ("", "1.0")); ("s_PR", ("", "1.0"));
                        ("s_Wp", ("", "1.0"))]
    [("eff", ("", "")); ("Np", ("rpm", "")); ("PR", ("", "")); ("Wp", ("lbm/s", ""))]
    [PN "s_PR"; PN "s_eff"; PN "s_Wp"; PN "s_Np"; PN "NpMap"; PN "effMap"; PN "PRmap"; PN "WpMap"] [PN "PR"; PN "eff"] (expl_rel t_scaled_map).
Definition turbine_map (design : bool) : group :=
  mkGroup
    (t_readmap :: (if design then [t_scalars_sub]
      else [t_scaled_sub; bal_sub "map_bal" [mkBal "NpMap" "rpm" "rpm" "lhs:NpMap" "rhs:NpMap"; mkBal "PRmap" "" "lbm/s" "lhs:PRmap" "rhs:PRmap"]
                            [PA "lhs:NpMap" "Np"; PA "lhs:PRmap" "Wp"] [PN "NpMap"; PN "PRmap"]]))
    (if design then [] else [("scaledOutput.Np", "map_bal.rhs:NpMap"); ("scaledOutput.Wp", "map_bal.rhs:PRmap")])
    (if design then ["NpMap"; "PRmap"] else []).
End TMap.

Section Elements.
Variable tp : R -> R -> (nat -> R) -> (string -> R) -> Prop.
Variable me : method.
Notation tsub := (tsub tp me).

(* ---------- compressor.py:414-555 ---------- *)
(* compressor.py:23-33 *)
Definition c_corr_sub : sub :=
  mkSub "corrinputs" [("Tt", ("degR", "500.")); ("Pt", ("psi", "14.")); ("W_in", ("lbm/s", "30.0")); ("Nmech", ("rpm", "1000.0"))] [("Wc", ("lbm/s", "30.0")); ("Nc", ("rpm", "100."))]
    [PN "Nmech"; PA "W_in" "Fl_I:stat:W"; PA "Pt" "Fl_I:tot:P"; PA "Tt" "Fl_I:tot:T"] [PN "Nc"; PN "Wc"] (expl_rel c_corrected_inputs).
(* compressor.py:322-328 *)
Definition press_rise_sub : sub :=
  mkSub "press_rise" [("PR", ("", "3.0")); ("Pt_in", ("lbf/inch**2", "5.0"))] [("Pt_out", ("lbf/inch**2", ""))] [PN "PR"; PA "Pt_in" "Fl_I:tot:P"] [] (expl_rel pressure_rise).
(* compressor.py:294-302 *)
Definition enth_rise_sub : sub :=
  mkSub "enth_rise" [("ideal_ht", ("Btu/lbm", "2.0")); ("inlet_ht", ("Btu/lbm", "1.0")); ("eff", ("", "0.5"))] [("ht_out", ("Btu/lbm", ""))]
    [PN "eff"; PA "inlet_ht" "Fl_I:tot:h"] [] (expl_rel enthalpy_rise).
(* compressor.py:61-66 *)
Definition eff_poly_ins : list meta := [("PR", ("", "1.0")); ("S_in", ("Btu/(lbm*degR)", "1.0")); ("S_out", ("Btu/(lbm*degR)", "1.0")); ("Rt", ("Btu/(lbm*degR)", "0.0686"))].
Definition c_eff_poly_sub : sub :=
  mkSub "eff_poly_calc" eff_poly_ins [("eff_poly", ("", "1.0"))] [PN "PR"; PA "S_in" "Fl_I:tot:S"; PA "S_out" "Fl_O:tot:S"; PA "Rt" "Fl_I:tot:R"] [PN "eff_poly"] (expl_rel c_eff_poly).
(* compressor.py:141-176 *)
Definition blds_pwr_sub (bs : list string) : sub :=
  mkSub "blds_pwr"
    ([("W_in", ("lbm/s", "30.0")); ("ht_out", ("Btu/lbm", "20.0")); ("ht_in", ("Btu/lbm", "10.0")); ("Pt_out", ("psi", "20.0")); ("Pt_in", ("psi", "10.0")); ("Nmech", ("rpm", "1000.0"))] ++
     flat_map (fun b => [((b ++ ":frac_W")%string, ("", "0.0")); ((b ++ ":frac_P")%string, ("", "0.0")); ((b ++ ":frac_work")%string, ("", "0.0"))]) bs)
    ([("W_out", ("lbm/s", "")); ("power", ("hp", "")); ("trq", ("ft*lbf", ""))] ++
     flat_map (fun b => [((b ++ ":stat:W")%string, ("lbm/s", "")); ((b ++ ":Pt")%string, ("psi", "")); ((b ++ ":ht")%string, ("Btu/lbm", ""))]) bs)
    ([PN "Nmech"; PA "W_in" "Fl_I:stat:W"; PA "ht_in" "Fl_I:tot:h"; PA "Pt_in" "Fl_I:tot:P"; PA "Pt_out" "Fl_O:tot:P"] ++
     flat_map (fun b => map (fun x => PN (b ++ ":" ++ x)%string) ["frac_W"; "frac_P"; "frac_work"]) bs)
    ([PN "power"; PN "trq"; PN "W_out"] ++ map (fun b => PG (b ++ ":")%string) bs) (expl_rel (bleeds_and_power bs)).
Definition c_map_pin (design : bool) : list promo := if design then [PN "Nc"; PN "Wc"; PN "PR"; PN "eff"] else [PN "s_Nc"; PN "s_eff"; PN "s_Wc"; PN "s_PR"; PN "Nc"; PN "Wc"].
Definition c_map_pout (design : bool) : list promo := if design then [PN "s_Nc"; PN "s_eff"; PN "s_Wc"; PN "s_PR"; PN "SMN"; PN "SMW"] else [PN "PR"; PN "eff"; PN "SMN"; PN "SMW"].
Definition compressor (mp : R -> R -> R -> string -> R -> Prop) (r_stall : R) (bs : list string) (statics design : bool) : group :=
  mkGroup
    ([flow_in "flow_in" "Fl_I" [PG "Fl_I:"]; c_corr_sub; group_sub "map" (compressor_map mp r_stall design) (c_map_pin design) (c_map_pout design); press_rise_sub;
      tsub "ideal_flow" total_SP "flow" [PA "S" "Fl_I:tot:S"; PA "composition" "Fl_I:tot:composition"] []; enth_rise_sub;
      tsub "real_flow" total_hP "Fl_O:tot" [PA "composition" "Fl_I:tot:composition"] [PG "Fl_O:tot:"]; c_eff_poly_sub; blds_pwr_sub bs] ++
     map (fun b => tsub (b ++ "_flow")%string total_hP (b ++ ":tot")%string [PA "composition" "Fl_I:tot:composition"] [PG (b ++ ":tot:")%string]) bs ++
     (if statics then [tsub "out_stat" (stat_mode design) "Fl_O:stat" [PN (if design then "MN" else "area"); PA "composition" "Fl_I:tot:composition"] [PG "Fl_O:stat:"]]
      else [pass_sub "W_passthru" "W_out" "Fl_O:stat:W"]))
    ([("press_rise.Pt_out", "ideal_flow.P"); ("ideal_flow.h", "enth_rise.ideal_ht"); ("enth_rise.ht_out", "real_flow.h"); ("press_rise.Pt_out", "real_flow.P");
      ("enth_rise.ht_out", "blds_pwr.ht_out")] ++
     flat_map (fun b => [((b ++ ":ht")%string, (b ++ "_flow.h")%string); ((b ++ ":Pt")%string, (b ++ "_flow.P")%string)]) bs ++
     (if statics then stat_conns "Fl_O:tot" "out_stat" ++ [("W_out", "out_stat.W")] else []))
    ["Fl_I:FAR"; "PR"; "eff"].

(* ---------- turbine.py:449-640 ---------- *)
(* turbine.py:23-33 *)
Definition t_corr_sub : sub :=
  mkSub "corrinputs" [("Tt", ("degR", "500.")); ("Pt", ("psi", "14.")); ("W_in", ("lbm/s", "30.0")); ("Nmech", ("rpm", "1000.0"))] [("Wp", ("lbm/s", "30.0")); ("Np", ("rpm", "100."))]
    [PN "Nmech"; PA "W_in" "Fl_I:stat:W"; PA "Pt" "Fl_I:tot:P"; PA "Tt" "Fl_I:tot:T"] [PN "Np"; PN "Wp"] (expl_rel t_corrected_inputs).
(* turbine.py:120-127 *)
Definition press_drop_sub : sub :=
  mkSub "press_drop" [("PR", ("", "3.0")); ("Pt_in", ("psi", "5.0"))] [("Pt_out", ("psi", ""))] [PN "PR"; PA "Pt_in" "Fl_I:tot:P"] [] (expl_rel pressure_drop).
(* turbine.py:180-197 *)
Definition blds_sub (bs : list string) : sub :=
  mkSub "blds" ([("Pt_in", ("psi", "0.0")); ("Pt_out", ("psi", "0.0"))] ++ flat_map (fun b => [((b ++ ":frac_P")%string, ("", "0.0")); ((b ++ ":W")%string, ("lbm/s", "0.0"))]) bs)
    (flat_map (fun b => [((b ++ ":Pt")%string, ("psi", ""))]) bs) (PA "Pt_in" "Fl_I:tot:P" :: map (fun b => PN (b ++ ":frac_P")%string) bs) [] (expl_rel (bleed_pressure bs)).
(* turbine.py:239-272 *)
Definition pwr_turb_sub (bs : list string) : sub :=
  mkSub "pwr_turb"
    ([("W_in", ("lbm/s", "30.0")); ("W_out", ("lbm/s", "30.0")); ("ht_in", ("Btu/lbm", "10.0")); ("ht_out_ideal", ("Btu/lbm", "10.0")); ("eff", ("", "1.0")); ("Nmech", ("rpm", "1000.0"))] ++
     flat_map (fun b => [((b ++ ":W")%string, ("lbm/s", "0.0")); ((b ++ ":ht")%string, ("Btu/lbm", "0.0")); ((b ++ ":ht_ideal")%string, ("Btu/lbm", "0.0"))]) bs)
    [("ht_out_b4bld", ("Btu/lbm", "")); ("ht_out", ("Btu/lbm", "")); ("power", ("hp", "")); ("trq", ("ft*lbf", ""))]
    ([PN "Nmech"; PN "eff"; PN "W_out"; PA "W_in" "Fl_I:stat:W"; PA "ht_in" "Fl_I:tot:h"] ++ map (fun b => PA (b ++ ":W")%string (b ++ ":stat:W")%string) bs ++
     map (fun b => PA (b ++ ":ht")%string (b ++ ":tot:h")%string) bs ++ map (fun b => PA (b ++ ":ht_ideal")%string (b ++ "_ideal.h")%string) bs)
    [PN "power"; PN "trq"; PN "ht_out_b4bld"] (expl_rel (enthalpy_and_power bs)).
Definition t_eff_poly_sub : sub :=
  mkSub "eff_poly_calc" eff_poly_ins [("eff_poly", ("", "1.0"))] [PN "PR"; PA "S_in" "Fl_I:tot:S"; PA "Rt" "Fl_I:tot:R"] [PN "eff_poly"] (expl_rel t_eff_poly).
Definition t_map_pin (design : bool) : list promo := if design then [PN "Np"; PN "Wp"; PN "PR"; PN "eff"] else [PN "Np"; PN "Wp"; PN "s_PR"; PN "s_Wp"; PN "s_eff"; PN "s_Np"].
Definition t_map_pout (design : bool) : list promo := if design then [PN "s_PR"; PN "s_Wp"; PN "s_eff"; PN "s_Np"] else [PN "PR"; PN "eff"].
(* a is the flow-mode ThermoAdd built in pyc_setup_output_ports, mix_names = bleed_names *)
Definition turbine (mp : R -> R -> R -> string -> R -> Prop) (a : adder) (bs : list string) (statics design : bool) : group :=
  mkGroup
    ([flow_in "in_flow" "Fl_I" [PG "Fl_I:"]; t_corr_sub; group_sub "map" (turbine_map mp design) (t_map_pin design) (t_map_pout design); press_drop_sub;
      tsub "ideal_flow" total_SP "flow" [PA "S" "Fl_I:tot:S"; PA "composition" "Fl_I:tot:composition"] []] ++
     map (fun b => flow_in b b [PG (b ++ ":")%string]) bs ++
     [add_sub "bld_add" a ([PN "Fl_I:stat:W"; PN "Fl_I:tot:composition"] ++ map (fun b => PA (b ++ ":W")%string (b ++ ":stat:W")%string) bs ++
                           map (fun b => PA (b ++ ":composition")%string (b ++ ":tot:composition")%string) bs) [PA "Wout" "W_out"];
      blds_sub bs] ++
     flat_map (fun b => [tsub (b ++ "_inflow")%string total_hP "flow" [PA "composition" (b ++ ":tot:composition")%string; PA "h" (b ++ ":tot:h")%string] [];
                         tsub (b ++ "_ideal")%string total_SP "flow" [PA "composition" (b ++ ":tot:composition")%string] []]) bs ++
     [pwr_turb_sub bs; tsub "real_flow_b4bld" total_hP "Fl_O_b4bld:tot" [PA "composition" "Fl_I:tot:composition"] []; t_eff_poly_sub;
      tsub "real_flow" total_hP "Fl_O:tot" [] [PG "Fl_O:tot:"]] ++
     (if statics then [tsub "out_stat" (stat_mode design) "Fl_O:stat" [PN (if design then "MN" else "area")] [PG "Fl_O:stat:"]]
      else [pass_sub "W_passthru" "W_out" "Fl_O:stat:W"]))
    ([("press_drop.Pt_out", "ideal_flow.P"); ("press_drop.Pt_out", "blds.Pt_out")] ++
     flat_map (fun b => [(("blds." ++ b ++ ":Pt")%string, (b ++ "_inflow.P")%string); ((b ++ "_inflow.flow:S")%string, (b ++ "_ideal.S")%string); ("press_drop.Pt_out", (b ++ "_ideal.P")%string)]) bs ++
     [("ideal_flow.h", "pwr_turb.ht_out_ideal"); ("ht_out_b4bld", "real_flow_b4bld.h"); ("press_drop.Pt_out", "real_flow_b4bld.P");
      ("real_flow_b4bld.Fl_O_b4bld:tot:S", "eff_poly_calc.S_out"); ("pwr_turb.ht_out", "real_flow.h"); ("press_drop.Pt_out", "real_flow.P"); ("bld_add.composition_out", "real_flow.composition")] ++
     (if statics then [("bld_add.composition_out", "out_stat.composition")] ++ stat_conns "Fl_O:tot" "out_stat" ++ [("W_out", "out_stat.W")] else []))
    ["eff"].

(* ---------- nozzle.py:318-445 ---------- *)
(* nozzle.py:20-23 *)
Definition pr_bal_sub : sub :=
  mkSub "PR_bal" [("Ps_exhaust", ("lbf/inch**2", "5.0")); ("Ps_calc", ("lbf/inch**2", "5.0"))] [("PR", ("", "2.0"))] [PG ""] [PG ""] (impl_rel pr_bal).
(* nozzle.py:42-48 *)
Definition press_calcs_sub : sub :=
  mkSub "press_calcs" [("Pt_in", ("lbf/inch**2", "10.0")); ("PR", ("", "2.0")); ("dPqP", ("", "0.0"))] [("Pt_th", ("lbf/inch**2", "")); ("Ps_calc", ("lbf/inch**2", "5.0"))]
    [PA "Pt_in" "Fl_I:tot:P"; PN "PR"; PN "dPqP"] [PN "Ps_calc"] (expl_rel pressure_calcs).
(* nozzle.py:161-195; the output 'choked' is never written, so it is not related to anything *)
Definition mux_units : list (string * string) :=
  [("h", "Btu/lbm"); ("T", "degR"); ("P", "lbf/inch**2"); ("rho", "lbm/ft**3"); ("gamma", ""); ("V", "ft/s"); ("Vsonic", "ft/s"); ("MN", ""); ("area", "inch**2"); ("Cp", "Btu/(lbm*degR)");
   ("Cv", "Btu/(lbm*degR)"); ("W", "lbm/s")].
Definition mux_sub (nt : nozz) : sub :=
  mkSub "mux" ([("Ps_calc", ("lbf/inch**2", "5.0")); ("S", ("Btu/(lbm*degR)", "0.0"))] ++
               flat_map (fun pre => map (fun xu => ((pre ++ ":" ++ fst xu)%string, (snd xu, "0.0"))) mux_units) ["Ps"; "MN"])
    (("choked", ("", "")) :: flat_map (fun pre => map (fun xu => ((pre ++ ":stat:" ++ fst xu)%string, (snd xu, ""))) (mux_units ++ [("S", "Btu/(lbm*degR)")])) ["Throat"; "Fl_O"])
    [PA "Ps:W" "Fl_I:stat:W"; PA "MN:W" "Fl_I:stat:W"; PA "Ps:P" "Ps_calc"; PN "Ps_calc"] [PC ":stat:"]
    (fun li lo => forall o, In o (outs (mux nt "Fl_O")) -> o <> V "choked" -> vget lo o = compute (mux nt "Fl_O") (vget li) (fun _ => 0) o).
(* nozzle.py:81-98 *)
Definition perf_sub (lc : loss_coef) : sub :=
  mkSub "perf_calcs"
    ([("W_in", ("lbm/s", "1.0")); ("Ps_calc", ("lbf/inch**2", "5.0")); ("V_ideal", ("ft/s", "10.0"))] ++
     match lc with
     | Cfg => [("Cfg", ("", "1.0"))]
     | Cv => [("Cv", ("", "1.0")); ("Cang", ("", "1.0")); ("CmixCorr", ("", "1.0")); ("V_actual", ("ft/s", "10.0")); ("A_actual", ("inch**2", "1.0")); ("Ps_actual", ("lbf/inch**2", "5.0"))]
     end)
    [("Fg_ideal", ("lbf", "12000.0")); ("Fg", ("lbf", "11800.0"))] (PA "W_in" "Fl_I:stat:W" :: match lc with Cfg => [PN "Cfg"; PN "Ps_calc"] | Cv => [PN "Cv"; PN "Ps_calc"] end) [PN "Fg"]
    (expl_rel (nozzle_perf lc)).
Definition nozzle (nt : nozz) (lc : loss_coef) : group :=
  let from_in := [PA "ht" "Fl_I:tot:h"; PA "W" "Fl_I:stat:W"] in
  let comp := PA "composition" "Fl_I:tot:composition" in
  mkGroup
    [indep "mach_choked" "MN" 1; flow_in "in_flow" "Fl_I" [PG "Fl_I:"]; pr_bal_sub; press_calcs_sub;
     tsub "throat_total" total_hP "Fl_O:tot" [PA "h" "Fl_I:tot:h"; comp] [PG "Fl_O:"];
     tsub "staticMN" static_MN "flow" (from_in ++ [comp]) [];
     tsub "staticPs" static_Ps "flow" (from_in ++ [PA "Ps" "Ps_calc"; comp]) [];
     tsub "ideal_flow" static_Ps "flow" ([PA "ht" "Fl_I:tot:h"; PA "S" "Fl_I:tot:S"; PA "W" "Fl_I:stat:W"] ++ [PA "Ps" "Ps_calc"; comp]) [];
     mux_sub nt; perf_sub lc]
    ([("press_calcs.Pt_th", "throat_total.P"); ("throat_total.S", "staticMN.S"); ("mach_choked.MN", "staticMN.MN"); ("press_calcs.Pt_th", "staticMN.guess:Pt"); ("throat_total.gamma", "staticMN.guess:gamt");
      ("throat_total.S", "staticPs.S"); ("throat_total.S", "mux.S")] ++
     map (fun x => (("staticPs." ++ x)%string, ("mux.Ps:" ++ x)%string)) ["h"; "T"; "rho"; "gamma"; "Cp"; "Cv"; "V"; "Vsonic"; "MN"; "area"] ++
     map (fun x => (("staticMN." ++ x)%string, ("mux.MN:" ++ x)%string)) ["h"; "T"; "rho"; "gamma"; "Cp"; "Cv"; "V"; "Vsonic"; "area"] ++
     [("staticMN.Ps", "mux.MN:P"); ("mach_choked.MN", "mux.MN:MN"); ("ideal_flow.V", "perf_calcs.V_ideal")] ++
     match lc with Cv => [("Fl_O:stat:V", "perf_calcs.V_actual"); ("Fl_O:stat:area", "perf_calcs.A_actual"); ("Fl_O:stat:P", "perf_calcs.Ps_actual")] | Cfg => [] end) [].

(* ---------- mixer.py:155-315; one: designed_stream = 1 ---------- *)
(* mixer.py:19-30 *)
Definition mix_impulse_sub (one : bool) : sub :=
  mkSub "impulse_mix"
    (flat_map (fun i => [((i ++ ":stat:W")%string, ("kg/s", "0.0")); ((i ++ ":stat:P")%string, ("Pa", "0.0")); ((i ++ ":stat:V")%string, ("m/s", "0.0")); ((i ++ ":stat:area")%string, ("m**2", "0.0"))]) ["Fl_I1"; "Fl_I2"])
    [("impulse_mix", ("N", "0."))]
    (let calc i := map (fun x => PA (i ++ ":stat:" ++ x)%string (i ++ "_calc:stat:" ++ x)%string) ["W"; "P"; "V"; "area"] in
     let given i := map (fun x => PN (i ++ ":stat:" ++ x)%string) ["W"; "P"; "V"; "area"] in
     if one then calc "Fl_I1" ++ given "Fl_I2" else given "Fl_I1" ++ calc "Fl_I2") [] (expl_rel mix_impulse).
(* mixer.py:62-65 *)
Definition area_calc_sub (one : bool) : sub :=
  mkSub "area_calc" [("Fl_I1:stat:area", ("m**2", "1.")); ("Fl_I2:stat:area", ("m**2", "1."))] [("area_sum", ("m**2", "1."))]
    [PN (if one then "Fl_I2:stat:area" else "Fl_I1:stat:area")] [PA "area_sum" "area"] (expl_rel area_sum).
(* om.ExecComp('ER=Pt1/Pt2') *)
Definition er_sub : sub :=
  mkSub "extraction_ratio" [("Pt1", ("Pa", "1.0")); ("Pt2", ("Pa", "1.0"))] [("ER", ("", "1.0"))] [PA "Pt1" "Fl_I1:tot:P"; PA "Pt2" "Fl_I2:tot:P"] [PN "ER"]
    (fun li lo => lo "ER" 0%nat = li "Pt1" 0%nat / li "Pt2" 0%nat).
(* mixer.py:76-83 *)
Definition imp_out_sub : sub :=
  mkSub "imp_out" [("P", ("Pa", "1.0")); ("area", ("m**2", "1.0")); ("V", ("m/s", "1.0")); ("W", ("kg/s", "1.0"))] [("impulse", ("N", "1.0"))] [] [] (expl_rel impulse).
(* mixer.py:255-312 impulse_converge *)
Definition mix_conv : group :=
  mkGroup
    [tsub "out_tot" total_hP "Fl_O:tot" [] [PG "Fl_O:tot:"]; tsub "out_stat" static_A "Fl_O:stat" [PN "area"] [PG "Fl_O:stat:"]; imp_out_sub;
     bal_sub "balance" [mkBal "P_tot" "psi" "N" "lhs:P_tot" "rhs:P_tot"] [] []]
    [("Fl_O:tot:S", "out_stat.S"); ("Fl_O:tot:P", "out_stat.guess:Pt"); ("Fl_O:tot:gamma", "out_stat.guess:gamt"); ("Fl_O:stat:P", "imp_out.P"); ("Fl_O:stat:area", "imp_out.area");
     ("Fl_O:stat:V", "imp_out.V"); ("Fl_O:stat:W", "imp_out.W"); ("balance.P_tot", "out_tot.P"); ("imp_out.impulse", "balance.lhs:P_tot")] [].
(* a is the flow-mode ThermoAdd with the single mix name 'mix' *)
Definition mixer (a : adder) (one design : bool) : group :=
  let i := if one then "Fl_I1" else "Fl_I2" in                       (* the designed stream *)
  let j := if one then "Fl_I2" else "Fl_I1" in
  let name := (i ++ "_stat_calc")%string in
  let from := [PA "composition" (i ++ ":tot:composition")%string; PA "S" (i ++ ":tot:S")%string; PA "ht" (i ++ ":tot:h")%string; PA "W" (i ++ ":stat:W")%string] in
  let glob := if one then [PG "Fl_I1_calc:stat"] else if design then [PG "Fl_I2_calc:stat:"] else [PG "Fl_I2_calc:stat"] in
  mkGroup
    ([flow_in "in_flow1" "Fl_I1" [PG "Fl_I1:"]; flow_in "in_flow2" "Fl_I2" [PG "Fl_I2:"]] ++
     (if design
      then [tsub name static_Ps (i ++ "_calc:stat")%string (from ++ [PA "Ps" (j ++ ":stat:P")%string]) glob; area_calc_sub one]
      else [tsub name static_A (i ++ "_calc:stat")%string (from ++ [PA "guess:Pt" (i ++ ":tot:P")%string; PA "guess:gamt" (i ++ ":tot:gamma")%string]) glob]) ++
     [er_sub;
      add_sub "flow_add" a [PA "Fl_I:stat:W" "Fl_I1:stat:W"; PA "Fl_I:tot:composition" "Fl_I1:tot:composition"; PA "Fl_I:tot:h" "Fl_I1:tot:h"; PA "mix:W" "Fl_I2:stat:W";
                            PA "mix:composition" "Fl_I2:tot:composition"; PA "mix:h" "Fl_I2:tot:h"] [];
      mix_impulse_sub one; group_sub "impulse_converge" mix_conv [PG ""] [PG ""]])
    ((if design then [((i ++ "_calc:stat:area")%string, ("area_calc." ++ i ++ ":stat:area")%string)] else []) ++
     [("flow_add.composition_out", "out_tot.composition"); ("flow_add.mass_avg_h", "out_tot.h"); ("flow_add.composition_out", "out_stat.composition"); ("flow_add.Wout", "out_stat.W");
      ("flow_add.mass_avg_h", "out_stat.ht"); ("impulse_mix.impulse_mix", "balance.rhs:P_tot")]) [].
End Elements.
