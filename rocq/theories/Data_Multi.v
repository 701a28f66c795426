(* GENERATED by tools/gen_multi.py from the MPCycle classes of /repo/example_cycles (read as text). N3's point RTO (with turbine cooling) is left out: its
   coolant flows are sized by the cooling rows, which are not part of the cycle model. *)
From Verif Require Export Model_Multi Data_Examples.
Open Scope string_scope. Open Scope list_scope.
(* simple_turbojet.py:159-191 MPTurbojet *)
Definition m_Turbojet : multi := mkMulti "MPTurbojet" x_Turbojet x_Turbojet_od
  ["burner.dPqP"; "nozz.Cv"]
  true
  [("nozz.Throat:stat:area", "balance.rhs:W")].
(* wet_simple_turbojet.py:153-188 MPWetTurbojet *)
Definition m_WetTurbojet : multi := mkMulti "MPWetTurbojet" x_WetTurbojet x_WetTurbojet_od
  ["burner.dPqP"; "nozz.Cv"; "fc.WAR"]
  true
  [("nozz.Throat:stat:area", "balance.rhs:W")].
(* afterburning_turbojet.py:169-230 MPABTurbojet *)
Definition m_ABTurbojet : multi := mkMulti "MPABTurbojet" x_ABTurbojet x_ABTurbojet_od
  ["duct1.dPqP"; "burner.dPqP"; "ab.dPqP"; "nozz.Cv"; "comp.cool1:frac_W"; "comp.cool1:frac_P"; "comp.cool1:frac_work"; "comp.cool2:frac_W"; "comp.cool2:frac_P"; "comp.cool2:frac_work"; "turb.cool1:frac_P"; "turb.cool2:frac_P"]
  false
  [("comp.s_PR", "comp.s_PR"); ("comp.s_Wc", "comp.s_Wc"); ("comp.s_eff", "comp.s_eff"); ("comp.s_Nc", "comp.s_Nc"); ("turb.s_PR", "turb.s_PR"); ("turb.s_Wp", "turb.s_Wp"); ("turb.s_eff", "turb.s_eff"); ("turb.s_Np", "turb.s_Np"); ("inlet.Fl_O:stat:area", "inlet.area"); ("duct1.Fl_O:stat:area", "duct1.area"); ("comp.Fl_O:stat:area", "comp.area"); ("burner.Fl_O:stat:area", "burner.area"); ("turb.Fl_O:stat:area", "turb.area"); ("ab.Fl_O:stat:area", "ab.area")].
(* electric_propulsor.py:120-142 MPpropulsor *)
Definition m_Propulsor : multi := mkMulti "MPpropulsor" x_Propulsor x_Propulsor_od
  ["pwr_target"]
  true
  [("nozz.Throat:stat:area", "balance.rhs:W")].
(* wet_propulsor.py:102-129 MPWetPropulsor *)
Definition m_WetPropulsor : multi := mkMulti "MPWetPropulsor" x_WetPropulsor x_WetPropulsor_od
  ["pwr_target"]
  true
  [("nozz.Throat:stat:area", "balance.rhs:W")].
(* single_spool_turboshaft.py:164-197 MPSingleSpool *)
Definition m_SingleSpoolTurboshaft : multi := mkMulti "MPSingleSpool" x_SingleSpoolTurboshaft x_SingleSpoolTurboshaft_od
  ["burner.dPqP"; "nozz.Cv"]
  true
  [("nozz.Throat:stat:area", "balance.rhs:W")].
(* multi_spool_turboshaft.py:199-298 MPMultiSpool *)
Definition m_MultiSpoolTurboshaft : multi := mkMulti "MPMultiSpool" x_MultiSpoolTurboshaft x_MultiSpoolTurboshaft_od
  ["inlet.ram_recovery"; "duct1.dPqP"; "icduct.dPqP"; "bld25.cool1:frac_W"; "bld25.cool2:frac_W"; "duct6.dPqP"; "burner.dPqP"; "bld3.cool3:frac_W"; "bld3.cool4:frac_W"; "duct43.dPqP"; "itduct.dPqP"; "duct12.dPqP"; "nozzle.Cv"; "hpt.cool3:frac_P"; "hpt.cool4:frac_P"; "lpt.cool1:frac_P"; "lpt.cool2:frac_P"]
  false
  [("lpc.s_PR", "lpc.s_PR"); ("lpc.s_Wc", "lpc.s_Wc"); ("lpc.s_eff", "lpc.s_eff"); ("lpc.s_Nc", "lpc.s_Nc"); ("hpc_axi.s_PR", "hpc_axi.s_PR"); ("hpc_axi.s_Wc", "hpc_axi.s_Wc"); ("hpc_axi.s_eff", "hpc_axi.s_eff"); ("hpc_axi.s_Nc", "hpc_axi.s_Nc"); ("hpc_centri.s_PR", "hpc_centri.s_PR"); ("hpc_centri.s_Wc", "hpc_centri.s_Wc"); ("hpc_centri.s_eff", "hpc_centri.s_eff"); ("hpc_centri.s_Nc", "hpc_centri.s_Nc"); ("hpt.s_PR", "hpt.s_PR"); ("hpt.s_Wp", "hpt.s_Wp"); ("hpt.s_eff", "hpt.s_eff"); ("hpt.s_Np", "hpt.s_Np"); ("lpt.s_PR", "lpt.s_PR"); ("lpt.s_Wp", "lpt.s_Wp"); ("lpt.s_eff", "lpt.s_eff"); ("lpt.s_Np", "lpt.s_Np"); ("pt.s_PR", "pt.s_PR"); ("pt.s_Wp", "pt.s_Wp"); ("pt.s_eff", "pt.s_eff"); ("pt.s_Np", "pt.s_Np"); ("inlet.Fl_O:stat:area", "inlet.area"); ("duct1.Fl_O:stat:area", "duct1.area"); ("lpc.Fl_O:stat:area", "lpc.area"); ("icduct.Fl_O:stat:area", "icduct.area"); ("hpc_axi.Fl_O:stat:area", "hpc_axi.area"); ("bld25.Fl_O:stat:area", "bld25.area"); ("hpc_centri.Fl_O:stat:area", "hpc_centri.area"); ("bld3.Fl_O:stat:area", "bld3.area"); ("burner.Fl_O:stat:area", "burner.area"); ("hpt.Fl_O:stat:area", "hpt.area"); ("duct43.Fl_O:stat:area", "duct43.area"); ("lpt.Fl_O:stat:area", "lpt.area"); ("itduct.Fl_O:stat:area", "itduct.area"); ("pt.Fl_O:stat:area", "pt.area"); ("duct12.Fl_O:stat:area", "duct12.area"); ("nozzle.Throat:stat:area", "balance.rhs:W")].
(* high_bypass_turbofan.py:296-376 MPhbtf; connections between points: OD_full_pwr.perf.Fn -> OD_part_pwr.Fn_max *)
Definition m_HBTF : multi := mkMulti "MPhbtf" x_HBTF x_HBTF_od
  ["inlet.ram_recovery"; "duct4.dPqP"; "duct6.dPqP"; "burner.dPqP"; "duct11.dPqP"; "duct13.dPqP"; "duct15.dPqP"; "core_nozz.Cv"; "byp_bld.bypBld:frac_W"; "byp_nozz.Cv"; "hpc.cool1:frac_W"; "hpc.cool1:frac_P"; "hpc.cool1:frac_work"; "hpc.cool2:frac_W"; "hpc.cool2:frac_P"; "hpc.cool2:frac_work"; "bld3.cool3:frac_W"; "bld3.cool4:frac_W"; "hpc.cust:frac_P"; "hpc.cust:frac_work"; "hpc.cust:frac_W"; "hpt.cool3:frac_P"; "hpt.cool4:frac_P"; "lpt.cool1:frac_P"; "lpt.cool2:frac_P"; "hp_shaft.HPX"]
  true
  [("core_nozz.Throat:stat:area", "balance.rhs:W"); ("byp_nozz.Throat:stat:area", "balance.rhs:BPR")].
(* high_bypass_turbofan.py:296-376 MPhbtf; connections between points: OD_full_pwr.perf.Fn -> OD_part_pwr.Fn_max *)
Definition m_HBTF_od_pc : multi := mkMulti "MPhbtf" x_HBTF x_HBTF_od_pc
  ["inlet.ram_recovery"; "duct4.dPqP"; "duct6.dPqP"; "burner.dPqP"; "duct11.dPqP"; "duct13.dPqP"; "duct15.dPqP"; "core_nozz.Cv"; "byp_bld.bypBld:frac_W"; "byp_nozz.Cv"; "hpc.cool1:frac_W"; "hpc.cool1:frac_P"; "hpc.cool1:frac_work"; "hpc.cool2:frac_W"; "hpc.cool2:frac_P"; "hpc.cool2:frac_work"; "bld3.cool3:frac_W"; "bld3.cool4:frac_W"; "hpc.cust:frac_P"; "hpc.cust:frac_work"; "hpc.cust:frac_W"; "hpt.cool3:frac_P"; "hpt.cool4:frac_P"; "lpt.cool1:frac_P"; "lpt.cool2:frac_P"; "hp_shaft.HPX"]
  true
  [("core_nozz.Throat:stat:area", "balance.rhs:W"); ("byp_nozz.Throat:stat:area", "balance.rhs:BPR")].
(* mixedflow_turbofan.py:230-333 MPMixedFlowTurbofan *)
Definition m_MixedFlowTurbofan : multi := mkMulti "MPMixedFlowTurbofan" x_MixedFlowTurbofan x_MixedFlowTurbofan_od
  ["balance.rhs:FAR_ab"; "hp_shaft.HPX"; "inlet.ram_recovery"; "inlet_duct.dPqP"; "splitter_core_duct.dPqP"; "lpc_duct.dPqP"; "burner.dPqP"; "hpt_duct.dPqP"; "lpt_duct.dPqP"; "bypass_duct.dPqP"; "mixer_duct.dPqP"; "afterburner.dPqP"; "mixed_nozz.Cfg"; "hpc.cool1:frac_W"; "hpc.cool1:frac_P"; "hpc.cool1:frac_work"; "bld3.cool3:frac_W"; "hpt.cool3:frac_P"; "lpt.cool1:frac_P"]
  false
  [("fan.s_PR", "fan.s_PR"); ("fan.s_Wc", "fan.s_Wc"); ("fan.s_eff", "fan.s_eff"); ("fan.s_Nc", "fan.s_Nc"); ("lpc.s_PR", "lpc.s_PR"); ("lpc.s_Wc", "lpc.s_Wc"); ("lpc.s_eff", "lpc.s_eff"); ("lpc.s_Nc", "lpc.s_Nc"); ("hpc.s_PR", "hpc.s_PR"); ("hpc.s_Wc", "hpc.s_Wc"); ("hpc.s_eff", "hpc.s_eff"); ("hpc.s_Nc", "hpc.s_Nc"); ("hpt.s_PR", "hpt.s_PR"); ("hpt.s_Wp", "hpt.s_Wp"); ("hpt.s_eff", "hpt.s_eff"); ("hpt.s_Np", "hpt.s_Np"); ("lpt.s_PR", "lpt.s_PR"); ("lpt.s_Wp", "lpt.s_Wp"); ("lpt.s_eff", "lpt.s_eff"); ("lpt.s_Np", "lpt.s_Np"); ("mixed_nozz.Throat:stat:area", "balance.rhs:W"); ("inlet.Fl_O:stat:area", "inlet.area"); ("fan.Fl_O:stat:area", "fan.area"); ("splitter.Fl_O1:stat:area", "splitter.area1"); ("splitter.Fl_O2:stat:area", "splitter.area2"); ("splitter_core_duct.Fl_O:stat:area", "splitter_core_duct.area"); ("lpc.Fl_O:stat:area", "lpc.area"); ("lpc_duct.Fl_O:stat:area", "lpc_duct.area"); ("hpc.Fl_O:stat:area", "hpc.area"); ("bld3.Fl_O:stat:area", "bld3.area"); ("burner.Fl_O:stat:area", "burner.area"); ("hpt.Fl_O:stat:area", "hpt.area"); ("hpt_duct.Fl_O:stat:area", "hpt_duct.area"); ("lpt.Fl_O:stat:area", "lpt.area"); ("lpt_duct.Fl_O:stat:area", "lpt_duct.area"); ("bypass_duct.Fl_O:stat:area", "bypass_duct.area"); ("mixer.Fl_O:stat:area", "mixer.area"); ("mixer.Fl_I1_calc:stat:area", "mixer.Fl_I1_stat_calc.area"); ("mixer_duct.Fl_O:stat:area", "mixer_duct.area"); ("afterburner.Fl_O:stat:area", "afterburner.area")].
(* N+3ref/N3ref.py:351-517 MPN3; connections between points: RTO.balance.hpt_chrg_cool_frac -> TOC.bld3.bld_exit:frac_W, RTO.balance.hpt_nochrg_cool_frac -> TOC.bld3.bld_inlet:frac_W, RTO.balance.hpt_chrg_cool_frac -> SLS.bld3.bld_exit:frac_W, RTO.balance.hpt_nochrg_cool_frac -> SLS.bld3.bld_inlet:frac_W, RTO.balance.hpt_chrg_cool_frac -> CRZ.bld3.bld_exit:frac_W, RTO.balance.hpt_nochrg_cool_frac -> CRZ.bld3.bld_inlet:frac_W, T4_ratio.TOC_T4 -> TOC.balance.rhs:FAR *)
Definition m_N3 : multi := mkMulti "MPN3" x_N3 x_N3_od
  ["burner.dPqP"; "core_nozz.Cv"; "byp_nozz.Cv"; "lp_shaft.fracLoss"; "hp_shaft.HPX"; "bld25.sbv:frac_W"; "hpc.bld_inlet:frac_W"; "hpc.bld_inlet:frac_P"; "hpc.bld_inlet:frac_work"; "hpc.bld_exit:frac_W"; "hpc.bld_exit:frac_P"; "hpc.bld_exit:frac_work"; "hpc.cust:frac_W"; "hpc.cust:frac_P"; "hpc.cust:frac_work"; "hpt.bld_inlet:frac_P"; "hpt.bld_exit:frac_P"; "lpt.bld_inlet:frac_P"; "lpt.bld_exit:frac_P"; "byp_bld.bypBld:frac_W"]
  false
  [("fan.s_PR", "fan.s_PR"); ("fan.s_Wc", "fan.s_Wc"); ("fan.s_eff", "fan.s_eff"); ("fan.s_Nc", "fan.s_Nc"); ("lpc.s_PR", "lpc.s_PR"); ("lpc.s_Wc", "lpc.s_Wc"); ("lpc.s_eff", "lpc.s_eff"); ("lpc.s_Nc", "lpc.s_Nc"); ("hpc.s_PR", "hpc.s_PR"); ("hpc.s_Wc", "hpc.s_Wc"); ("hpc.s_eff", "hpc.s_eff"); ("hpc.s_Nc", "hpc.s_Nc"); ("hpt.s_PR", "hpt.s_PR"); ("hpt.s_Wp", "hpt.s_Wp"); ("hpt.s_eff", "hpt.s_eff"); ("hpt.s_Np", "hpt.s_Np"); ("lpt.s_PR", "lpt.s_PR"); ("lpt.s_Wp", "lpt.s_Wp"); ("lpt.s_eff", "lpt.s_eff"); ("lpt.s_Np", "lpt.s_Np"); ("gearbox.gear_ratio", "gearbox.gear_ratio"); ("core_nozz.Throat:stat:area", "balance.rhs:W"); ("inlet.Fl_O:stat:area", "inlet.area"); ("fan.Fl_O:stat:area", "fan.area"); ("splitter.Fl_O1:stat:area", "splitter.area1"); ("splitter.Fl_O2:stat:area", "splitter.area2"); ("duct2.Fl_O:stat:area", "duct2.area"); ("lpc.Fl_O:stat:area", "lpc.area"); ("bld25.Fl_O:stat:area", "bld25.area"); ("duct25.Fl_O:stat:area", "duct25.area"); ("hpc.Fl_O:stat:area", "hpc.area"); ("bld3.Fl_O:stat:area", "bld3.area"); ("burner.Fl_O:stat:area", "burner.area"); ("hpt.Fl_O:stat:area", "hpt.area"); ("duct45.Fl_O:stat:area", "duct45.area"); ("lpt.Fl_O:stat:area", "lpt.area"); ("duct5.Fl_O:stat:area", "duct5.area"); ("byp_bld.Fl_O:stat:area", "byp_bld.area"); ("duct17.Fl_O:stat:area", "duct17.area"); ("duct2.s_dPqP", "duct2.s_dPqP"); ("duct25.s_dPqP", "duct25.s_dPqP"); ("duct45.s_dPqP", "duct45.s_dPqP"); ("duct5.s_dPqP", "duct5.s_dPqP"); ("duct17.s_dPqP", "duct17.s_dPqP")].
Definition multis : list multi := [m_Turbojet; m_WetTurbojet; m_ABTurbojet; m_Propulsor; m_WetPropulsor; m_SingleSpoolTurboshaft; m_MultiSpoolTurboshaft; m_HBTF; m_HBTF_od_pc; m_MixedFlowTurbofan; m_N3].
