(* Model of the MPCycle classes in /repo/example_cycles: a design point, an off-design point, and what couples them (mp_cycle.py:199-310). *)
From Verif Require Export Model_Examples.
Open Scope string_scope. Open Scope list_scope. Open Scope R_scope.

Record multi := mkMulti {
  m_name : string;
  m_des : example; m_od : example;                 (* pyc_add_pnt: the classes of the design point and of the off-design point *)
  m_params : list string;                          (* pyc_add_cycle_param *)
  m_defaults : bool;                               (* pyc_use_default_des_od_conns() *)
  m_conns : list (string * string) }.              (* pyc_connect_des_od(design source, off-design target) *)
(* default_des_od_conns: inlet.py:131, duct.py:157, splitter.py:82, bleed_out.py:90, combustor.py:65, compressor.py:402, turbine.py:428, mixer.py:178-186;
   flight conditions and nozzles have none *)
Definition default_conns (c : eclass) : list (string * string) :=
  match c with
  | XFlight _ | XNozzle _ _ => []
  | XInlet | XDuct _ | XBleedOut _ | XCombustor _ => [("Fl_O:stat:area", "area")]
  | XSplitter => [("Fl_O1:stat:area", "area1"); ("Fl_O2:stat:area", "area2")]
  | XCompressor _ => [("s_Wc", "s_Wc"); ("s_PR", "s_PR"); ("s_eff", "s_eff"); ("s_Nc", "s_Nc"); ("Fl_O:stat:area", "area")]
  | XTurbine _ => [("s_Wp", "s_Wp"); ("s_PR", "s_PR"); ("s_eff", "s_eff"); ("s_Np", "s_Np"); ("Fl_O:stat:area", "area")]
  | XMixer one => if one then [("Fl_O:stat:area", "area"); ("Fl_I1_calc:stat:area", "Fl_I1_stat_calc.area")]
                  else [("Fl_O:stat:area", "area"); ("Fl_I2_calc:stat:area", "Fl_I2_stat_calc.area")]
  end.
(* mp_cycle.py:258-290: all the connections from the design point to the off-design point, (name in the design point, name in the off-design point) *)
Definition des_od (m : multi) : list (string * string) :=
  (if m_defaults m then flat_map (fun nc => map (fun p => ((fst nc ++ "." ++ fst p)%string, (fst nc ++ "." ++ snd p)%string)) (default_conns (snd nc))) (x_els (m_des m)) else []) ++ m_conns m.
(* both points of the MPCycle are converged: the connections hold, and a cycle parameter is one input shared by both points (mp_cycle.py:292-297) *)
Record multi_converged tp (m : multi) (els : list (string * ekind)) (w w' : state) : Prop := {
  mc_des : cycle_converged tp (m_des m) els w;
  mc_od : cycle_converged tp (m_od m) els w';
  mc_conn : forall a b, In (a, b) (des_od m) -> w' b 0%nat = w a 0%nat;
  mc_param : forall p, In p (m_params m) -> w' p 0%nat = w p 0%nat }.
