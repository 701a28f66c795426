(* Model of the `composition` option every thermo station of an element is built with, and of the composition vector it is connected to, in
   pycycle/elements (method CEA). A station lays its composition input out as Properties(spec, composition).elements, the sorted keys of that
   option (chem_eq.py:335-348, species_data.py), whatever the vector it receives was written for. *)
From Verif Require Export Model_Cycle Model_Ports.
Open Scope string_scope. Open Scope list_scope. Open Scope R_scope.

(* st_name: the subsystem; st_input: the element's variable its `composition` input is; st_built: the port whose port data is the station's
   `composition` option; st_fed: the port whose composition vector it receives *)
Record station_of := mkSt { st_name : string; st_input : string; st_built : string; st_fed : string }.
(* built with self.Fl_I_data['Fl_I'] and fed Fl_I:tot:composition *)
Definition plain_st (s : string) : station_of := mkSt s "Fl_I:tot:composition" "Fl_I" "Fl_I".
Definition stations (k : ekind) : list station_of :=
  match k with
  | EStart _ => [mkSt "totals" "composition" "Fl_O" "Fl_O"; mkSt "exit_static" "composition" "Fl_O" "Fl_O"]        (* flow_start.py:53-80 *)
  | EFlight _ | ECfd =>                                                                                            (* flight_conditions.py:58-70, cfd_start.py:28-32: a FlowStart *)
      [mkSt "totals" "fs.composition" "Fl_O" "Fl_O"; mkSt "exit_static" "fs.composition" "Fl_O" "Fl_O"]
  | EInlet st | EDuct st _ _ => plain_st "real_flow" :: (if st then [plain_st "out_stat"] else [])                 (* inlet.py:148-196, duct.py:174-234 *)
  | ESplitter st => [plain_st "real_flow1"; plain_st "real_flow2"] ++ (if st then [plain_st "out1_stat"; plain_st "out2_stat"] else []) (* splitter.py:102-186 *)
  | EBleedOut bs st => map (fun b => plain_st (b ++ "_flow")%string) bs ++ [plain_st "real_flow"] ++ (if st then [plain_st "out_stat"] else []) (* bleed_out.py:109-168 *)
  | ECombustor _ st =>                                                                                             (* combustor.py:92,111-148 *)
      mkSt "vitiated_flow" "vitiated_flow.composition" "Fl_O" "Fl_O" :: (if st then [mkSt "out_stat" "out_stat.composition" "Fl_O" "Fl_O"] else [])
  | ECompressor _ _ bs st =>                                                                                       (* compressor.py:440-553 *)
      [plain_st "ideal_flow"; plain_st "real_flow"] ++ map (fun b => plain_st (b ++ "_flow")%string) bs ++ (if st then [plain_st "out_stat"] else [])
  | ETurbine _ _ bs st =>
      [plain_st "ideal_flow"; plain_st "real_flow_b4bld"] ++                                                       (* turbine.py:470,566-574 *)
      flat_map (fun b => [mkSt (b ++ "_inflow") (b ++ ":tot:composition") b b; mkSt (b ++ "_ideal") (b ++ ":tot:composition") b b]%string) bs ++ (* turbine.py:533-549 *)
      mkSt "real_flow" "real_flow.composition" "Fl_I" "Fl_O" ::                                                    (* turbine.py:470,581-587: built with the inlet's data *)
      (if st then [mkSt "out_stat" "out_stat.composition" "Fl_I" "Fl_O"] else [])                                  (* turbine.py:592-616 *)
  | ENozzle _ _ => [plain_st "throat_total"; plain_st "staticMN"; plain_st "staticPs"; plain_st "ideal_flow"]      (* nozzle.py:324-397 *)
  | EMixer _ one =>
      (* mixer.py:169-236: flow2_composition is read from Fl_I_data['Fl_I1'] (line 173) *)
      (if one then mkSt "Fl_I1_stat_calc" "Fl_I1:tot:composition" "Fl_I1" "Fl_I1" else mkSt "Fl_I2_stat_calc" "Fl_I2:tot:composition" "Fl_I1" "Fl_I2") ::
      [mkSt "out_tot" "out_tot.composition" "Fl_I1" "Fl_O"; mkSt "out_stat" "out_stat.composition" "Fl_I1" "Fl_O"]  (* mixer.py:278-292 *)
  end.
(* OpenMDAO refuses to connect variables of different sizes. A station's composition input has one entry per key of its option (chem_eq.py:94, val=thermo.b0);
   the mixing component's composition_out one per key of the outlet's port data, its inputs one per key of the inlets' (cea/thermo_add.py:113-134); a station
   that shares its input with another station or with the mixing component is connected to the same source. *)
Definition vec_size (d : dict R) : nat := List.length (dkeys d).
Definition accepted (lab : port -> dict R) (n : string) (k : ekind) : Prop :=
  forall st, In st (stations k) -> vec_size (lab (n, st_built st)) = vec_size (lab (n, st_fed st)).
