(* Model of pycycle/element_base.py (port data of an Element) and of pyc_setup_output_ports of every element in pycycle/elements. *)
From Verif Require Export Model_ThermoAdd.
From Verif Require Model_Graph.
Open Scope string_scope. Open Scope list_scope.
(* what a port dictionary holds: a composition dictionary, or python's None *)
Definition pdata := option (dict R).
(* element_base.py:19-20 Fl_I_data and Fl_O_data *)
Record elem := mkElem { fl_i : dict pdata; fl_o : dict pdata }.
(* the argument of copy_flow: a string, a ThermoAdd (represented by what its output_port_data() returns or raises), anything else *)
Inductive flow_src := Port (name : string) | Adder (r : res pdata) | OtherObj.
Definition put (e : elem) (port : string) (d : pdata) : elem := mkElem (fl_i e) (dset (fl_o e) port d).
(* element_base.py:31-46; d[k] of a missing key raises KeyError before anything is stored *)
Definition copy_flow (e : elem) (src : flow_src) (output_port : string) : res elem :=
  match src with
  | Port s => match dget (fl_i e) s with Some d => Ok (put e output_port d) | None => Err KeyError end
  | Adder r => match r with Ok d => Ok (put e output_port d) | Err x => Err x end
  | OtherObj => Err ValueError
  end.
(* element_base.py:48-56 *)
Inductive flow_init := FromAdder (r : res pdata) | Data (d : pdata).
Definition init_output_flow (e : elem) (port_name : string) (port_data : flow_init) : res elem :=
  match port_data with
  | FromAdder r => match r with Ok d => Ok (put e port_name d) | Err x => Err x end
  | Data d => Ok (put e port_name d)
  end.
(* thermo.py:190-248 ThermoAdd.output_port_data: delegates to the adder of the chosen method *)
Inductive tmethod := M_CEA | M_TABULAR.
(* the fuel or reactant added to one stream. CEA: a missing inflow composition means air. The tabular adder's output_port_data
   returns None (tabular/thermo_add.py:30-46) *)
Definition react_data (m : tmethod) (sp : spec_data) (inflow : pdata) (reactant : string) : res pdata :=
  match m with
  | M_CEA => match cea_port_data (mkCea sp inflow (Reactants [reactant]) ["mix"]) with Ok d => Ok (Some d) | Err x => Err x end
  | M_TABULAR => match tab_port_data (mkTab inflow (TReactant reactant) ["mix"]) with Ok d => Ok d | Err x => Err x end
  end.
Fixpoint all_dicts (l : list pdata) : option (list (dict R)) :=
  match l with
  | [] => Some []
  | Some d :: r => match all_dicts r with Some ds => Some (d :: ds) | None => None end
  | None :: _ => None
  end.
(* streams mixed into one stream; CEA: mixed.update(None) is a TypeError, reported here as UserError *)
Definition mix_data (m : tmethod) (sp : spec_data) (inflow : pdata) (streams : list pdata) (names : list string) : res pdata :=
  match m with
  | M_CEA => match all_dicts streams with
             | Some ds => match cea_port_data (mkCea sp inflow (Flows ds) names) with Ok d => Ok (Some d) | Err x => Err x end
             | None => Err UserError
             end
  | M_TABULAR => match tab_port_data (mkTab inflow TFlow names) with Ok d => Ok d | Err x => Err x end
  end.
(* constants.py:35-38 THERMO_DEFAULT_COMPOSITIONS *)
Definition default_composition (m : tmethod) : dict R := match m with M_CEA => CEA_AIR_COMPOSITION | M_TABULAR => TAB_AIR_FUEL_COMPOSITION end.
(* the elements and the options their pyc_setup_output_ports reads *)
Inductive kind :=
| KPass                                            (* Inlet, Duct, Nozzle: inlet.py, duct.py, nozzle.py *)
| KBleeds (bs : list string)                       (* Compressor, BleedOut *)
| KSplitter
| KStart (composition : pdata) (reactant : option string) (* FlowStart, FlightConditions; CFDStart with reactant = None *)
| KCombustor (fuel : string)
| KMixer
| KTurbine (bs : list string)
| KCooling (n_stages : nat).
Fixpoint copies (e : elem) (src : string) (ports : list string) : res elem :=
  match ports with
  | [] => Ok e
  | p :: r => match copy_flow e (Port src) p with Ok e' => copies e' src r | Err x => Err x end
  end.
Fixpoint get_ports (e : elem) (l : list string) : res (list pdata) :=
  match l with
  | [] => Ok []
  | p :: r => match dget (fl_i e) p with
              | None => Err KeyError
              | Some d => match get_ports e r with Ok ds => Ok (d :: ds) | Err x => Err x end
              end
  end.
(* pyc_setup_output_ports: inlet.py, duct.py, nozzle.py, bleed_out.py, compressor.py, splitter.py, flow_start.py,
   flight_conditions.py, cfd_start.py, combustor.py, mixer.py, turbine.py, cooling.py. cooling.py writes every row to the
   one port named by the raw string r'row_{i}.Fl_O' *)
Definition setup_ports (m : tmethod) (sp : spec_data) (k : kind) (e : elem) : res elem :=
  match k with
  | KPass => copy_flow e (Port "Fl_I") "Fl_O"
  | KBleeds bs => copies e "Fl_I" ("Fl_O" :: bs)
  | KSplitter => copies e "Fl_I" ["Fl_O1"; "Fl_O2"]
  | KStart c (Some r) => init_output_flow e "Fl_O" (FromAdder (react_data m sp c r))
  | KStart c None => init_output_flow e "Fl_O" (Data (match c with Some d => Some d | None => Some (default_composition m) end))
  | KCombustor fuel => match dget (fl_i e) "Fl_I" with
                       | None => Err KeyError
                       | Some d => copy_flow e (Adder (react_data m sp d fuel)) "Fl_O"
                       end
  | KMixer => match get_ports e ["Fl_I1"; "Fl_I2"] with
              | Err x => Err x
              | Ok [d1; d2] => copy_flow e (Adder (mix_data m sp d1 [d2] ["mix"])) "Fl_O"
              | Ok _ => Err UserError                      (* unreachable *)
              end
  | KTurbine bs => match dget (fl_i e) "Fl_I" with
                   | None => Err KeyError
                   | Some d => match get_ports e bs with
                               | Err x => Err x
                               | Ok ds => copy_flow e (Adder (mix_data m sp d ds bs)) "Fl_O"
                               end
                   end
  | KCooling n => copies e "Fl_turb_I" (repeat "row_{i}.Fl_O" (2 * n))
  end.
(* the callback used by Cycle.setup (mp_cycle.py:124-126); an element class without pyc_setup_output_ports is not modelled *)
Definition port_behaviour (m : tmethod) (sp : spec_data) (kinds : string -> kind) : @Model_Graph.behaviour pdata :=
  fun n di do_ => match setup_ports m sp (kinds n) (mkElem di do_) with Ok e => Ok (fl_o e) | Err x => Err x end.
(* the ports read and written *)
Definition in_ports (k : kind) : list string :=
  match k with
  | KPass | KBleeds _ | KSplitter | KCombustor _ => ["Fl_I"]
  | KStart _ _ => []
  | KMixer => ["Fl_I1"; "Fl_I2"]
  | KTurbine bs => "Fl_I" :: bs
  | KCooling _ => ["Fl_turb_I"]
  end.
Definition out_ports (k : kind) : list string :=
  match k with
  | KPass | KStart _ _ | KCombustor _ | KMixer | KTurbine _ => ["Fl_O"]
  | KBleeds bs => "Fl_O" :: bs
  | KSplitter => ["Fl_O1"; "Fl_O2"]
  | KCooling _ => ["row_{i}.Fl_O"]
  end.
