{
 "claims": [
  {
   "property": "C01",
   "status": "proved",
   "theorems": [
    "C01_setup_terminates"
   ],
   "note": "termination for arbitrary graphs, including cyclic ones"
  },
  {
   "property": "C02",
   "status": "proved",
   "theorems": [
    "C02_calls_once_in_flow_order"
   ],
   "note": ""
  },
  {
   "property": "C03",
   "status": "proved",
   "theorems": [
    "C03_acyclic_all_configured",
    "C03_no_spurious_error"
   ],
   "note": ""
  },
  {
   "property": "C04",
   "status": "partial",
   "theorems": [
    "C04_configured_iff_upstream_acyclic",
    "C04_loop_reported_refuted"
   ],
   "note": "the claim is false of the code: C04_loop_reported_refuted exhibits a normal return with unconfigured elements; the exact set of configured elements is characterised by C04_configured_iff_upstream_acyclic"
  },
  {
   "property": "C05",
   "status": "proved",
   "theorems": [
    "C05_missing_port_raises",
    "C05_only_runtime_error"
   ],
   "note": ""
  },
  {
   "property": "C06",
   "status": "partial",
   "theorems": [
    "C06_flags_select_groups",
    "C06_connected_once_and_same_name",
    "C06_all_inputs_connected_refuted",
    "C06_default_connects_partial"
   ],
   "note": "false for FlowIn inputs stat:R, stat:Wc and FAR, which are never connected; proved for all others and for all flag combinations"
  },
  {
   "property": "C07",
   "status": "partial",
   "theorems": [
    "C07_port_of_element",
    "C07_nested_port_refuted"
   ],
   "note": "false for nested paths ('a.b.P' is attributed to element 'ab'); proved for one-level paths"
  },
  {
   "property": "C08",
   "status": "proved",
   "theorems": [
    "C08_options_pushed"
   ],
   "note": ""
  },
  {
   "property": "C09",
   "status": "partial",
   "theorems": [
    "C09_one_design_point",
    "C09_failed_call_changes_nothing",
    "C09_points_kept_refuted"
   ],
   "note": "uniqueness of the design point and error behaviour proved; 'all points are kept' is false for a point whose design option is neither True nor False: it is silently not recorded (C09_points_kept_refuted)"
  },
  {
   "property": "C10",
   "status": "proved",
   "theorems": [
    "C10_connections_reach_every_point",
    "C10_each_pair_connected"
   ],
   "note": ""
  },
  {
   "property": "C11",
   "status": "proved",
   "theorems": [
    "C11_params_promoted_everywhere",
    "C11_first_value_kept",
    "C11_no_design_point"
   ],
   "note": ""
  },
  {
   "property": "C12",
   "status": "partial",
   "theorems": [
    "C12_default_connections",
    "C12_no_skip",
    "C12_skip_string_refuted"
   ],
   "note": "proved for list-valued skip; a string-valued skip is tested by substring (C12_skip_string_refuted)"
  },
  {
   "property": "C13",
   "status": "proved",
   "theorems": [
    "C13_mass_normalised",
    "C13_relative_amounts",
    "C13_scale_invariant",
    "C13_order_independent"
   ],
   "note": ""
  },
  {
   "property": "C14",
   "status": "proved",
   "theorems": [
    "C14_rejections",
    "C14_products"
   ],
   "note": ""
  },
  {
   "property": "C15",
   "status": "proved",
   "theorems": [
    "C15_consistent"
   ],
   "note": "stated on the values returned by the object after any history of calls"
  },
  {
   "property": "C16",
   "status": "partial",
   "theorems": [
    "C16_transparent_partial",
    "C16_same_as_fresh_partial",
    "C16_breakpoint_partial",
    "C16_breakpoint_refuted"
   ],
   "note": "false exactly at the junction temperatures of two fits: there the answer depends on the history (C16_breakpoint_refuted, with the shipped N/N2 data at T=1000 after a query at 1500); proved for every other temperature and every history (C16_transparent_partial, C16_same_as_fresh_partial); at a junction the answer is one of the two adjacent fits (C16_breakpoint_partial)"
  },
  {
   "property": "C17",
   "status": "proved",
   "theorems": [
    "C17_reactants",
    "C17_flows",
    "C17_flow_names"
   ],
   "note": "for any number of reactants or streams and any data set; element masses are stated through mass fractions defined in Spec_Mix.v"
  },
  {
   "property": "C18",
   "status": "proved",
   "theorems": [
    "C18_reactants",
    "C18_flows",
    "C18_tabular"
   ],
   "note": ""
  },
  {
   "property": "C19",
   "status": "partial",
   "theorems": [
    "C19_cea_announced",
    "C19_cea_unknown_reactant",
    "C19_cea_vector",
    "C19_index_found",
    "C19_surplus_reactant_refuted",
    "C19_default_inflow_refuted",
    "C19_tabular_refuted"
   ],
   "note": "CEA: announced elements = inflow plus listed reactants/streams and one vector entry per announced element. False in three corners: a reactant listed without a mix name is announced but never mixed (C19_surplus_reactant_refuted); with the default (None) inflow the port data is announced but setup fails (C19_default_inflow_refuted); the tabular method announces nothing (C19_tabular_refuted)"
  },
  {
   "property": "C20",
   "status": "partial",
   "theorems": [
    "C20_tabular_flow",
    "C20_same_iff_dry_partial",
    "C20_refuted"
   ],
   "note": "false: the tabular method injects W/(1+sum(composition))*ratio; equal to CEA's W*ratio exactly when the inflow carries no fuel/water (C20_same_iff_dry_partial)"
  },
  {
   "property": "C21",
   "status": "proved",
   "theorems": [
    "C21_trace_off",
    "C21_equilibrium",
    "C21_gibbs_minimum",
    "C21_unique",
    "C21_guess"
   ],
   "note": "Any number of species and elements. hP/SP demands are part of C42. Converged means all residuals are exactly 0 at positive P and mole numbers."
  },
  {
   "property": "C22",
   "status": "partial",
   "theorems": [
    "C22_jacobian_partial",
    "C22_jacobian_at_solution",
    "C22_jacobian_elsewhere_refuted",
    "C22_trace_on_partial",
    "C22_trace_entry_refuted",
    "C22_linearize_refuted",
    "C22_wellformed"
   ],
   "note": "Exact for every entry except (mole balance, mole number), and for those too exactly where the mole balance holds (the derivative of the damping weight is left out). With trace removal on, dropped species have a wrong diagonal; linearize raises AttributeError exactly when the last evaluation is the first with a norm below 1e-4 (or there was none)."
  },
  {
   "property": "C23",
   "status": "proved",
   "theorems": [
    "C23_systems",
    "C23_derivatives",
    "C23_response"
   ],
   "note": "LinearSystemComp is not modelled: 'solves' says result_T/result_P solve the assembled systems. The matrix may be singular."
  },
  {
   "property": "C24",
   "status": "partial",
   "theorems": [
    "C24_ideal_gas",
    "C24_thermodynamics",
    "C24_species_functions",
    "C24_derivatives_partial",
    "C24_trace_refuted"
   ],
   "note": "The derivatives are exact except the dS/dn entry of trace species, which is stored as 0 (refuted). The thermodynamic theorem holds along any differentiable path of converged states."
  },
  {
   "property": "C25",
   "status": "proved",
   "theorems": [
    "C25_consistent",
    "C25_subsonic",
    "C25_derivatives",
    "C25_inverted"
   ],
   "note": "ht > hs: all relations and exact derivatives; ht < hs: the mirrored velocity (C25_inverted)."
  },
  {
   "property": "C26",
   "status": "partial",
   "theorems": [
    "C26_mach_mode_partial",
    "C26_area_mode_partial",
    "C26_energy_mach_mode",
    "C26_zero_mach_refuted",
    "C26_zero_area_refuted"
   ],
   "note": "Proved as an equivalence in both modes away from the two replaced equations; refuted there (MN = 0 accepts any W and area; zero area accepts MN = 5)."
  },
  {
   "property": "C27",
   "status": "partial",
   "theorems": [
    "C27_mach_mode",
    "C27_below_threshold_refuted",
    "C27_area_mode_partial",
    "C27_area_mode_other_entries",
    "C27_area_mode_refuted"
   ],
   "note": "MN mode exact above 1e-16 and stale below it (refuted); area mode exact where the MN state agrees with the inputs, four entries wrong elsewhere (refuted)."
  },
  {
   "property": "C28",
   "status": "partial",
   "theorems": [
    "C28_area_mode",
    "C28_mach_mode_first_only",
    "C28_mach_mode_refuted"
   ],
   "note": "Area mode proved for every history; in MN mode only the first guess is ever applied, so the claim is refuted there (C28_mach_mode_first_only says what happens for every history). fsolve is not modelled."
  },
  {
   "property": "C29",
   "status": "proved",
   "theorems": [
    "C29_compressor_balance",
    "C29_bleed_states",
    "C29_turbine_balance",
    "C29_unit_efficiency",
    "C29_pressure"
   ],
   "note": ""
  },
  {
   "property": "C30",
   "status": "proved",
   "theorems": [
    "C30_compressor_derivatives",
    "C30_turbine_derivatives",
    "C30_map_derivatives"
   ],
   "note": ""
  },
  {
   "property": "C31",
   "status": "proved",
   "theorems": [
    "C31_compressor_round_trip",
    "C31_turbine_round_trip",
    "C31_scalars_unique"
   ],
   "note": ""
  },
  {
   "property": "C32",
   "status": "proved",
   "theorems": [
    "C32_splitter_conserves",
    "C32_splitter_derivatives",
    "C32_bleed_conserves",
    "C32_bleed_derivatives"
   ],
   "note": ""
  },
  {
   "property": "C33",
   "status": "proved",
   "theorems": [
    "C33_impulse_and_area",
    "C33_derivatives"
   ],
   "note": ""
  },
  {
   "property": "C34",
   "status": "proved",
   "theorems": [
    "C34_gearbox_power_balance",
    "C34_gearbox_solve",
    "C34_gearbox_gains",
    "C34_gearbox_derivatives",
    "C34_shaft_power_balance",
    "C34_shaft_derivatives"
   ],
   "note": "finding: the gearbox efficiency acts the wrong way round (C34_gearbox_gains)"
  },
  {
   "property": "C35",
   "status": "partial",
   "theorems": [
    "C35_performance_values",
    "C35_derivatives_partial",
    "C35_TSFC_entries_partial",
    "C35_TSFC_refuted"
   ],
   "note": "definitions of thrust, OPR, TSFC, PSFC proved for any number of nozzles/burners, all derivatives but TSFC's exact; the code's TSFC adds 1e-10 to thrust in compute but not in compute_partials, so its entries are the exact derivatives of the formula without that offset (C35_TSFC_entries_partial) and not of the computed output (C35_TSFC_refuted)"
  },
  {
   "property": "C36",
   "status": "partial",
   "theorems": [
    "C36_recovery_subsonic",
    "C36_recovery_schedule_partial",
    "C36_monotone_refuted",
    "C36_bound_refuted",
    "C36_derivatives",
    "C36_inlet_calcs",
    "C36_inlet_derivatives"
   ],
   "note": "recovery formula and derivatives proved; the bound and the monotonicity fail across the Mach 5 switch (two refutations)"
  },
  {
   "property": "C37",
   "status": "partial",
   "theorems": [
    "C37_pressures",
    "C37_thrust",
    "C37_derivatives",
    "C37_mux_selects",
    "C37_mux_derivatives",
    "C37_mux_writes",
    "C37_choked_flag_refuted",
    "C37_option_validation"
   ],
   "note": "all relations and derivatives proved; the claim 'writes all of its outputs' is false for 'choked' (C37_choked_flag_refuted)"
  },
  {
   "property": "C38",
   "status": "partial",
   "theorems": [
    "C38_cooling_flow",
    "C38_cooling_amount",
    "C38_cooling_flow_monotone",
    "C38_energy_partial",
    "C38_derivatives",
    "C38_switch_on_is_a_jump_refuted",
    "C38_row_pressure",
    "C38_row_pressure_order_refuted",
    "C38_combined_flow"
   ],
   "note": "cooling flow, derivatives, stator energy balance proved; rotor energy balance holds iff the row is uncooled or does no work (exact characterisation); cooling flow is discontinuous at switch-on; row pressures are reversed"
  },
  {
   "property": "C39",
   "status": "proved",
   "theorems": [
    "C39_duct_round_trip",
    "C39_pressure_and_heat",
    "C39_derivatives"
   ],
   "note": ""
  },
  {
   "property": "C40",
   "status": "partial",
   "theorems": [
    "C40_table",
    "C40_density_decreasing",
    "C40_pressure_decreasing_partial",
    "C40_pressure_refuted",
    "C40_positive"
   ],
   "note": "The interpolant is scipy's Akima1DInterpolator, modelled from its definition. Pressure is strictly decreasing on both sides of [18000, 19000] ft; refuted across it: the table's pressure at 19000 ft is larger than at 18000 ft."
  },
  {
   "property": "C41",
   "status": "proved",
   "theorems": [
    "C41_energy_cea",
    "C41_mass",
    "C41_stations",
    "C41_energy",
    "C41_shaft",
    "C41_engine",
    "C41_nonvacuous"
   ],
   "note": "By a balance over an arbitrary finite graph of ports. Energy: the enthalpy must be a function of T, P, composition (one_enthalpy); open inlets of splitters and bleed-outs must be fed a consistent state. C41_nonvacuous exhibits a converged cycle of six elements and a shaft."
  },
  {
   "property": "C42",
   "status": "partial",
   "theorems": [
    "C42_modes",
    "C42_mode_roundtrip",
    "C42_total_TP",
    "C42_total_hP",
    "C42_total_SP",
    "C42_static_Ps",
    "C42_static_MN",
    "C42_static_A",
    "C42_outputs",
    "C42_inputs",
    "C42_wired",
    "C42_unambiguous",
    "C42_static_composition_refuted",
    "C42_units"
   ],
   "note": "tp (the property relation of the gas) is arbitrary, so the theorems hold for CEA and tabular engines alike; ok_name asks that the flow name has no dot and is not 'guess'. Refuted: the static station does not carry the composition that the total station carries."
  },
  {
   "property": "C43",
   "status": "partial",
   "theorems": [
    "C43_copy_port",
    "C43_copy_missing_port",
    "C43_copy_adder",
    "C43_copy_adder_error",
    "C43_copy_rejects_other",
    "C43_init_data",
    "C43_init_adder",
    "C43_element_ports",
    "C43_cooling_rows_refuted"
   ],
   "note": "Refuted: the cooled turbine's port name is a raw string, so row ports are never defined."
  },
  {
   "property": "C44",
   "status": "partial",
   "theorems": [
    "C44_values",
    "C44_warns_once",
    "C44_get_refuted",
    "C44_silences_others_refuted"
   ],
   "note": "Refuted parts: dict.get does not warn; the warning call leaves a global 'ignore' filter behind, so later unrelated DeprecationWarnings are silenced."
  },
  {
   "property": "C45",
   "status": "proved",
   "theorems": [
    "C45_unit_comp",
    "C45_pass_through"
   ],
   "note": ""
  },
  {
   "property": "C46",
   "status": "partial",
   "theorems": [
    "C46_maps",
    "C46_thermo_data",
    "C46_weights_partial",
    "C46_weights_refuted"
   ],
   "note": "Refuted part: the weight listed for carbon in janaf.py differs from the one used in the products' molecular weights."
  },
  {
   "property": "C47",
   "status": "partial",
   "theorems": [
    "C47_values",
    "C47_raises",
    "C47_derivatives",
    "C47_stale",
    "C47_stale_rhs",
    "C47_stale_refuted",
    "C47_residuals",
    "C47_chem_derivatives",
    "C47_residuals_refuted",
    "C47_stale_mask_refuted"
   ],
   "note": "Holds for CorrectedInputsCalc and PropsRHS under the protocol OpenMDAO follows (evaluate, then linearise there), refuted without it with the exact condition. For ChemEq: C47_residuals and C47_chem_derivatives give what holds; C47_residuals_refuted (same point, two residuals) and C47_stale_mask_refuted (a converged point without trace species whose Jacobian row belongs to a dropped species) are concrete histories of the reacting gas of C21."
  },
  {
   "property": "C48",
   "status": "proved",
   "theorems": [
    "C48_combustor_elements",
    "C48_combustor_constituents",
    "C48_turbine_constituents",
    "C48_mixer_constituents",
    "C48_inlet",
    "C48_duct",
    "C48_splitter",
    "C48_flow_start",
    "C48_cfd_start",
    "C48_flight_conditions",
    "C48_bleed_out",
    "C48_combustor",
    "C48_compressor",
    "C48_turbine",
    "C48_turbine_elements",
    "C48_nozzle",
    "C48_mixer",
    "C48_mixer_elements"
   ],
   "note": "The element groups are modelled subsystem by subsystem; a converged state satisfies every subsystem's relation and every connection (Spec_Wire). Converged examples for each element in Prop_StationEx.v."
  },
  {
   "property": "C49",
   "status": "partial",
   "theorems": [
    "C49_reactant",
    "C49_flow",
    "C49_initial_value_refuted"
   ],
   "note": "conservation proved in both modes; the initial value of the vector follows the user's dictionary order, not the sorted order (C49_initial_value_refuted)"
  },
  {
   "property": "C50",
   "status": "proved",
   "theorems": [
    "C50_element",
    "C50_network",
    "C50_tabular"
   ],
   "note": "For the tabular method, port data is None for every mixing element (C50_tabular)."
  },
  {
   "property": "C51",
   "status": "proved",
   "theorems": [
    "C51_state_derivatives",
    "C51_density_slope",
    "C51_density_slope_kinks"
   ],
   "note": "The density-slope output is exact except at table altitudes; at every one of those the density has no derivative at all (C51_density_slope_kinks)."
  },
  {
   "property": "C52",
   "status": "proved",
   "theorems": [
    "C52_nodes",
    "C52_physical",
    "C52_defined",
    "C52_zero_efficiency",
    "C52_design_point"
   ],
   "note": "Interpolation is OpenMDAO's slinear, modelled from its definition. Efficiency 0 is attained at a corner of the fan map (C52_zero_efficiency), so efficiencies are non-negative, not positive, inside the whole grid."
  },
  {
   "property": "C53",
   "status": "proved",
   "theorems": [
    "C53_compressor_design",
    "C53_compressor_offdesign",
    "C53_compressor_design_point",
    "C53_stall_margins",
    "C53_turbine_design",
    "C53_turbine_offdesign",
    "C53_turbine_design_point"
   ],
   "note": "The table lookup is an arbitrary relation (the shipped tables and slinear lookup are C46, C52)."
  },
  {
   "property": "C54",
   "status": "proved",
   "theorems": [
    "C54_inlet",
    "C54_duct",
    "C54_splitter",
    "C54_combustor",
    "C54_bleed_out",
    "C54_compressor",
    "C54_turbine",
    "C54_mixer"
   ],
   "note": "States are compared by name: the state `carry l w` gives each connected target the value of its source. Converged examples taken off design in Prop_OD4.v."
  },
  {
   "property": "C55",
   "status": "proved",
   "theorems": [
    "C55_complete",
    "C55_vectors",
    "C55_reads",
    "C55_refused"
   ],
   "note": "Model_Stations records, per thermo station, the port data its composition option is taken from and the port whose vector it is connected to. C55_complete: no station of the wiring model is missing from that table; C55_vectors: in every converged element each station receives the vector of the listed port; C55_reads: in every accepted element it reads it with the right labels; C55_refused: which elements are refused. The refusals include legitimate designs (bypass air as stream 1 and burnt gas as stream 2; designed_stream 2 because of the copy-paste in mixer.py:173). The equality of sizes is what OpenMDAO checks when connecting; it is a dependency and assumed."
  },
  {
   "property": "C56",
   "status": "proved",
   "theorems": [
    "C56_compressor",
    "C56_turbine",
    "C56_inlet",
    "C56_nozzle",
    "C56_gas_constant",
    "C56_standard_day"
   ],
   "note": "OpenMDAO's unit factors (Spec_Wire.units) are part of the trusted base."
  },
  {
   "property": "C57",
   "status": "partial",
   "theorems": [
    "C57_stall_of_machine_refuted",
    "C57_flow_margin",
    "C57_speed_margin"
   ],
   "note": "Refuted: the margins are computed with the unscaled map values (PRmap), and the scaling acts on PR-1, so SMW of the machine differs. The exact relation is proved: C57_flow_margin, C57_speed_margin (they agree only for s_PR = 1 or a zero margin)."
  },
  {
   "property": "C58",
   "status": "partial",
   "theorems": [
    "C58_duct_defaults_refuted",
    "C58_off_design_inputs"
   ],
   "note": "Refuted for the Duct: s_dPqP is not among its default connections, and its declared default 0 means no loss. It is the only such input: for every element, every input that only the off-design version has is a default connection's target, a starting guess, or that coefficient (C58_off_design_inputs)."
  },
  {
   "property": "C59",
   "status": "partial",
   "theorems": [
    "C59_cea_refuted",
    "C59_ideal_gas",
    "C59_full_recovery",
    "C59_enthalpy_refuted"
   ],
   "note": "Refuted: the inlet keeps the total temperature (total_TP), not the enthalpy (C59_enthalpy_refuted for a gas whose enthalpy depends on pressure, C59_cea_refuted for a genuine CEA equilibrium of a dissociating gas). Proved for gases whose enthalpy depends on temperature only, and for ram_recovery = 1."
  },
  {
   "property": "C60",
   "status": "partial",
   "theorems": [
    "C60_fan_out_refuted"
   ],
   "note": "Refuted: two inlets fed by the same outlet both receive the whole mass flow, and nothing objects (C41 therefore requires one link per port)."
  },
  {
   "property": "C61",
   "status": "proved",
   "theorems": [
    "C61_function",
    "C61_stations",
    "C61_ideal_gas",
    "C61_one_enthalpy",
    "C61_shipped"
   ],
   "note": "LinearSystemComp is modelled as its residual A x = b (its matrix may be singular: the properties are nevertheless unique). Trace-species removal off; C21_trace_off: no difference without trace species."
  },
  {
   "property": "C62",
   "status": "proved",
   "theorems": [
    "C62_increasing",
    "C62_total_unique",
    "C62_static_unique",
    "C62_shipped",
    "C62_shipped_across",
    "C62_shipped_within"
   ],
   "note": "By Gibbs' variational argument between the two states and the mean value theorem; C62_nonvacuous has a dissociating gas at two temperatures and one pressure."
  },
  {
   "property": "C63",
   "status": "proved",
   "theorems": [
    "C63_stable",
    "C63_station",
    "C63_static_Ps",
    "C63_shipped"
   ],
   "note": "By a Cauchy-Schwarz argument in the inner product weighted by the mole numbers."
  },
  {
   "property": "C64",
   "status": "proved",
   "theorems": [
    "C64_pressure"
   ],
   "note": "From the minimum of the Gibbs energy at both pressures."
  },
  {
   "property": "C65",
   "status": "proved",
   "theorems": [
    "C65_heat_capacity",
    "C65_gas_ok",
    "C65_proper"
   ],
   "note": "Heat capacities by a verified positivity check of the integer polynomials T^2 (Cp0 - 2) (Taylor shift and bisection, Proofs_Poly), run by vm_compute on the data. C61_shipped, C62_shipped, C63_shipped, C62_shipped_across and C62_shipped_within instantiate C61-C63; the last two cross the junction at 1000 K with bounds on the jumps (at most 5e-8, from an enclosure of ln 1000, Proofs_Ln)."
  },
  {
   "property": "C66",
   "status": "proved",
   "theorems": [
    "C66_elements",
    "C66_normalised",
    "C66_engine",
    "C66_constituents",
    "C66_nonvacuous",
    "C66_constituents_nonvacuous"
   ],
   "note": "C66_engine is the CEA statement for streams that enter normalised (with C66_elements and C66_normalised as its two halves); set_up ties the meaning of the composition vectors to the port data announced during set-up (C43) and to the mixing components built from them. C66_constituents is the tabular statement, for cycles whose mixing components were set up for the same constituents. A start's composition is taken as it stands (its Fl_O)."
  },
  {
   "property": "C67",
   "status": "proved",
   "theorems": [
    "C67_network",
    "C67_mass",
    "C67_thrust",
    "C67_shaft",
    "C67_shafting",
    "C67_targets",
    "C67_part_power",
    "C67_energy",
    "C67_nonvacuous"
   ],
   "note": "elements, flow connections, connections, promotions, shafts, gearboxes, performance and balances of every example are read from the source (tools/gen_examples.py writes Data_Examples.v); the shafts, loads, targets and exits they are checked against are separate tables in the Prop files; a converged propulsor is exhibited"
  },
  {
   "property": "C68",
   "status": "partial",
   "theorems": [
    "C68_design_is_off_design",
    "C68_afterburner_condition",
    "C68_sized",
    "C68_ducts_refuted",
    "C68_nonvacuous"
   ],
   "note": "The MPCycle classes are read from the source by tools/gen_multi.py (Data_Multi.v). N+3's point RTO (turbine cooling) and the connections between off-design points are not modelled. Refuted part: two off-design ducts get no area from the design point."
  },
  {
   "property": "C69",
   "status": "partial",
   "theorems": [
    "C69_function",
    "C69_nodes",
    "C69_between",
    "C69_bounds",
    "C69_linear",
    "C69_continuous",
    "C69_temperature",
    "C69_temperature_range",
    "C69_station_hP",
    "C69_station_SP",
    "C69_station_Ps",
    "C69_energy",
    "C69_ideal_gas",
    "C69_extrapolation_refuted",
    "C69_nonvacuous"
   ],
   "note": "Model_Tab gives SetTotalTP of the tabular method as multilinear interpolation (one direction after the other, outermost interval extended) on grids and arrays of the option spec; the pickled default table is not part of the repository (air_jetA.pkl is missing), so the table is universally quantified. C69_ideal_gas is the exact error of the equation of state for an ideal-gas table, C69_extrapolation_refuted the negative densities beyond it."
  },
  {
   "property": "C70",
   "status": "proved",
   "theorems": [
    "C70_setup_returns",
    "C70_adders",
    "C70_setup",
    "C70_returns",
    "C70_engine",
    "C70_inert",
    "C70_nonvacuous",
    "C70_humid_start",
    "C70_humid_flight",
    "C70_default_composition"
   ],
   "note": "C70_setup derives, from a returned Cycle.setup, everything C66 assumes of the port data (set_up, data_ok); C70_adders shows that then every mixing component's own setup succeeds; C70_setup_returns proves that setup returns on every such network (by comparison with a total variant of the elements' behaviour), C70_returns instantiates it on the shipped CEA engines. C70_engine and C70_inert are the element balances of the shipped CEA engines, stated with the inlet air's composition (dry air, or humid air with WAR) and each burner's own fuel. C70_humid_start / C70_humid_flight give the composition of humid air from the wiring of FlowStart / FlightConditions; C70_default_composition ties the initial value of a composition input to its dictionary. air_start assumes that the composition input of the start was left at its default (what the shipped examples do)."
  },
  {
   "property": "C71",
   "status": "partial",
   "theorems": [
    "C71_compressor",
    "C71_turbine",
    "C71_burner",
    "C71_nozzle",
    "C71_flow_station",
    "C71_compressor_bleeds",
    "C71_bleed_out",
    "C71_mixer",
    "C71_mixer_second_refuted",
    "C71_shaft",
    "C71_plot_compressor",
    "C71_plot_turbine",
    "C71_plot_offdesign_refuted",
    "C71_flow_station_totals_refuted",
    "C71_bleed_out_key",
    "C71_nonvacuous"
   ],
   "note": "Model_Viewers.v models prob[key] as a name table (promoted names, absolute names of components, cycle parameters at the top) and each table as a list of labelled keys. Refuted parts: print_mixer with designed_stream 2 indexes the problem with a tuple and raises; plot_compressor_maps reads map.scalars.PR, which exists only in design (with no bleeds, for every map and method, off-design raises); print_flow_station raises on an element without statics. The FAR that print_burner shows equals Fl_I:FAR for the CEA adder; for the tabular one it is fuel per unit of inflow. C71_bleed_out takes as a hypothesis that no variable of the stand-alone bleed is called blds_pwr.<b>:frac_P (C71_bleed_out_key shows it for a list of two). Formatting, headers, files and the drawn curves are not modelled."
  },
  {
   "property": "C72",
   "status": "partial",
   "theorems": [
    "C72_balance",
    "C72_small_table",
    "C72_derivatives_large",
    "C72_derivatives_small",
    "C72_large_increasing",
    "C72_large_refuted",
    "C72_small_increasing_partial",
    "C72_small_levels",
    "C72_large_levels",
    "C72_small_refuted",
    "C72_core",
    "C72_core_exit",
    "C72_core_growth",
    "C72_opr",
    "C72_opr_loss",
    "C72_large_meets",
    "C72_core_nonvacuous"
   ],
   "note": "Model_CoreEff.v. The Akima curves reuse the construction of Model_Atm, so the statements about them are about exact rational knots and real cubics (scipy's nan outside of the table is outside of every theorem's range). Refuted parts: the 'large' curve drops at its cut and has no derivative there although the component returns 0; the 'small' curves overshoot their table's end (beyond 30, and before 30 on technology level 2), so a bigger core can be less efficient; and the design point is balanced on OPR_simple, which exceeds the engine's overall pressure ratio as soon as a duct has a loss (C72_opr, C72_opr_loss). C72_core_nonvacuous builds a converged compressor with its converged balance. Not modelled: ext_ratio, fan_dia; no closed instance of the whole chain of C72_opr is built, the elements' own instances are those of C48. C72_large_meets: the two pieces of the 'large' curve meet up to 3e-8, so the fall at the cut is no larger than that."
  },
  {
   "property": "C73",
   "status": "proved",
   "theorems": [
    "C73_same_air",
    "C73_grids",
    "C73_entries",
    "C73_station",
    "C73_combustor",
    "C73_same_exit",
    "C73_cea",
    "C73_elements",
    "C73_exists",
    "C73_nonvacuous"
   ],
   "note": "Model_TabGen.v. linspace and logspace are in real arithmetic; the entries are what `generated` says of converged models, numpy arrays and pickling are not modelled, nor are the contents of the shipped air_jetA.pkl (tab_cea_comparison.py, which would compare them, imports a module that is not in the repository). C73_same_air justifies the script's use of janaf for row 0 and wet_air for the others. C73_same_exit compares the generator's gas (the species of wet_air formable from CEA_AIR_FUEL_COMPOSITION) with a combustor on the same gas; the default CEA engines use janaf for the burnt gas, which also holds CH4 and C2H4, a difference that is not modelled as an error of the table. C73_exists and C73_nonvacuous build a table and a pair of combustors at every grid point for a gas given by a function."
  },
  {
   "property": "C74",
   "status": "partial",
   "theorems": [
    "C74_gas_law_partial",
    "C74_gas_law_refuted",
    "C74_hydrostatic_partial",
    "C74_temperature"
   ],
   "note": "Prop_Atm2.v. Partial: the gas law and hydrostatic balance are proved outside of [18000, 20000) ft and refuted at 19000 ft, where the table's pressure (7.4123 psi, C40_pressure_refuted) is 5.3 per cent above the one its own density and temperature give (7.0413 psi); the digits suggest a typing error (7.04123) in the table. Tolerances: gas law 0.03 per cent (0.2 per cent near the corners of the temperature profile and above 100000 ft), balance 0.2 per cent (2 per cent next to the wrong entry and where the table has steps of 5000 ft), temperature 0.004 degR (0.03 above 105000 ft), exact in the isothermal layer. Altitude is the table's own (geopotential) and g is 32.174 ft/s^2."
  },
  {
   "property": "C75",
   "status": "partial",
   "theorems": [
    "C75_n3_maps",
    "C75_n3_physical",
    "C75_n3_design_point",
    "C75_flow_speed",
    "C75_speed_determined",
    "C75_turbine_flow",
    "C75_flow_rline_partial",
    "C75_flow_rline_refuted",
    "C75_rline_not_determined"
   ],
   "note": "Prop_Maps2.v. Partial: along the R-line flow is non-decreasing on every compressor map but two; LPCMap's falls at speed 1.15 between R-lines 1.0 and 1.2, and N3HPCMap's at speed 0.975 between 2.4 and 2.6 (C75_flow_rline_refuted). C75_rline_not_determined: every compressor map has a choked stretch where two R-lines give the same flow at the same speed, so a balance that solves flow for the R-line is singular there. Lookups inside the grid only; the N+3 elements set map_extrap, and what is extrapolated outside is not covered."
  },
  {
   "property": "C76",
   "status": "proved",
   "theorems": [
    "C76_states",
    "C76_stations",
    "C76_isentropic",
    "C76_loss",
    "C76_static_pressure",
    "C76_duct",
    "C76_compressor",
    "C76_turbine",
    "C76_nozzle",
    "C76_shipped_states",
    "C76_shipped_elements"
   ],
   "note": "Prop_Second.v, Prop_Second2.v; Prop_Second3.v instantiates them for every shipped data set. All temperatures must lie in one range on which the species fits belong together (proper_between; for the shipped data 201-999 K and 1000-6000 K by C65_proper): a process crossing a junction of the fits is not covered, since the fits jump there. The nozzle theorem also asks for Cp0 > 1 on the range and a non-zero inlet enthalpy. Entropy of mixing, and of the bleeds, is not treated; the inlet keeps T by construction (C59). Examples (Prop_SecondEx.v, Prop_SecondEx2.v, Prop_SecondEx3.v): a lossy duct, a compressor, a turbine with a cooling stream and a choked nozzle with a loss, each solved concretely for a gas of one species."
  }
 ]
}