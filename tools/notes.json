{
 "C01": "termination for arbitrary graphs, including cyclic ones",
 "C04": "the claim is false of the code: C04_loop_reported_refuted exhibits a normal return with unconfigured elements; the exact set of configured elements is characterised by C04_configured_iff_upstream_acyclic",
 "C06": "false for FlowIn inputs stat:R, stat:Wc and FAR, which are never connected; proved for all others and for all flag combinations",
 "C07": "false for nested paths ('a.b.P' is attributed to element 'ab'); proved for one-level paths",
 "C09": "uniqueness of the design point and error behaviour proved; 'all points are kept' is false for a point whose design option is neither True nor False: it is silently not recorded (C09_points_kept_refuted)",
 "C12": "proved for list-valued skip; a string-valued skip is tested by substring (C12_skip_string_refuted)",
 "C35": "definitions of thrust, OPR, TSFC, PSFC proved for any number of nozzles/burners, all derivatives but TSFC's exact; the code's TSFC adds 1e-10 to thrust in compute but not in compute_partials, so its entries are the exact derivatives of the formula without that offset (C35_TSFC_entries_partial) and not of the computed output (C35_TSFC_refuted)",
 "C36": "recovery formula and derivatives proved; the bound and the monotonicity fail across the Mach 5 switch (two refutations)",
 "C37": "all relations and derivatives proved; the claim 'writes all of its outputs' is false for 'choked' (C37_choked_flag_refuted)",
 "C38": "cooling flow, derivatives, stator energy balance proved; rotor energy balance holds iff the row is uncooled or does no work (exact characterisation); cooling flow is discontinuous at switch-on; row pressures are reversed",
 "C16": "false exactly at the junction temperatures of two fits: there the answer depends on the history (C16_breakpoint_refuted, with the shipped N/N2 data at T=1000 after a query at 1500); proved for every other temperature and every history (C16_transparent_partial, C16_same_as_fresh_partial); at a junction the answer is one of the two adjacent fits (C16_breakpoint_partial)",
 "C15": "stated on the values returned by the object after any history of calls",
 "C17": "for any number of reactants or streams and any data set; element masses are stated through mass fractions defined in Spec_Mix.v",
 "C19": "CEA: announced elements = inflow plus listed reactants/streams and one vector entry per announced element. False in three corners: a reactant listed without a mix name is announced but never mixed (C19_surplus_reactant_refuted); with the default (None) inflow the port data is announced but setup fails (C19_default_inflow_refuted); the tabular method announces nothing (C19_tabular_refuted)",
 "C20": "false: the tabular method injects W/(1+sum(composition))*ratio; equal to CEA's W*ratio exactly when the inflow carries no fuel/water (C20_same_iff_dry_partial)",
 "C49": "conservation proved in both modes; the initial value of the vector follows the user's dictionary order, not the sorted order (C49_initial_value_refuted)",
 "C25": "ht > hs: all relations and exact derivatives; ht < hs: the mirrored velocity (C25_inverted).",
 "C26": "Proved as an equivalence in both modes away from the two replaced equations; refuted there (MN = 0 accepts any W and area; zero area accepts MN = 5).",
 "C27": "MN mode exact above 1e-16 and stale below it (refuted); area mode exact where the MN state agrees with the inputs, four entries wrong elsewhere (refuted).",
 "C28": "Area mode proved for every history; in MN mode only the first guess is ever applied, so the claim is refuted there (C28_mach_mode_first_only says what happens for every history). fsolve is not modelled.",
 "C21": "Any number of species and elements. hP/SP demands are part of C42. Converged means all residuals are exactly 0 at positive P and mole numbers.",
 "C22": "Exact for every entry except (mole balance, mole number), and for those too exactly where the mole balance holds (the derivative of the damping weight is left out). With trace removal on, dropped species have a wrong diagonal; linearize raises AttributeError exactly when the last evaluation is the first with a norm below 1e-4 (or there was none).",
 "C23": "LinearSystemComp is not modelled: 'solves' says result_T/result_P solve the assembled systems. The matrix may be singular.",
 "C24": "The derivatives are exact except the dS/dn entry of trace species, which is stored as 0 (refuted). The thermodynamic theorem holds along any differentiable path of converged states.",
 "C42": "tp (the property relation of the gas) is arbitrary, so the theorems hold for CEA and tabular engines alike; ok_name asks that the flow name has no dot and is not 'guess'. Refuted: the static station does not carry the composition that the total station carries.",
 "C43": "Refuted: the cooled turbine's port name is a raw string, so row ports are never defined.",
 "C50": "For the tabular method, port data is None for every mixing element (C50_tabular).",
 "C40": "The interpolant is scipy's Akima1DInterpolator, modelled from its definition. Pressure is strictly decreasing on both sides of [18000, 19000] ft; refuted across it: the table's pressure at 19000 ft is larger than at 18000 ft.",
 "C44": "Refuted parts: dict.get does not warn; the warning call leaves a global 'ignore' filter behind, so later unrelated DeprecationWarnings are silenced.",
 "C46": "Refuted part: the weight listed for carbon in janaf.py differs from the one used in the products' molecular weights.",
 "C51": "The density-slope output is exact except at table altitudes; at every one of those the density has no derivative at all (C51_density_slope_kinks).",
 "C52": "Interpolation is OpenMDAO's slinear, modelled from its definition. Efficiency 0 is attained at a corner of the fan map (C52_zero_efficiency), so efficiencies are non-negative, not positive, inside the whole grid.",
 "C48": "The element groups are modelled subsystem by subsystem; a converged state satisfies every subsystem's relation and every connection (Spec_Wire). Converged examples for each element in Prop_StationEx.v.",
 "C53": "The table lookup is an arbitrary relation (the shipped tables and slinear lookup are C46, C52).",
 "C54": "States are compared by name: the state `carry l w` gives each connected target the value of its source. Converged examples taken off design in Prop_OD4.v.",
 "C57": "Refuted: the margins are computed with the unscaled map values (PRmap), and the scaling acts on PR-1, so SMW of the machine differs. The exact relation is proved: C57_flow_margin, C57_speed_margin (they agree only for s_PR = 1 or a zero margin).",
 "C58": "Refuted for the Duct: s_dPqP is not among its default connections, and its declared default 0 means no loss. It is the only such input: for every element, every input that only the off-design version has is a default connection's target, a starting guess, or that coefficient (C58_off_design_inputs).",
 "C41": "By a balance over an arbitrary finite graph of ports. Energy: the enthalpy must be a function of T, P, composition (one_enthalpy); open inlets of splitters and bleed-outs must be fed a consistent state. C41_nonvacuous exhibits a converged cycle of six elements and a shaft.",
 "C56": "OpenMDAO's unit factors (Spec_Wire.units) are part of the trusted base.",
 "C59": "Refuted: the inlet keeps the total temperature (total_TP), not the enthalpy (C59_enthalpy_refuted for a gas whose enthalpy depends on pressure, C59_cea_refuted for a genuine CEA equilibrium of a dissociating gas). Proved for gases whose enthalpy depends on temperature only, and for ram_recovery = 1.",
 "C60": "Refuted: two inlets fed by the same outlet both receive the whole mass flow, and nothing objects (C41 therefore requires one link per port).",
 "C61": "LinearSystemComp is modelled as its residual A x = b (its matrix may be singular: the properties are nevertheless unique). Trace-species removal off; C21_trace_off: no difference without trace species.",
 "C62": "By Gibbs' variational argument between the two states and the mean value theorem; C62_nonvacuous has a dissociating gas at two temperatures and one pressure.",
 "C63": "By a Cauchy-Schwarz argument in the inner product weighted by the mole numbers.",
 "C64": "From the minimum of the Gibbs energy at both pressures.",
 "C65": "Heat capacities by a verified positivity check of the integer polynomials T^2 (Cp0 - 2) (Taylor shift and bisection, Proofs_Poly), run by vm_compute on the data. C61_shipped, C62_shipped, C63_shipped, C62_shipped_across and C62_shipped_within instantiate C61-C63; the last two cross the junction at 1000 K with bounds on the jumps (at most 5e-8, from an enclosure of ln 1000, Proofs_Ln).",
 "C66": "C66_engine is the CEA statement for streams that enter normalised (with C66_elements and C66_normalised as its two halves); set_up ties the meaning of the composition vectors to the port data announced during set-up (C43) and to the mixing components built from them. C66_constituents is the tabular statement, for cycles whose mixing components were set up for the same constituents. A start's composition is taken as it stands (its Fl_O).",
 "C55": "Model_Stations records, per thermo station, the port data its composition option is taken from and the port whose vector it is connected to. C55_complete: no station of the wiring model is missing from that table; C55_vectors: in every converged element each station receives the vector of the listed port; C55_reads: in every accepted element it reads it with the right labels; C55_refused: which elements are refused. The refusals include legitimate designs (bypass air as stream 1 and burnt gas as stream 2; designed_stream 2 because of the copy-paste in mixer.py:173). The equality of sizes is what OpenMDAO checks when connecting; it is a dependency and assumed.",
 "C34": "finding: the gearbox efficiency acts the wrong way round (C34_gearbox_gains)",
 "C67": "elements, flow connections, connections, promotions, shafts, gearboxes, performance and balances of every example are read from the source (tools/gen_examples.py writes Data_Examples.v); the shafts, loads, targets and exits they are checked against are separate tables in the Prop files; a converged propulsor is exhibited",
 "C68": "The MPCycle classes are read from the source by tools/gen_multi.py (Data_Multi.v). N+3's point RTO (turbine cooling) and the connections between off-design points are not modelled. Refuted part: two off-design ducts get no area from the design point.",
 "C69": "Model_Tab gives SetTotalTP of the tabular method as multilinear interpolation (one direction after the other, outermost interval extended) on grids and arrays of the option spec; the pickled default table is not part of the repository (air_jetA.pkl is missing), so the table is universally quantified. C69_ideal_gas is the exact error of the equation of state for an ideal-gas table, C69_extrapolation_refuted the negative densities beyond it.",
 "C47": "Holds for CorrectedInputsCalc and PropsRHS under the protocol OpenMDAO follows (evaluate, then linearise there), refuted without it with the exact condition. For ChemEq: C47_residuals and C47_chem_derivatives give what holds; C47_residuals_refuted (same point, two residuals) and C47_stale_mask_refuted (a converged point without trace species whose Jacobian row belongs to a dropped species) are concrete histories of the reacting gas of C21.",
 "C70": "C70_setup derives, from a returned Cycle.setup, everything C66 assumes of the port data (set_up, data_ok); C70_adders shows that then every mixing component's own setup succeeds; C70_setup_returns proves that setup returns on every such network (by comparison with a total variant of the elements' behaviour), C70_returns instantiates it on the shipped CEA engines. C70_engine and C70_inert are the element balances of the shipped CEA engines, stated with the inlet air's composition (dry air, or humid air with WAR) and each burner's own fuel. C70_humid_start / C70_humid_flight give the composition of humid air from the wiring of FlowStart / FlightConditions; C70_default_composition ties the initial value of a composition input to its dictionary. air_start assumes that the composition input of the start was left at its default (what the shipped examples do).",
 "C71": "Model_Viewers.v models prob[key] as a name table (promoted names, absolute names of components, cycle parameters at the top) and each table as a list of labelled keys. Refuted parts: print_mixer with designed_stream 2 indexes the problem with a tuple and raises; plot_compressor_maps reads map.scalars.PR, which exists only in design (with no bleeds, for every map and method, off-design raises); print_flow_station raises on an element without statics. The FAR that print_burner shows equals Fl_I:FAR for the CEA adder; for the tabular one it is fuel per unit of inflow. C71_bleed_out takes as a hypothesis that no variable of the stand-alone bleed is called blds_pwr.<b>:frac_P (C71_bleed_out_key shows it for a list of two). Formatting, headers, files and the drawn curves are not modelled.",
 "C72": "Model_CoreEff.v. The Akima curves reuse the construction of Model_Atm, so the statements about them are about exact rational knots and real cubics (scipy's nan outside of the table is outside of every theorem's range). Refuted parts: the 'large' curve drops at its cut and has no derivative there although the component returns 0; the 'small' curves overshoot their table's end (beyond 30, and before 30 on technology level 2), so a bigger core can be less efficient; and the design point is balanced on OPR_simple, which exceeds the engine's overall pressure ratio as soon as a duct has a loss (C72_opr, C72_opr_loss). C72_core_nonvacuous builds a converged compressor with its converged balance. Not modelled: ext_ratio, fan_dia; no closed instance of the whole chain of C72_opr is built, the elements' own instances are those of C48. C72_large_meets: the two pieces of the 'large' curve meet up to 3e-8, so the fall at the cut is no larger than that.",
 "C73": "Model_TabGen.v. linspace and logspace are in real arithmetic; the entries are what `generated` says of converged models, numpy arrays and pickling are not modelled, nor are the contents of the shipped air_jetA.pkl (tab_cea_comparison.py, which would compare them, imports a module that is not in the repository). C73_same_air justifies the script's use of janaf for row 0 and wet_air for the others. C73_same_exit compares the generator's gas (the species of wet_air formable from CEA_AIR_FUEL_COMPOSITION) with a combustor on the same gas; the default CEA engines use janaf for the burnt gas, which also holds CH4 and C2H4, a difference that is not modelled as an error of the table. C73_exists and C73_nonvacuous build a table and a pair of combustors at every grid point for a gas given by a function.",
 "C74": "Prop_Atm2.v. Partial: the gas law and hydrostatic balance are proved outside of [18000, 20000) ft and refuted at 19000 ft, where the table's pressure (7.4123 psi, C40_pressure_refuted) is 5.3 per cent above the one its own density and temperature give (7.0413 psi); the digits suggest a typing error (7.04123) in the table. Tolerances: gas law 0.03 per cent (0.2 per cent near the corners of the temperature profile and above 100000 ft), balance 0.2 per cent (2 per cent next to the wrong entry and where the table has steps of 5000 ft), temperature 0.004 degR (0.03 above 105000 ft), exact in the isothermal layer. Altitude is the table's own (geopotential) and g is 32.174 ft/s^2.",
 "C75": "Prop_Maps2.v. Partial: along the R-line flow is non-decreasing on every compressor map but two; LPCMap's falls at speed 1.15 between R-lines 1.0 and 1.2, and N3HPCMap's at speed 0.975 between 2.4 and 2.6 (C75_flow_rline_refuted). C75_rline_not_determined: every compressor map has a choked stretch where two R-lines give the same flow at the same speed, so a balance that solves flow for the R-line is singular there. Lookups inside the grid only; the N+3 elements set map_extrap, and what is extrapolated outside is not covered.",
 "C76": "Prop_Second.v, Prop_Second2.v; Prop_Second3.v instantiates them for every shipped data set. All temperatures must lie in one range on which the species fits belong together (proper_between; for the shipped data 201-999 K and 1000-6000 K by C65_proper): a process crossing a junction of the fits is not covered, since the fits jump there. The nozzle theorem also asks for Cp0 > 1 on the range and a non-zero inlet enthalpy. Entropy of mixing, and of the bleeds, is not treated; the inlet keeps T by construction (C59). Examples (Prop_SecondEx.v, Prop_SecondEx2.v, Prop_SecondEx3.v): a lossy duct, a compressor, a turbine with a cooling stream and a choked nozzle with a loss, each solved concretely for a gas of one species."
}