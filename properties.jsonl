{"id": "C01", "title": "Cycle setup always terminates", "statement": "Calling setup on a Cycle returns (normally or with an exception) after finitely many steps, whatever elements were added and however flow ports were connected with pyc_connect_flow, including graphs with closed loops and with many re-converging paths.", "quantifier": "every flow graph buildable through add_subsystem/pyc_connect_flow (any number of nodes, any edges, cyclic or not)", "why_tests_cant": "a test runs a handful of engine layouts; non-termination would need an unlucky layout and cannot be observed by a finite test", "anchors": ["pycycle/mp_cycle.py:Cycle.setup", "pycycle/mp_cycle.py:Cycle.pyc_connect_flow"]}
{"id": "C02", "title": "Elements are configured in flow order, once", "statement": "During Cycle.setup every element's pyc_setup_output_ports is called at most once, and when it is called each of the element's connected input ports has already received its port data from the upstream element.", "quantifier": "every flow graph and every point of the traversal", "why_tests_cant": "ordering depends on the whole graph topology and on insertion order; tests cover a few orderings", "anchors": ["pycycle/mp_cycle.py:Cycle.setup"]}
{"id": "C03", "title": "Every connected element of an acyclic cycle is configured", "statement": "If the flow graph has no directed loop and every connected element name was added, Cycle.setup (when it raises nothing) calls pyc_setup_output_ports exactly once on every element and afterwards every connected input port holds exactly the data of the output port it was connected to.", "quantifier": "every acyclic flow graph, any number of elements/edges, any insertion order", "why_tests_cant": "depends on all graph shapes (fan-in, fan-out, multiple roots)", "anchors": ["pycycle/mp_cycle.py:Cycle.setup"]}
{"id": "C04", "title": "A closed flow loop is reported", "statement": "If elements are connected in a closed loop, so that some element can never have its inputs configured, Cycle.setup raises an error rather than returning normally with unconfigured elements.", "quantifier": "every flow graph containing a directed loop", "why_tests_cant": "needs all cyclic graphs; no test builds one", "anchors": ["pycycle/mp_cycle.py:Cycle.setup"]}
{"id": "C05", "title": "Unset output ports are reported", "statement": "If an element reached by the traversal does not define data for a connected output port, Cycle.setup raises RuntimeError; it never silently delivers missing data to the downstream element.", "quantifier": "every flow graph and every behaviour of the elements' pyc_setup_output_ports", "why_tests_cant": "ranges over arbitrary user-written elements and graphs", "anchors": ["pycycle/mp_cycle.py:Cycle.setup"]}
{"id": "C06", "title": "pyc_connect_flow connects every flow variable", "statement": "pyc_connect_flow(src,tgt) with default flags connects every variable that a flow input port declares (FlowIn), each to the same-named source variable, each at most once; connect_stat/connect_tot/connect_w=False remove exactly the corresponding groups and nothing else.", "quantifier": "every pair of port names and every flag combination", "why_tests_cant": "the declared set and the connected set live in different files; only specific ports are looked at by tests", "anchors": ["pycycle/mp_cycle.py:Cycle.pyc_connect_flow", "pycycle/flow_in.py:FlowIn.setup"]}
{"id": "C07", "title": "pyc_connect_flow attributes a port to its element", "statement": "For port path 'elem.port' the flow graph links the node of element elem to the port; for a nested path 'grp.elem.port' the parent is the element 'grp.elem'.", "quantifier": "every dotted port path", "why_tests_cant": "infinitely many names; tests use single-level names", "anchors": ["pycycle/mp_cycle.py:Cycle.pyc_connect_flow"]}
{"id": "C08", "title": "Cycle-level options reach every child", "statement": "After Cycle.setup every child subsystem that declares any of thermo_method, thermo_data, design holds the cycle's own value for it, and no other option of any child is changed.", "quantifier": "every set of children and option values", "why_tests_cant": "ranges over all children and all option maps", "anchors": ["pycycle/mp_cycle.py:Cycle.setup", "pycycle/mp_cycle.py:Cycle.add_subsystem"]}
{"id": "C09", "title": "At most one design point", "statement": "After any sequence of MPCycle API calls there is at most one design point; adding a second raises ValueError and leaves the model unchanged; all points added are kept, in order.", "quantifier": "every sequence of pyc_add_pnt/pyc_add_cycle_param/pyc_connect_des_od/pyc_use_default_des_od_conns calls", "why_tests_cant": "history property over unbounded call sequences", "anchors": ["pycycle/mp_cycle.py:MPCycle"]}
{"id": "C10", "title": "Design-to-off-design connections reach every off-design point", "statement": "configure issues, for each pyc_connect_des_od(src,target), exactly one connection from design point's src to target of every off-design point, independent of whether the point was added before or after the call.", "quantifier": "every API call history with any number of points and connections", "why_tests_cant": "history property", "anchors": ["pycycle/mp_cycle.py:MPCycle.configure", "pycycle/mp_cycle.py:MPCycle.pyc_connect_des_od"]}
{"id": "C11", "title": "Cycle parameters are promoted to every point", "statement": "Each cycle parameter name is registered at most once (a duplicate raises ValueError and keeps the first value), and configure promotes it from the design point and from every off-design point.", "quantifier": "every API call history", "why_tests_cant": "history property", "anchors": ["pycycle/mp_cycle.py:MPCycle.pyc_add_cycle_param", "pycycle/mp_cycle.py:MPCycle.configure"]}
{"id": "C12", "title": "Default design/off-design connections honour skip", "statement": "With pyc_use_default_des_od_conns(skip) every element of the design point that declares default_des_od_conns and is not named in skip gets each of its declared connections to every off-design point; named elements get none.", "quantifier": "every set of elements, points, skip list", "why_tests_cant": "combinatorial over element names (incl. names that are substrings of others)", "anchors": ["pycycle/mp_cycle.py:MPCycle.configure"]}
{"id": "C13", "title": "Initial composition is mass-normalised", "statement": "The initial composition b0 of a gas mixture satisfies sum(b0*element weight)=1, keeps the relative amounts of the elements given by the user, is unchanged when all amounts are multiplied by a positive factor, and does not depend on the order of the user's dictionary.", "quantifier": "every composition dictionary with positive amounts and weights, any number of elements", "why_tests_cant": "universal over dictionaries", "anchors": ["pycycle/thermo/cea/species_data.py:Properties"]}
{"id": "C14", "title": "Product species are exactly those formable", "statement": "The product list of a gas mixture contains exactly the data-set products made only from the given elements, in data-set order; elements are sorted; unknown elements and a missing composition raise ValueError.", "quantifier": "every data set and composition", "why_tests_cant": "universal over dictionaries", "anchors": ["pycycle/thermo/cea/species_data.py:Properties"]}
{"id": "C15", "title": "Species property functions are thermodynamically consistent", "statement": "For every species and every temperature T>0 that is not a junction between two fits of that species, after any history of calls: Cp0 is d(T*H0)/dT, dS0/dT = Cp0/T, and H0_applyJ, S0_applyJ, Cp0_applyJ are the exact T derivatives (times the given multiplier).", "quantifier": "all coefficient sets, all histories of queries, all T>0 outside the finitely many junction temperatures", "why_tests_cant": "real-valued domain; finite differences only sample", "anchors": ["pycycle/thermo/cea/species_data.py:Properties.H0", "pycycle/thermo/cea/species_data.py:Properties.S0", "pycycle/thermo/cea/species_data.py:Properties.Cp0"]}
{"id": "C16", "title": "The coefficient cache is transparent", "statement": "The species property functions return a value that depends only on the temperature, not on the temperatures previously queried; i.e. equal to a fresh Properties object's answer.", "quantifier": "every history of queried temperatures", "why_tests_cant": "history property", "anchors": ["pycycle/thermo/cea/species_data.py:Properties.H0", "pycycle/thermo/cea/species_data.py:Properties.build_coeff_table"]}
{"id": "C17", "title": "CEA mixing conserves mass and elements", "statement": "ThermoAdd (CEA) returns Wout = W + sum of mixed-in flows and the mass of every chemical element in the output stream equals its mass in the inflow plus that in the mixed-in streams; the output composition is mass-normalised.", "quantifier": "any number of mixed streams/reactants, any compositions and flow rates with positive total", "why_tests_cant": "universal over reals and stream counts", "anchors": ["pycycle/thermo/cea/thermo_add.py:ThermoAdd.compute"]}
{"id": "C18", "title": "Mixing conserves energy", "statement": "Mixing conserves total enthalpy flow: Wout*mass_avg_h = W*h + sum(W_mix*h_mix), for the CEA and the tabular methods.", "quantifier": "any number of streams, all real inputs with nonzero total flow", "why_tests_cant": "real-valued", "anchors": ["pycycle/thermo/cea/thermo_add.py:ThermoAdd.compute", "pycycle/thermo/tabular/thermo_add.py:ThermoAdd.compute"]}
{"id": "C19", "title": "Port data of a mixed stream covers all its elements", "statement": "The element set announced on the output port of a mixing component is exactly the union of the inflow elements and those of all mixed reactants/streams, and has one entry for every element of the composition vector that is computed.", "quantifier": "all composition dictionaries and mix lists", "why_tests_cant": "universal over dictionaries", "anchors": ["pycycle/thermo/cea/thermo_add.py:ThermoAdd.output_port_data", "pycycle/thermo/cea/thermo_add.py:ThermoAdd.setup", "pycycle/thermo/tabular/thermo_add.py:ThermoAdd.output_port_data"]}
{"id": "C20", "title": "Fuel mass flow is the same for both thermo methods", "statement": "For the same inflow W, ratio and reactant, both thermo methods inject the same reactant mass flow W*ratio.", "quantifier": "all inflow compositions, ratios, flows", "why_tests_cant": "tests only compare dry air inflow", "anchors": ["pycycle/thermo/cea/thermo_add.py:ThermoAdd.compute", "pycycle/thermo/tabular/thermo_add.py:ThermoAdd.compute"]}
{"id": "C21", "title": "A converged chemical equilibrium is an equilibrium", "statement": "If the equilibrium residuals vanish, element mass is conserved exactly, n_moles is the sum of the species moles, and every species the solver still updates satisfies mu_j = sum_i pi_i a_ij; consequently the mixture has the least Gibbs energy among all mixtures of the same elements, and two converged solves at one T, P and composition give the same mole numbers whatever the starting guess. Starting a solve never leaves a negative mole number.", "quantifier": "all species sets, compositions, T, P and states", "why_tests_cant": "real-valued, any number of species", "anchors": ["pycycle/thermo/cea/chem_eq.py:ChemEq.apply_nonlinear"]}
{"id": "C22", "title": "Equilibrium Jacobian is exact", "statement": "The linearisation of the equilibrium residuals equals their true derivative with respect to every state and input, whatever was evaluated before, and linearising never fails after an evaluation.", "quantifier": "all states and inputs, any number of species/elements", "why_tests_cant": "real-valued, unbounded dimension", "anchors": ["pycycle/thermo/cea/chem_eq.py:ChemEq.linearize"]}
{"id": "C23", "title": "Equilibrium property right-hand sides have exact derivatives", "statement": "The linear systems for the temperature/pressure response are assembled as in the derivation (symmetric matrix), the declared derivatives are exact, and the solution gives the change of the total moles along any family of converged states.", "quantifier": "all compositions and temperatures", "why_tests_cant": "real-valued, unbounded dimension", "anchors": ["pycycle/thermo/cea/props_rhs.py:PropsRHS"]}
{"id": "C24", "title": "Mixture property derivatives are exact and satisfy ideal-gas relations", "statement": "h, S, gamma, Cp, Cv, rho, R of the gas mixture satisfy rho*R*T = P (in the component's units), gamma=-Cp/(Cv*dlnV/dlnP), the first law dh = T dS + v dP, Cp = dh/dT at constant pressure including the heat of reaction, and d ln P = gamma d ln rho at constant entropy; the declared derivatives are exact.", "quantifier": "all compositions, T,P and response vectors", "why_tests_cant": "real-valued, unbounded dimension", "anchors": ["pycycle/thermo/cea/props_calcs.py:PropsCalcs"]}
{"id": "C25", "title": "Static-pressure calculation is physically consistent", "statement": "Given static pressure, computed V, Vsonic, MN, area satisfy V^2/2 = ht-hs, MN*Vsonic=V, rho*V*area=W and have exact derivatives wherever ht>hs.", "quantifier": "all real inputs in the physical domain", "why_tests_cant": "real-valued", "anchors": ["pycycle/thermo/static_ps_calc.py:PsCalc"]}
{"id": "C26", "title": "Zero static residual means the flow state is consistent", "statement": "If the Ps residual vanishes then energy (hs+V^2/2=ht), Mach definition and continuity (rho*V*area=W) all hold, in both the MN and the area modes.", "quantifier": "all real inputs and states", "why_tests_cant": "real-valued", "anchors": ["pycycle/thermo/static_ps_resid.py:PsResid.apply_nonlinear"]}
{"id": "C27", "title": "Static residual derivatives are exact", "statement": "The linearisation of the static residuals is the true derivative in both modes.", "quantifier": "all inputs and states", "why_tests_cant": "real-valued; tests check one point", "anchors": ["pycycle/thermo/static_ps_resid.py:PsResid.linearize"]}
{"id": "C28", "title": "Initial guesses are refreshed only when needed", "statement": "The static-pressure solver's initial guess is overwritten on the first call and, afterwards, exactly when the demanded MN/area changed since last time.", "quantifier": "every history of demanded values", "why_tests_cant": "history property", "anchors": ["pycycle/thermo/static_ps_resid.py:PsResid.guess_nonlinear"]}
{"id": "C29", "title": "Compressor and turbine power balance energy", "statement": "Shaft power equals the total enthalpy flow difference over all streams (main flow and bleeds), power=torque*speed, and the bleed flow rates are the specified fractions of inflow.", "quantifier": "any number of bleeds, all real inputs", "why_tests_cant": "real-valued, unbounded bleed lists", "anchors": ["pycycle/elements/compressor.py:BleedsAndPower", "pycycle/elements/turbine.py:EnthalpyAndPower"]}
{"id": "C30", "title": "Turbomachinery partial derivatives are exact", "statement": "Every derivative declared by the compressor, turbine and map-scaling components is the true derivative, and undeclared pairs have derivative zero.", "quantifier": "all real inputs in the domain, any number of bleeds", "why_tests_cant": "real-valued", "anchors": ["pycycle/elements/compressor.py", "pycycle/elements/turbine.py", "pycycle/elements/compressor_map.py", "pycycle/elements/turbine_map.py"]}
{"id": "C31", "title": "Map scalars reproduce the design point", "statement": "Map scale factors computed at the design point, fed back to the off-design scaling at the same map values, return exactly the design corrected speed, flow, pressure ratio and efficiency (compressor and turbine).", "quantifier": "all design values and map values with nonzero denominators", "why_tests_cant": "real-valued round trip", "anchors": ["pycycle/elements/compressor_map.py:MapScalars", "pycycle/elements/compressor_map.py:ScaledMapValues", "pycycle/elements/turbine_map.py"]}
{"id": "C32", "title": "Flow splitting conserves mass", "statement": "Splitter outlet flows are nonnegative, sum to the inflow and are in ratio BPR; bleed extraction returns inflow minus the sum of all bleeds.", "quantifier": "all flows/BPR, any number of bleeds", "why_tests_cant": "real-valued, unbounded", "anchors": ["pycycle/elements/splitter.py:BPRcalc", "pycycle/elements/bleed_out.py:BleedCalcs"]}
{"id": "C33", "title": "Mixer conserves impulse and area", "statement": "Mixed flow impulse is the sum of incoming impulses, area the sum of areas; derivatives are exact.", "quantifier": "all real inputs", "why_tests_cant": "real-valued", "anchors": ["pycycle/elements/mixer.py"]}
{"id": "C34", "title": "Gearbox and shaft conserve power", "statement": "A converged gearbox satisfies N_in*trq_in + eff*N_out*trq_out = 0 (with the gear ratio): without loss (eff = 1) power in equals power out, and with 0 < eff < 1 the power given to the output side is 1/eff times the power taken from the input side, so a gearbox that drives its output creates power and only one driven from its output loses power. A shaft's net power is the sum of individual torque powers with fractional loss and power extraction applied; derivatives are exact for nonzero torques.", "quantifier": "any number of ports; all real inputs; design and off-design", "why_tests_cant": "real-valued, unbounded port lists", "anchors": ["pycycle/elements/gearbox.py:Gearbox", "pycycle/elements/shaft.py:Shaft"]}
{"id": "C35", "title": "Performance outputs and derivatives are exact", "statement": "Net thrust = sum of gross thrusts - ram drag, OPR, TSFC and PSFC follow their definitions for any number of nozzles and burners and the declared derivatives are exact.", "quantifier": "any number of nozzles/burners; all inputs", "why_tests_cant": "real-valued, unbounded", "anchors": ["pycycle/elements/performance.py:Performance"]}
{"id": "C36", "title": "Inlet ram recovery schedule", "statement": "MIL-spec recovery lies in (0, base], is nonincreasing in Mach number for MN>=1, equals base below Mach 1, and has exact derivatives.", "quantifier": "all Mach numbers and base recoveries in (0,1]", "why_tests_cant": "piecewise real function", "anchors": ["pycycle/elements/inlet.py:MilSpecRecovery"]}
{"id": "C37", "title": "Nozzle equations and derivatives", "statement": "Nozzle pressure, thrust and PR relations hold and all derivatives are exact; the multiplexer picks the right stream for choked and unchoked flow and writes all of its outputs.", "quantifier": "all inputs", "why_tests_cant": "real-valued", "anchors": ["pycycle/elements/nozzle.py"]}
{"id": "C38", "title": "Turbine cooling model", "statement": "Cooling flow is zero when gas is cooler than metal, otherwise positive, energy is conserved across each row and derivatives are exact.", "quantifier": "all inputs, any row of any number of stages", "why_tests_cant": "real-valued, unbounded rows", "anchors": ["pycycle/elements/cooling.py:CoolingCalcs", "pycycle/elements/cooling.py:CombineCooling"]}
{"id": "C39", "title": "Duct pressure loss", "statement": "Duct off-design loss at the design Mach number equals the design loss, Pt_out = Pt_in*(1-dPqP), heat addition conserves energy, derivatives exact.", "quantifier": "all inputs", "why_tests_cant": "real-valued", "anchors": ["pycycle/elements/duct.py", "pycycle/elements/combustor.py"]}
{"id": "C40", "title": "Standard atmosphere is physically monotone", "statement": "Standard-day ambient pressure and density strictly decrease with altitude over the tabulated range and equal the US1976 tabulated points.", "quantifier": "all altitude pairs in the table", "why_tests_cant": "the whole table; tests sample a few altitudes", "anchors": ["pycycle/elements/US1976.py:USatm1976Data"]}
{"id": "C41", "title": "Mass and energy are conserved in a whole engine, and every station is consistent", "statement": "In an arbitrary network of pyCycle flow elements (starts, inlets, ducts, splitters, bleeds, mixers, compressors, turbines, combustors, nozzles) joined by pyc_connect_flow, with at most one link per port: the mass flow entering (starts, open inlets, fuel) equals the mass flow leaving through the open outlets; the total enthalpy flow entering, plus heat, fuel enthalpy and the (explicit) enthalpy change over inlets, equals the enthalpy flow leaving plus what the shafts deliver (net power, power extraction, friction), up to the rounded conversion constants; every outlet and every inlet connected with connect_tot shows total properties of the gas at its own temperature, pressure and composition.", "quantifier": "every finite network topology with at most one link per port, every gas model, thermo method and option, every number of bleeds and shafts, every converged state in which no element divides by zero", "why_tests_cant": "unbounded networks", "anchors": ["pycycle/mp_cycle.py:Cycle.pyc_connect_flow", "pycycle/elements/", "pycycle/elements/shaft.py:Shaft"]}
{"id": "C42", "title": "Thermo mode configuration", "statement": "Each Thermo mode builds exactly one consistent set of sub-solvers: a valid mode has a unique flow spec and equilibrium mode, exposes the inputs it needs, and an invalid mode is rejected.", "quantifier": "all mode strings", "why_tests_cant": "all strings; tests only try documented modes", "anchors": ["pycycle/thermo/thermo.py:Thermo"]}
{"id": "C43", "title": "Flow-port data copying", "statement": "copy_flow/init_output_flow make the output port data equal to the named input port's data (or the adder's), leave other ports untouched, and reject any other argument type.", "quantifier": "all port dictionaries", "why_tests_cant": "universal over dictionaries", "anchors": ["pycycle/element_base.py:Element"]}
{"id": "C44", "title": "Deprecated names keep their value", "statement": "A deprecated composition dictionary behaves like the plain dictionary for every operation sequence, and warns exactly once.", "quantifier": "every sequence of dictionary reads", "why_tests_cant": "history property", "anchors": ["pycycle/constants.py:DeprecatedDict"]}
{"id": "C45", "title": "Unit conversion and passthrough components are identities", "statement": "Unit-conversion and pass-through components copy each input to the corresponding output and have identity derivatives, for any list of variables.", "quantifier": "any list of variables", "why_tests_cant": "unbounded", "anchors": ["pycycle/thermo/unit_comps.py", "pycycle/passthrough.py"]}
{"id": "C46", "title": "Shipped thermochemical and map data are well formed", "statement": "Every product in the shipped thermo data uses only elements with known weight, has one more temperature breakpoint than coefficient rows, ascending breakpoints and enough coefficients; every shipped map has strictly increasing grids and tables of matching shape.", "quantifier": "all entries of all shipped data files", "why_tests_cant": "exhaustive check over the shipped (finite) data, proved by computation and lifted with forallb", "anchors": ["pycycle/thermo/cea/thermo_data", "pycycle/maps"]}
{"id": "C47", "title": "What the order of earlier calls can change", "statement": "Three components keep data on their Python instance between calls. (1) CorrectedInputsCalc (corrected flow and speed) and PropsRHS: outputs are a function of the inputs alone, whatever was called before; a call raises exactly when a linearisation comes before the first evaluation; and the derivatives held by the framework are the exact derivatives after every sequence of calls whose last evaluation was at the linearised point. Without that evaluation they are derivatives at another point: for CorrectedInputsCalc at the last evaluated Tt, Pt and W with the current Nmech, for PropsRHS at the last evaluated temperature for the mole-number columns; dWc/dW is then right only where sqrt(Tt)/Pt is what it was. (2) ChemEq: after any history the residual is that of the equilibrium equations, except that equations of species at or below 1e-10 may read 0 = 0, so it does not depend on the history at all when no species is that small, but does depend on it otherwise; its derivatives are those of the equations (outside the entries C22 lists) after every history in which no evaluated point had such a species, and can be wrong - even at a converged point without trace species that was just evaluated - when an earlier one had.", "quantifier": "every sequence of evaluations and linearisations at arbitrary points, every gas, every point", "why_tests_cant": "tests evaluate a component once or twice in the order the framework happens to use; the set of call sequences is infinite", "anchors": ["pycycle/elements/compressor.py:CorrectedInputsCalc.compute", "pycycle/elements/compressor.py:CorrectedInputsCalc.compute_partials", "pycycle/thermo/cea/props_rhs.py:PropsRHS", "pycycle/thermo/cea/chem_eq.py:ChemEq.apply_nonlinear", "pycycle/thermo/cea/chem_eq.py:ChemEq.linearize"]}
{"id": "C48", "title": "Element stations are consistent with each other", "statement": "In every converged state of an element, whatever the property calculation: each outlet's total state is the state of the gas at that outlet's own temperature, pressure and composition; total pressure, enthalpy or temperature, mass flow and composition of the outlets are related to the inlet's as the element promises (inlet: ram recovery; duct: dPqP and heat; splitter and bleeds: mass split and unchanged totals; combustor: fuel added, mass and energy conserved; flight conditions: static state equals the standard atmosphere at the altitude; CFD start: given static pressure, velocity, area); and, when statics are on, the outlet's static state has the total entropy, the given Mach number (design) or area (off-design) and satisfies the energy, sonic-velocity, Mach and continuity relations.", "quantifier": "every gas model and thermo method, every option combination (statics on/off, design/off-design, number of bleeds, reactant), every converged state", "why_tests_cant": "a test compares a handful of converged values for one gas; the claim is about how the element is wired, for every converged state and gas model", "anchors": ["pycycle/elements/inlet.py:Inlet.setup", "pycycle/elements/duct.py:Duct.setup", "pycycle/elements/splitter.py:Splitter.setup", "pycycle/elements/flow_start.py:FlowStart.setup", "pycycle/elements/cfd_start.py:CFDStart.setup", "pycycle/elements/flight_conditions.py:FlightConditions.setup", "pycycle/elements/ambient.py:Ambient", "pycycle/elements/bleed_out.py:BleedOut.setup", "pycycle/elements/combustor.py:Combustor.setup"]}
{"id": "C49", "title": "Tabular mixing conserves air and every constituent", "statement": "The tabular ThermoAdd conserves mass: the air flow contained in the output stream is the inflow's air (plus, in flow mode, the air of every mixed stream), and the flow of each constituent is the inflow's plus what is mixed in; in reactant mode only the named reactant's entry grows. The initial value of the composition vector is in the same (sorted) order as the vector.", "quantifier": "any number of constituents, mix ports, all flows and ratios with positive totals, every composition dictionary", "why_tests_cant": "tests use the single constituent FAR; the statement ranges over all numbers of constituents and streams and all real inputs", "anchors": ["pycycle/thermo/tabular/thermo_add.py:ThermoAdd.compute", "pycycle/thermo/tabular/thermo_add.py:ThermoAdd.setup"]}
{"id": "C50", "title": "Chemical elements are never lost along the flow path", "statement": "With CEA thermodynamics, every output port of every element names each chemical element that any of its input ports names (a combustor also those of its fuel, a start those of its composition and reactant), so along any path of connected elements the set of chemical elements only grows. With tabular thermodynamics the port data of a mixing element carries no composition at all.", "quantifier": "every element type, every number of bleeds, every composition dictionary, every finite chain of connected elements", "why_tests_cant": "tests run a handful of cycles with one fuel; the statement is an induction over arbitrary flow paths", "anchors": ["pycycle/element_base.py:Element.copy_flow", "pycycle/element_base.py:Element.init_output_flow", "pycycle/thermo/cea/thermo_add.py:ThermoAdd.output_port_data"]}
{"id": "C51", "title": "Standard-atmosphere derivatives are exact", "statement": "The derivatives the atmosphere component reports for static temperature, pressure and density with respect to altitude are the true derivatives at every altitude strictly inside the tabulated range, table altitudes included; the derivative reported for the density slope output is true everywhere except at the table altitudes, where that output has no derivative.", "quantifier": "every altitude in the tabulated range", "why_tests_cant": "check_partials samples a few altitudes and never a table altitude", "anchors": ["pycycle/elements/US1976.py:USatm1976Comp"]}
{"id": "C52", "title": "Map lookups reproduce the table and stay physical", "statement": "A lookup in a shipped compressor or turbine map is defined exactly inside its grid; at a grid point it returns the listed number; anywhere inside the grid efficiencies lie in [0,1), flows are positive and pressure ratios are at least 1; at the map's design point the efficiency is positive and pressure ratios exceed 1, so that every design scalar is defined.", "quantifier": "every shipped map, every output, every point of the grid", "why_tests_cant": "a continuum of points; tests look at one operating line", "anchors": ["pycycle/elements/compressor_map.py:CompressorMap.setup", "pycycle/elements/turbine_map.py:TurbineMap.setup", "pycycle/maps"]}
{"id": "C53", "title": "The operating point of a compressor or turbine lies on its scaled map", "statement": "In every converged state the map quantities are what the table gives at the current alpha, map speed and R-line (map pressure ratio for a turbine); corrected speed, PR-1, efficiency and corrected flow are the scalars times the map quantities, in design mode (where the scalars are computed from the demanded values, provided no map quantity is 0 and the map PR is not 1) and in off-design mode (where the scalars are given). The design point, with its computed scalars handed over, is a solution of the off-design map. SMN and SMW are the percentage margins to the stall line of the map at the same map speed and at the same map flow.", "quantifier": "every map (any table lookup relation), every converged state, both modes", "why_tests_cant": "tests check a few points of one map; the claim is for every map and every converged state", "anchors": ["pycycle/elements/compressor_map.py:CompressorMap", "pycycle/elements/turbine_map.py:TurbineMap"]}
{"id": "C54", "title": "An off-design element fed with the design results reproduces the design point", "statement": "Take a converged design-mode element (inlet, duct, splitter, bleed-out, combustor, compressor, turbine, mixer) with moving gas at the outlet. The off-design version of the same element, whose area and map scalars (and a duct's loss coefficient) are given the design values, is solved by the very same state: the design point is recovered exactly, in all other variables.", "quantifier": "every gas model and method, every option combination, every number of bleeds, every converged design state", "why_tests_cant": "needs every converged design state of every engine; tests run a few", "anchors": ["pycycle/elements/inlet.py:Inlet", "pycycle/elements/duct.py:Duct", "pycycle/elements/splitter.py:Splitter", "pycycle/elements/bleed_out.py:BleedOut", "pycycle/elements/combustor.py:Combustor", "pycycle/elements/compressor.py:Compressor", "pycycle/elements/turbine.py:Turbine", "pycycle/elements/mixer.py:Mixer"]}
{"id": "C55", "title": "No thermo station silently misreads a composition vector", "statement": "With CEA, in every element that set-up accepts, each thermo station lays its composition input out for exactly the chemical elements the vector it receives was written for, although some stations of a turbine and a mixer are built from the data of another port. Set-up refuses (sizes of connected variables differ) exactly those elements where it would not be so: a turbine whose bleed, or a mixer whose second stream, brings an element the main stream lacks, and a mixer with designed_stream 2 whose streams differ in elements.", "quantifier": "every element class and option, every set of bleeds, all announced port compositions, every converged state", "why_tests_cant": "a misread vector gives plausible but wrong gas properties; which combinations of streams are read right, wrong or refused ranges over all compositions and element options", "anchors": ["pycycle/elements/turbine.py:Turbine.setup", "pycycle/elements/mixer.py:Mixer.setup", "pycycle/elements/combustor.py:Combustor.setup", "pycycle/elements/flow_start.py:FlowStart.setup", "pycycle/thermo/cea/chem_eq.py:SetTotalTP", "pycycle/element_base.py:Element"]}
{"id": "C56", "title": "Conversion constants agree with the unit system", "statement": "In SI units, the power of a compressor or turbine is the enthalpy flow it loses, torque times angular speed is that power, and ram drag and gross thrust (Cfg) are momentum flows, each up to a relative error of 2e-6 that comes only from the rounded constants in constants.py; the two universal gas constants are the same constant up to 1e-7; the standard day is 288.15 K and 1 atm (2e-7).", "quantifier": "every converged compressor, turbine, inlet and nozzle, whatever the gas, map, bleeds and options", "why_tests_cant": "tests compare with a tolerance of 1e-3 or looser at single points", "anchors": ["pycycle/constants.py", "pycycle/elements/compressor.py:Power", "pycycle/elements/turbine.py:EnthalpyAndPower", "pycycle/elements/inlet.py:Calcs", "pycycle/elements/nozzle.py:PerformanceCalcs"]}
{"id": "C57", "title": "Stall margins are those of the scaled machine", "statement": "SMW is the percentage by which the pressure ratio of the machine (its scaled map) at stall, at the current corrected flow, exceeds the current pressure ratio.", "quantifier": "every map and converged state", "why_tests_cant": "tests compare with numbers the code itself produced", "anchors": ["pycycle/elements/compressor_map.py:StallCalcs", "pycycle/elements/compressor_map.py:CompressorMap.setup"]}
{"id": "C58", "title": "Default design-to-off-design connections are enough", "statement": "Connecting the default design-to-off-design pairs of an element is enough for the off-design element to see the design's losses; nothing else of the design result is needed.", "quantifier": "every element with default connections, every converged design state", "why_tests_cant": "tests add the missing connections by hand", "anchors": ["pycycle/elements/duct.py:Duct.initialize", "pycycle/mp_cycle.py:MPCycle.pyc_connect_des_od"]}
{"id": "C59", "title": "An inlet conserves total enthalpy", "statement": "The total enthalpy at the outlet of an inlet equals that at its inlet, whatever the ram recovery.", "quantifier": "every gas, every ram recovery, every converged inlet", "why_tests_cant": "holds exactly for gases whose enthalpy does not depend on pressure, so tests with cold air do not see the difference", "anchors": ["pycycle/elements/inlet.py:Inlet.setup"]}
{"id": "C60", "title": "A stream cannot be used twice", "statement": "If the elements of a cycle converge and all flow connections hold, no gas is created: connecting one outlet to two inlets is either rejected or conserves mass.", "quantifier": "every network of elements and flow connections", "why_tests_cant": "no test connects one outlet twice", "anchors": ["pycycle/mp_cycle.py:Cycle.pyc_connect_flow"]}
{"id": "C61", "title": "With CEA, temperature, pressure and composition determine every property, and the gas is ideal", "statement": "Two converged CEA property calculations at the same temperature, pressure and elemental composition give the same enthalpy, entropy, heat capacities, gamma, density and gas constant, whatever the starting point of the solver and whatever else the model contains; at every CEA flow station P = rho R T in SI units with positive rho and R.", "quantifier": "every set of species (any numbers of species and elements), temperature, pressure, composition and every converged state (mole numbers not below the solver's lower bound, trace removal off)", "why_tests_cant": "uniqueness of a chemical equilibrium ranges over all solver histories; a test only sees the solution its own run converged to", "anchors": ["pycycle/thermo/cea/chem_eq.py:SetTotalTP", "pycycle/thermo/cea/chem_eq.py:ThermoCalcs", "pycycle/thermo/cea/props_rhs.py:PropsRHS", "pycycle/thermo/cea/props_calcs.py:PropsCalcs"]}
{"id": "C62", "title": "The temperature found from enthalpy or entropy is the only one", "statement": "For CEA gases the enthalpy and entropy of the reacting mixture strictly increase with temperature at fixed pressure and composition, so a flow station found by total_hP, total_SP or static_Ps is unique: two converged stations with the same given enthalpy (entropy), pressure and composition agree in every property, and static stations at the same entropy, total enthalpy, flow and static pressure agree in velocity, Mach number and area too.", "quantifier": "every gas whose species have positive heat capacity on the temperature interval considered, every composition, pressure and pair of converged states in that interval", "why_tests_cant": "multiple solutions of the balance would only show up for particular guesses", "anchors": ["pycycle/thermo/thermo.py:Thermo", "pycycle/thermo/cea/chem_eq.py:SetTotalTP"]}
{"id": "C63", "title": "CEA stations are thermodynamically stable", "statement": "If every species' heat capacity exceeds R, a converged CEA property calculation has 0 < Cv <= Cp, equilibrium Cp at least the frozen Cp, positive gamma, hence a real, positive speed of sound, and a static_Ps station whose enthalpy lies below the total enthalpy satisfies energy, speed of sound, Mach number and continuity exactly.", "quantifier": "every gas, temperature, pressure, composition and converged state", "why_tests_cant": "the sign of the reaction contributions must hold for every mixture", "anchors": ["pycycle/thermo/cea/props_calcs.py:PropsCalcs.compute", "pycycle/thermo/static_ps_calc.py"]}
{"id": "C64", "title": "More pressure never means more molecules", "statement": "At fixed temperature and composition a higher pressure gives a CEA mixture with no more moles per mass (its gas constant does not grow) and a strictly higher density.", "quantifier": "every gas, temperature, composition and pair of pressures with converged states", "why_tests_cant": "a statement about all pairs of states", "anchors": ["pycycle/thermo/cea/chem_eq.py:ChemEq", "pycycle/thermo/cea/props_calcs.py:PropsCalcs.compute"]}
{"id": "C65", "title": "The shipped thermochemical data are physical over their whole range", "statement": "Every Properties object made from one of the shipped data sets (janaf, co2_co_o2, wet_air), after any history of calls, has species heat capacities above 2 R on the whole temperature range of each fit, well-formed element rows, and enthalpy, entropy and heat capacity that belong together between the junctions of the fits; so with the shipped data the CEA results are unique at given T, P and composition, Cv is positive and Cp >= Cv from 201 K to 6000 K, and no two temperatures 1 K or more apart in 200-6000 K have the same enthalpy or entropy at one pressure and composition (janaf, wet_air).", "quantifier": "every shipped data set, every set of elements, every temperature in range, every pressure, composition, history of property calls and converged state", "why_tests_cant": "positivity of a fit has to hold at every temperature, and the consequences at every mixture; the fits do not quite meet at 1000 K, so uniqueness there depends on the size of the jumps of all species", "anchors": ["pycycle/thermo/cea/thermo_data/janaf.py", "pycycle/thermo/cea/thermo_data/co2_co_o2.py", "pycycle/thermo/cea/thermo_data/wet_air.py", "pycycle/thermo/cea/species_data.py:Properties"]}
{"id": "C66", "title": "Every chemical element that enters an engine leaves it", "statement": "In a converged cycle of pyCycle elements joined by flow connections, of every chemical element (CEA) the mass flow that enters through starts, open inlets and fuels equals the mass flow that leaves through open outlets, and every composition vector stays normalised if those that enter are; with the tabular method the same holds for the air flow and the flow of every constituent.", "quantifier": "every network of flow elements with any element options, every gas model, every design or off-design state that satisfies all component and connection equations, every element or constituent", "why_tests_cant": "the networks, compositions and states are unbounded, and the balance depends on the ordering of composition vectors being the same at both ends of every connection", "anchors": ["pycycle/thermo/cea/thermo_add.py:ThermoAdd", "pycycle/thermo/tabular/thermo_add.py:ThermoAdd", "pycycle/elements/combustor.py:Combustor", "pycycle/elements/turbine.py:Turbine", "pycycle/elements/mixer.py:Mixer", "pycycle/mp_cycle.py:Cycle", "pycycle/element_base.py:Element"]}
{"id": "C67", "title": "The shipped example engines obey mass, momentum, shaft power, energy and their targets", "statement": "For each of the 23 cycles in example_cycles (turbojets dry, wet and with afterburner, propulsors dry and wet, single and multi-spool turboshafts, high-bypass, mixed-flow and N+3 turbofans, in design, off-design and part-power), whenever the cycle is converged: its elements and flow connections form a valid network whose only open exits are the nozzles (and the listed overboard bleeds); air flow plus fuel flow equals the flow out of the exits; net thrust is the sum of the nozzle thrusts minus W*V0/g_c, each nozzle thrust being the momentum and pressure thrust for the exhaust at ambient pressure, and fuel flow and TSFC follow; on every shaft or geared spool the powers of the machines add up to the demand, and the net power is zero, the power target, or, in the mixed-flow turbofan and the off-design afterburning turbojet, whose balance compares the torque sums only, minus the extraction and the losses; every quantity that a balance is said to drive meets its target; and the enthalpy that enters the inlet plus heat, fuel and shaft work leaves through the exits.", "quantifier": "every shipped example, every thermodynamic method, every flight condition, map, target and converged state", "why_tests_cant": "the tests compare a few numbers at one or two flight conditions; the balances must hold at every converged operating point and mode of every engine", "anchors": ["example_cycles/simple_turbojet.py", "example_cycles/wet_simple_turbojet.py", "example_cycles/afterburning_turbojet.py", "example_cycles/electric_propulsor.py", "example_cycles/wet_propulsor.py", "example_cycles/single_spool_turboshaft.py", "example_cycles/multi_spool_turboshaft.py", "example_cycles/high_bypass_turbofan.py", "example_cycles/mixedflow_turbofan.py", "example_cycles/N+3ref/N3ref.py", "pycycle/elements/performance.py:Performance", "pycycle/elements/shaft.py:Shaft", "pycycle/elements/gearbox.py:Gearbox"]}
{"id": "C68", "title": "Off design at the design condition, a shipped engine finds its design point again", "statement": "For every multi-point engine in example_cycles (turbojets, propulsors, turboshafts, high-bypass and mixed-flow turbofans, N+3): take any converged design point. Then the off-design point, with the areas, map scalars, gear ratio, throat areas and cycle parameters that the MPCycle hands over, and with the design thrust, temperature or power as its throttle setting, is solved by the very same engine state: every flow, every speed, every shaft and the performance summary keep their design values. The afterburning turbojet needs in addition that its compressor sits on R-line 2 and that extraction and friction power are zero, and it cannot do without. Every area, map scalar and gear ratio of an off-design element comes from the design point, but for two ducts that are forgotten (inlet_duct of the mixed-flow turbofan, duct6 of the multi-spool turboshaft).", "quantifier": "every MPCycle class shipped in example_cycles, every gas model, every map, every converged design state with moving gas", "why_tests_cant": "the regression tests run one off-design condition per engine and compare numbers; they cannot show that the design solution is carried over for every design", "anchors": ["example_cycles/simple_turbojet.py:MPTurbojet", "example_cycles/high_bypass_turbofan.py:MPhbtf", "example_cycles/mixedflow_turbofan.py:MPMixedFlowTurbofan", "example_cycles/multi_spool_turboshaft.py:MPMultiSpool", "example_cycles/afterburning_turbojet.py:MPABTurbojet", "example_cycles/N+3ref/N3ref.py:MPN3", "pycycle/mp_cycle.py:MPCycle.configure"]}
{"id": "C69", "title": "Tabular gas properties: a continuous function of T, P and composition that reproduces the table and inverts uniquely", "statement": "With thermo_method='TABULAR', for every well-formed table (ascending grids with at least two points per axis, any number of composition parameters): the properties h, S, gamma, Cp, Cv, rho, R of a station are defined and uniquely determined by T, P and composition; at a point of the grid they are the table's entries (entry i of the composition vector indexes the i-th key in sorted order, then P, then T); inside a cell they lie between the entries at the cell's corners, so inside the table any bound all entries respect (positive density, gamma > 1) is respected; a linear relation that holds at all entries (Cp - Cv = R) holds everywhere; they change continuously with T, P and composition. If a property (h or S) grows with T along every row of the table then, at any pressure and composition inside the table, every value of it belongs to exactly one temperature, which lies in the table iff the value does: a converged station with given h and P (total_hP), S and P (total_SP) or S and Ps (static_Ps) has one temperature and one set of properties. The energy balance of every shipped engine holds whatever the table. Two expectations are false: the equation of state P = rho R T holds only at the temperatures of the grid (between T1 and T2 the density is too large by the factor 1 + (T-T1)(T2-T)/(T1 T2)), and the lookup silently extrapolates: a table whose density falls with temperature gives negative densities for hot enough gas.", "quantifier": "every table with any number of composition parameters and grid points, every temperature, pressure and composition, every converged station", "why_tests_cant": "the table has hundreds of thousands of cells and the user may supply another; uniqueness of the temperature and continuity quantify over a continuum, and a test only compares sampled points", "anchors": ["pycycle/thermo/tabular/tabular_thermo.py:SetTotalTP", "pycycle/thermo/thermo.py:Thermo", "pycycle/constants.py:TAB_AIR_FUEL_COMPOSITION"]}
{"id": "C70", "title": "Cycle.setup gives every port of a network its gas, and every chemical element is conserved through the shipped CEA engines, humid air included", "statement": "On a network of pyCycle elements whose inlets are all fed, whose connections run downstream and whose reactants and start compositions are in the data and use known elements, Cycle.setup returns, every port carries a well-formed composition dictionary, every element was handed the data its upstream neighbour announced, and every mixing component (combustor, bleed-fed turbine, mixer) can be built from them. This includes every shipped engine that uses CEA. At a converged point of such an engine, each chemical element leaves through the nozzles and overboard bleeds at exactly the rate at which the inlet air and the burners' fuels bring it in; elements in neither fuel (N, O, Ar) leave at the rate the air alone brings them. Air that starts with a reactant mixed in (reactant, mix_ratio_name of FlowStart / FlightConditions, as in the wet-air examples) has a normalised composition with `ratio` parts of reactant per part of dry air, and a composition left at its initial value is that of the dictionary it was made from.", "quantifier": "all networks of elements, links and element options meeting the stated conditions; all shipped CEA engines, all maps, options and converged states; all chemical elements; all reactants, ratios and thermo data", "why_tests_cant": "The regression tests compare a few station values; conservation of each element from the port data that setup propagates, at every converged state and for every network, is not something a finite number of runs can show.", "anchors": ["pycycle/mp_cycle.py:Cycle.setup", "pycycle/mp_cycle.py:Cycle.pyc_connect_flow", "pycycle/element_base.py:Element", "pycycle/elements/flow_start.py:FlowStart.pyc_setup_output_ports", "pycycle/elements/flight_conditions.py:FlightConditions", "pycycle/elements/combustor.py:Combustor.pyc_setup_output_ports", "pycycle/elements/turbine.py:Turbine.pyc_setup_output_ports", "pycycle/elements/mixer.py:Mixer.pyc_setup_output_ports", "pycycle/thermo/cea/thermo_add.py:ThermoAdd.output_port_data", "pycycle/thermo/cea/species_data.py:Properties", "example_cycles"]}
{"id": "C71", "title": "The printed tables show the converged engine", "statement": "For a converged element the viewers' tables can be read whatever inputs were made cycle parameters, and every column shows what its label says: print_compressor, print_turbine, print_burner, print_nozzle, print_mixer, print_shaft, print_bleed and print_flow_station never fail on an element they are meant for, and the printed pressure ratios, efficiencies, corrected flows and speeds, powers, fuel-air ratio, coefficients, map coordinates and margins are those of the element's own stations; plot_compressor_maps and plot_turbine_maps draw the operating point on the map they have scaled.", "quantifier": "every thermodynamic relation and method, every map, every list of bleeds, statics and design/off-design, every choice of cycle parameters among the element's inputs, every converged state", "why_tests_cant": "tests of the viewers only run one engine and look that no exception is raised; that each column is the labelled quantity, for every configuration and set of cycle parameters, is a statement about all converged states and all promoted names", "anchors": ["pycycle/viewers.py:get_val", "pycycle/viewers.py:print_flow_station", "pycycle/viewers.py:print_compressor", "pycycle/viewers.py:print_burner", "pycycle/viewers.py:print_turbine", "pycycle/viewers.py:print_nozzle", "pycycle/viewers.py:print_bleed", "pycycle/viewers.py:print_shaft", "pycycle/viewers.py:print_mixer", "pycycle/viewers.py:plot_compressor_maps", "pycycle/viewers.py:plot_turbine_maps"]}
{"id": "C72", "title": "The core-size efficiency balance of the N+3 engine", "statement": "When the small-core efficiency balance of the N+3 engine is converged, the high pressure compressor's polytropic efficiency, computed from its own inlet and exit stations, is the value of the chosen efficiency curve at the compressor's core size (the inflow corrected to the exit temperature and pressure); the tabulated curve goes through its table, the declared derivatives are exact, a bigger core is more efficient wherever the curve is meant to rise and a higher technology level never lowers it; the overall pressure ratio the design point is balanced on is the one the engine reports.", "quantifier": "every engine type and technology level, every core size in the tables' range, every thermodynamic relation and method, every map, bleed list and configuration of the compressor, every converged state, every chain of fan, splitter, ducts, compressors and bleeds of the N+3 core", "why_tests_cant": "the benchmark runs one engine at one core size; that the balance holds at every converged state, that the derivatives are exact at every core size and that the curve is monotone over its whole range are statements about all real values", "anchors": ["example_cycles/N+3ref/small_core_eff_balance.py:SmallCoreEffBalance", "example_cycles/N+3ref/small_core_eff_balance.py:SmallCoreEffBalance.linearize", "example_cycles/N+3ref/N3ref.py:hpc_CS", "example_cycles/N+3ref/N3ref.py:hpc_EtaBalance", "example_cycles/N+3ref/N3ref.py:opr_calc"]}
{"id": "C73", "title": "Generating the table of the TABULAR method from CEA", "statement": "In the table that the generator script fills, every entry is, in SI units, the property the CEA method gives at that temperature and pressure to dry air (first row of FAR) or to dry air burnt with that fuel-air ratio of Jet-A (other rows); its grids are increasing and cover exactly FAR 0 to 0.05, P 1 Pa to 10 MPa and T 100 to 3500 K; so a TABULAR station or combustor working at a grid point has exactly the outputs, and the fuel flow, of the CEA one at the same FAR, P and T. Using two species tables for the two problems is harmless for the air row: they give the same species for any hydrogen-free composition.", "quantifier": "every row and column of the 20 x 110 x 100 table, every converged state of the two generator models, every converged state of a TABULAR and a CEA station or combustor at a grid point, with every property relation of the gas (including every CEA gas) and every size option of the combustors, every hydrogen-free composition", "why_tests_cant": "no test runs the generator, which solves 220000 equilibrium points; that each entry stands for the intended gas at the intended point and unit, and that a combustor reading the table agrees with the CEA one, is a statement about all entries and all converged states", "anchors": ["example_cycles/tab_thermo_data_generator.py:TabThermoGenAir", "example_cycles/tab_thermo_data_generator.py:TabThermoGenAirFuel", "pycycle/constants.py:CEA_AIR_FUEL_COMPOSITION", "pycycle/thermo/tabular/tabular_thermo.py:SetTotalTP"]}
{"id": "C74", "title": "The standard atmosphere obeys the gas law, hydrostatic balance and the standard's temperature profile", "statement": "At every altitude of the table's range, between the tabulated altitudes too, the static pressure, density and temperature that the atmosphere component returns satisfy the perfect gas law of air, the pressure's derivative with respect to altitude is minus density times gravity, and the temperature follows the piecewise linear profile of the 1976 standard atmosphere, each within a stated small tolerance.", "quantifier": "every real altitude from -1000 to 150000 ft, every state of the other variables", "why_tests_cant": "the tests compare a few altitudes with stored numbers; that three separately interpolated tables stay consistent with each other at every real altitude is a statement about all of them", "anchors": ["pycycle/elements/US1976.py:USatm1976Data", "pycycle/elements/US1976.py:USatm1976Comp"]}
{"id": "C75", "title": "The N+3 example's maps are well formed, and every map's flow has the shape the balances rely on", "statement": "The five performance maps of the N+3 example are well formed, physical at every point of their grids and give positive design values at their default point, as the library's maps do. In every map of the library and of the example, corrected flow grows strictly with corrected speed on a compressor map, so that flow determines speed, and never falls with pressure ratio on a turbine map or with the R-line on a compressor map.", "quantifier": "every map table shipped with the library or with the N+3 example, every two points of its grid, between the tabulated ones too", "why_tests_cant": "the tests look up a map at the few points their engines run at; monotonicity is a statement about every pair of real points of the grid", "anchors": ["example_cycles/N+3ref/N3_*_map.py", "pycycle/maps/*.py", "pycycle/elements/compressor_map.py", "pycycle/elements/turbine_map.py"]}
{"id": "C76", "title": "The second law: no duct, compressor, turbine or nozzle of a converged CEA model destroys entropy", "statement": "For two flow states of one composition computed by the CEA package, the rise of enthalpy is at least T1 times the rise of entropy plus T1*R2*ln(P2/P1), R2 being the reported gas constant rescaled by a factor within 0.01 % of one (the code's two gas constants). So isentropic compression takes work, bounded on both sides; a pressure loss at equal enthalpy creates entropy; and where a station's static state shares the entropy of its total state and moves, its static pressure lies below its total pressure. In a converged model a duct obeys the Clausius inequality Q <= W*T_out*(S_out - S_in), and creates entropy if it is adiabatic with a loss; a compressor of pressure ratio at least one and efficiency in (0,1] never lowers entropy or enthalpy, and raises both strictly where the ratio exceeds one and the efficiency is below one; a turbine's main stream, efficiency in [0,1], never loses entropy or gains enthalpy, and its power is not negative; a nozzle with a loss creates entropy, its full and its lossless expansion have real exit velocities obtained from the enthalpy drop, and the lossless one is at least as fast; the sonic state lies below the total pressure.", "quantifier": "every gas whose species data meet the stated thermodynamic consistency on a temperature range, every two CEA states in it, and every converged state of a duct, compressor (any bleeds), turbine (any cooling bleeds) or nozzle of any configuration whose temperatures lie in it", "why_tests_cant": "tests compare a handful of converged cycles with stored numbers; an inequality over every gas, state and component setting needs an argument about the equations", "anchors": ["pycycle/elements/duct.py", "pycycle/elements/compressor.py", "pycycle/elements/turbine.py", "pycycle/elements/nozzle.py", "pycycle/thermo/cea/props_calcs.py", "pycycle/thermo/cea/chem_eq.py"]}
