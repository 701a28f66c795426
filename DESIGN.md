# Formal model of OpenMDAO/pyCycle in Rocq (Coq 8.16.1)

(Generated by `tools/gen_design.py` from `tools/design_head.md`, `tools/notes.json`, `properties.jsonl` and `MANIFEST.json`.)

## 1. What is modelled and how

Source of truth: `/repo/pycycle` at the pinned commit, read as text. Every model definition carries a comment `(* file:lines *)`;
simplifications are stated in the same comment.

| layer | content |
|---|---|
| `Spec_*.v` | small vocabulary, independent of the model: Python dictionaries, environments of named reals, "the Jacobian is exact", streams and mass fractions, groups of subsystems and what a converged group is |
| `Model_*.v` | transcription of the Python functions, no proofs |
| `Data_*.v` | data shipped with the code (species, atmosphere table, maps), generated by `tools/gen_*.py` |
| `Lib_*.v`, `Proofs_*.v` | lemmas, tactics, example states |
| `Prop_*.v` | the theorems `Cxx_...`, the specification they are stated in, and examples that meet their hypotheses |

### Discrete code (C01-C14, C16, C19, C43, C44, C50)
`Cycle`, `MPCycle`, `Element`, `Thermo`, `Properties`, `DeprecatedDict` are state machines over lists, ordered association lists (Python
dictionaries) and strings; exceptions are explicit values. API histories are lists of calls.

### Numeric components (C15, C17-C18, C20-C40, C45, C49, C51)
An OpenMDAO component is the *sequence of assignments* its `compute` (or `apply_nonlinear`) makes on an environment `env := var -> R`, and
`compute_partials`/`linearize` the sequence of assignments on a Jacobian that first holds the values of `declare_partials(val=...)` (0 for pairs
never declared). Vectors are families `I "name" i`, per-port names `B "bleed" "frac_W"`; sizes are universally quantified.

"Derivatives are exact" (`Spec_Comp.jac_exact`) uses the standard library's `derivable_pt_lim`: for **every** output and **every** input, declared
or not, `t |-> compute (e[i:=t]) o` has derivative `partials e o i` at `e i`. `jac_declared` says that only declared entries are written,
`writes_all` that every output is written.

### Groups, elements, cycles (C41, C42, C48, C53, C54, C56-C60)
`Spec_Wire.v` is the assumed OpenMDAO semantics: a group is a list of subsystems with input and output metadata (name, unit, default), promotions
(`'x'`, `('x','alias')`, `'pre*'`, `'*suf'`, `'*part*'`), explicit connections and a converged state `solves g w` - every subsystem's relation holds on
its inputs and outputs converted to its own units, and every connection is an equality. Each pyCycle `Thermo` mode, element and map group is
transcribed subsystem by subsystem in the order of `add_subsystem`. The gas is an arbitrary relation `tp T P composition properties`, so the theorems hold
for CEA, tabular and any other property model; `Model_Equil` shows what the CEA relation is.

### Gas properties (C21-C24, C61-C66, C69)
`Model_Cea` composes ChemEq, the two linear systems and PropsCalcs into the CEA property relation `cea_tp` (solved = zero residual); `Prop_Shipped*` evaluates it on
the shipped JANAF data. `Model_Tab` is the tabular relation: `slinear` interpolation on a grid, for every grid and table.

### Engines and multi-point models (C41, C55, C66-C68)
`Model_Cycle` is an engine: a list of elements, flow links and shafts. `Model_Examples`/`Data_Examples` (generated by `tools/gen_examples.py` from the `ast` of
`/repo/example_cycles`) hold the shipped engines as data - elements, options, connections, balances - and `Model_Multi`/`Data_Multi` the multi-point models.

### Setup as a whole (C70)
`Prop_CycleSetup*` composes Cycle.setup (Model_Graph) with the port functions of every element and CEA ThermoAdd: the announced compositions of a whole engine, and
that setup returns on every fully fed acyclic network.

### Printed tables (C71)
`Model_Viewers`: `prob[key]` as a lookup among promoted names, absolute names and cycle parameters; every table is a list of labelled keys.

### Call histories (C28, C47)
`Model_Hist` is a component instance with its Python attributes, driven by an arbitrary list of evaluate/linearise calls.

## 2. Trusted base
* Coq 8.16.1 kernel (and `coqchk`), including `vm_compute`.
* Axioms: only those of the standard library's reals and classical logic. `ASSUMPTIONS.txt` lists the output of `Print Assumptions` for every
  theorem (tools/assumptions.py): subsets of `ClassicalDedekindReals.sig_forall_dec`, `ClassicalDedekindReals.sig_not_dec`,
  `FunctionalExtensionality.functional_extensionality_dep`, `Classical_Prop.classic`. Discrete theorems are closed under the global context. `coqchk`
  also reports ssreflect's `Under_rel` constants, which come with Coquelicot. No axiom is declared in this development.
* Fidelity of the transcription: no extraction, the Python is not run. `tools/gen_*.py` copy literal data.
* The semantics given to external code: OpenMDAO promotion, connection and unit conversion (`Spec_Wire.v`, unit factors in `Spec_Wire.units`); BalanceComp
  (lhs = rhs, without its optional normalisation); LinearSystemComp ("the result solves the system"); scipy's `Akima1DInterpolator` (Model_Atm) and OpenMDAO's
  `slinear` structured interpolation (Model_Maps), from their definitions; networkx insertion order of nodes and edges.
* Real numbers stand for IEEE doubles: rounding, NaN and overflow are outside of the model, except where the code branches on them.

## 3. Not modelled
Newton/linesearch/DirectSolver iterations and whether they converge (a converged state is any state that satisfies every equation); `om.Problem` and recorders;
the formatting and drawing done by `viewers.py` (which variable every printed column or plotted point reads is modelled); of `example_cycles/`, everything but the elements, options, connections and balances of the engine classes (initial guesses,
solver settings, run scripts); the numbers in the pickled property table (theorems hold for any grid and values); OpenMDAO's own error checking, except where a
claim mentions it.

## 4. Code covered

| /repo/pycycle | model |
|---|---|
| `mp_cycle.py` | Model_Graph, Model_Connect, Model_MP, Model_Cycle |
| `element_base.py`, port setup of every element | Model_Graph, Model_Ports |
| `constants.py` | Model_Misc (DeprecatedDict), constants in Model_Turbo, Model_Equil, Model_Flow |
| `passthrough.py`, `thermo/unit_comps.py`, `flow_in.py` | Model_Misc, Model_Connect, Model_Elem1 |
| `thermo/thermo.py` | Model_Thermo, Model_Cea (the CEA base_thermo group) |
| `thermo/cea/species_data.py`, `thermo_data/*` | Model_Species, Data_Thermo |
| `thermo/cea/thermo_add.py`, `thermo/tabular/thermo_add.py` | Model_ThermoAdd |
| `thermo/cea/chem_eq.py`, `props_rhs.py`, `props_calcs.py` | Model_Equil, Model_Cea, Model_Hist |
| `thermo/tabular/tabular_thermo.py` | Model_Tab |
| `thermo/static_ps_calc.py`, `static_ps_resid.py` | Model_Static |
| `elements/compressor.py`, `turbine.py`, `compressor_map.py`, `turbine_map.py` | Model_Turbo (components), Model_Elem2 (groups) |
| `elements/splitter.py`, `bleed_out.py`, `mixer.py` | Model_Split, Model_Elem1, Model_Elem2 |
| `elements/inlet.py`, `duct.py`, `combustor.py`, `flow_start.py`, `cfd_start.py`, `flight_conditions.py`, `ambient.py` | Model_Flow, Model_Elem1 |
| `elements/nozzle.py` | Model_Nozzle, Model_Elem2 |
| `elements/cooling.py` | Model_Cooling, Model_Ports |
| `elements/shaft.py`, `gearbox.py`, `performance.py` | Model_Shaft, Model_Cycle |
| `elements/US1976.py` | Data_Atm, Model_Atm |
| `maps/*.py` | Data_Maps, Model_Maps |
| `example_cycles/N+3ref/N3_*_map.py` | Data_MapsN3 |
| `viewers.py` | Model_Viewers |
| `example_cycles/tab_thermo_data_generator.py` | Model_TabGen |
| `example_cycles/N+3ref/small_core_eff_balance.py`, `hpc_CS` and `opr_calc` of `N3ref.py` | Model_CoreEff |
| `example_cycles/*.py`, `example_cycles/N+3ref` | Model_Examples, Data_Examples, Model_Multi, Data_Multi |

## 5. Per property: model, proof, status

Theorem names are in MANIFEST.json. `partial` means that some theorem of the property ends in `_partial` or `_refuted`.

| id | property | model | proof | status |
|---|---|---|---|---|
| C01 | Cycle setup always terminates | Model_Graph: Cycle.setup loop as a function on (queue, visited, port data, trace); networkx graph as ordered node and edge lists | termination measure over arbitrary finite graphs, cyclic ones included | proved |
| C02 | Elements are configured in flow order, once | same | invariants over the run: visited set predecessor closed, trace duplicate free, ports filled | proved |
| C03 | Every connected element of an acyclic cycle is configured | same | on acyclic graphs the final visited set is the node set; data equality by invariant | proved |
| C04 | A closed flow loop is reported | same | exact characterisation of the configured set; refutation by a two element loop | partial |
| C05 | Unset output ports are reported | same | case analysis inside the run invariant | proved |
| C06 | pyc_connect_flow connects every flow variable | Model_Connect: connections issued, inputs declared by FlowIn | list reasoning for all names and flags; refutation by three never-connected inputs | partial |
| C07 | pyc_connect_flow attributes a port to its element | Model_Connect: split/join on strings | string induction; refutation for nested names | partial |
| C08 | Cycle-level options reach every child | Model_Connect: option maps | induction over children | proved |
| C09 | At most one design point | Model_MP: MPCycle as a state machine over API calls | invariants over arbitrary call sequences | partial |
| C10 | Design-to-off-design connections reach every off-design point | Model_MP | same | proved |
| C11 | Cycle parameters are promoted to every point | Model_MP | same | proved |
| C12 | Default design/off-design connections honour skip | Model_MP | same | partial |
| C13 | Initial composition is mass-normalised | Model_Species: Properties.__init__ on ordered dictionaries | list induction, sums over R | proved |
| C14 | Product species are exactly those formable | Model_Species | list induction | proved |
| C15 | Species property functions are thermodynamically consistent | Model_Species: NASA polynomials | derivatives in R for every product and temperature | proved |
| C16 | The coefficient cache is transparent | Model_Species: coefficient cache as a state machine over query histories | history induction; refutation at fit junctions | partial |
| C17 | CEA mixing conserves mass and elements | Model_ThermoAdd: cea ThermoAdd setup/compute | sums over any number of streams and elements | proved |
| C18 | Mixing conserves energy | Model_ThermoAdd (both methods) | same | proved |
| C19 | Port data of a mixed stream covers all its elements | Model_ThermoAdd: output_port_data as dict updates | list induction; three refuted corners | partial |
| C20 | Fuel mass flow is the same for both thermo methods | Model_ThermoAdd: both methods | algebra; exact condition for agreement | partial |
| C21 | A converged chemical equilibrium is an equilibrium | Model_Equil: ChemEq residuals, any number of species and elements | algebra and convexity (Gibbs minimum, uniqueness) | proved |
| C22 | Equilibrium Jacobian is exact | Model_Equil: ChemEq.linearize | derivatives of finite sums; refutations for the damped and the trace entries | partial |
| C23 | Equilibrium property right-hand sides have exact derivatives | Model_Equil: PropsRHS | same | proved |
| C24 | Mixture property derivatives are exact and satisfy ideal-gas relations | Model_Equil: PropsCalcs | first law along differentiable paths of converged states | partial |
| C25 | Static-pressure calculation is physically consistent | Model_Static: PsCalc | algebra, derivatives | proved |
| C26 | Zero static residual means the flow state is consistent | Model_Static: PsResid | equivalences; refutations at the replaced equations | partial |
| C27 | Static residual derivatives are exact | Model_Static: PsResid.linearize | derivatives; exact domains | partial |
| C28 | Initial guesses are refreshed only when needed | Model_Static: guess state machine | induction over solve histories | partial |
| C29 | Compressor and turbine power balance energy | Model_Turbo | algebra for any number of bleeds | proved |
| C30 | Turbomachinery partial derivatives are exact | Model_Turbo | jac_exact for any number of bleeds (loop invariants, Lib_Loop) | proved |
| C31 | Map scalars reproduce the design point | Model_Turbo: map scalars | algebra | proved |
| C32 | Flow splitting conserves mass | Model_Split | algebra, jac_exact | proved |
| C33 | Mixer conserves impulse and area | Model_Split | algebra, jac_exact | proved |
| C34 | Gearbox and shaft conserve power | Model_Shaft.v: gearbox residuals and solve, shaft | algebra on converged residuals; induction over ports | proved |
| C35 | Performance outputs and derivatives are exact | Model_Shaft: Performance | same; refuted for TSFC | partial |
| C36 | Inlet ram recovery schedule | Model_Flow: MilSpec recovery | analysis by Mach range; refutations at Mach 5 | partial |
| C37 | Nozzle equations and derivatives | Model_Nozzle | algebra, jac_exact; refutation | partial |
| C38 | Turbine cooling model | Model_Cooling | algebra, jac_exact; refutations | partial |
| C39 | Duct pressure loss | Model_Flow: Duct components | algebra, jac_exact | proved |
| C40 | Standard atmosphere is physically monotone | Data_Atm (generated), Model_Atm: Akima interpolation of the table | per-interval cubic bounds, lifted by transitivity | partial |
| C41 | Mass and energy are conserved in a whole engine, and every station is consistent | Model_Cycle: networks of the element groups of Model_Elem1/2, flow connections, shafts | balance over an arbitrary finite port graph | proved |
| C42 | Thermo mode configuration | Model_Thermo: Thermo group for every mode, both methods, as wired subsystems | opening and closing of groups (Proofs_Wire), string lemmas for promotion | partial |
| C43 | Flow-port data copying | Model_Ports: port dictionaries of every element | rewriting on association lists | partial |
| C44 | Deprecated names keep their value | Model_Misc: DeprecatedDict | induction over operation sequences | partial |
| C45 | Unit conversion and passthrough components are identities | Model_Misc: unit_comps, passthrough | induction over variable lists | proved |
| C46 | Shipped thermochemical and map data are well formed | Data_Thermo, Data_Maps (generated from the shipped files by tools/) | forallb by vm_compute, lifted by forallb_forall | partial |
| C47 | What the order of earlier calls can change | Model_Hist: an instance = attributes + evaluate + linearise (None = AttributeError), `play` over an arbitrary list of calls, the framework's Jacobian kept alongside | induction over the call list; entries are either always overwritten or never written, so the stored Jacobian depends on the last evaluated and the current point only; refutations by concrete histories | partial |
| C48 | Element stations are consistent with each other | Model_Elem1, Model_Elem2: all elements as groups of subsystems with promotions, connections and units | opening of the groups, station lemmas (Proofs_Elem*) | proved |
| C49 | Tabular mixing conserves air and every constituent | Model_ThermoAdd: tabular | sums over any number of streams and constituents | partial |
| C50 | Chemical elements are never lost along the flow path | Model_Ports over Model_Graph | induction over the run | proved |
| C51 | Standard-atmosphere derivatives are exact | Model_Atm | derivatives of the interpolant on every interval | proved |
| C52 | Map lookups reproduce the table and stay physical | Model_Maps: slinear lookup of any table | induction over grids; shipped tables by computation | proved |
| C53 | The operating point of a compressor or turbine lies on its scaled map | Model_Elem2: compressor_map, turbine_map | opening of the map groups; any lookup relation | proved |
| C54 | An off-design element fed with the design results reproduces the design point | Model_Elem1/2 in both modes | frame and static swap lemmas (Proofs_OD): the same state solves the off-design group | proved |
| C55 | No thermo station silently misreads a composition vector | Model_Stations (composition option and source of every station), Model_Elem1/2 (wiring), Model_Ports (announced data) | wiring facts of C48 for the vectors; for the labels, equal length plus inclusion of key sets gives equality | proved |
| C56 | Conversion constants agree with the unit system | constants, ufac | numeric bounds (Machin formula for pi) on top of C48 | proved |
| C57 | Stall margins are those of the scaled machine | same | refutation by a converged map | partial |
| C58 | Default design-to-off-design connections are enough | same, with default_des_od_conns | refutation for the duct | partial |
| C59 | An inlet conserves total enthalpy | Model_Elem1: inlet | C48 and a pressure dependent gas | partial |
| C60 | A stream cannot be used twice | Model_Cycle | a converged cycle with a stream used twice | partial |
| C61 | With CEA, temperature, pressure and composition determine every property, and the gas is ideal | Model_Cea: SetTotalTP, ThermoCalcs as groups of the Model_Equil components, in OpenMDAO units | unique equilibrium (C21) + uniqueness of the linear-system solutions up to the kernel, then every property | proved |
| C62 | The temperature found from enthalpy or entropy is the only one | same, with Thermo (Model_Thermo) | variational argument for monotonicity; station uniqueness by trichotomy | proved |
| C63 | CEA stations are thermodynamically stable | same | weighted Cauchy-Schwarz on the linear systems' solutions | proved |
| C64 | More pressure never means more molecules | same | Gibbs minimum at both pressures | proved |
| C65 | The shipped thermochemical data are physical over their whole range | Data_Thermo (generated from the data files), Model_Species | reflection: integer polynomial positivity; gap argument across 1000 K | proved |
| C66 | Every chemical element that enters an engine leaves it | Model_Cycle (networks of elements), Model_ThermoAdd, Model_Ports (announced port data) | element balances (C48_*_elements, C48_*_constituents) summed over the network (net_balance); normalisation by induction along the links | proved |
| C67 | The shipped example engines obey mass, momentum, shaft power, energy and their targets | Model_Examples.v (what setup() of an example cycle builds and what converged means), Data_Examples.v (23 examples) | C41 instantiated by computation on the example data: each network, shaft and balance is checked by a reflected checker, then C41/C48/C34/C35 give the laws | proved |
| C68 | Off design at the design condition, a shipped engine finds its design point again | Model_Multi.v, Data_Multi.v: the MPCycle classes, what the design point hands over (default and explicit connections, cycle parameters), both points converged | Proofs_Multi.v: the design state carried over element by element with C54, connection tables followed back to their sources, checked for all engines by computation; Prop_Multi.v, Prop_MultiEx.v (a converged propulsor) | partial |
| C69 | Tabular gas properties: a continuous function of T, P and composition that reproduces the table and inverts uniquely | tabular_thermo.py SetTotalTP as n-dimensional multilinear interpolation (Model_Tab), plugged into the thermo groups of C42 and the engines of C67 | induction over the axes: chord form in a cell, convexity, linearity in the entries, strict monotonicity and unboundedness along T, pasting for continuity, intermediate value theorem | partial |
| C70 | Cycle.setup gives every port of a network its gas, and every chemical element is conserved through the shipped CEA engines, humid air included | Cycle.setup (Model_Graph.setup with Model_Ports.setup_ports), the shipped engines (Data_Examples), FlowStart/FlightConditions groups with an adder | rank induction along the flow (every reached element was handed good data), comparison with a total behaviour for the return, then C66 for the balance | proved |
| C71 | The printed tables show the converged engine | Name lookup below an element and at the top of the model; each viewer as a row of labelled keys (Model_Viewers.v). | Each key is traced to the subsystem that owns the variable (promoted output, absolute name in a component or map, or cycle parameter), and the column's meaning follows from the element facts of C48, C53 and C57; refutations compute the name table. | partial |
| C72 | The core-size efficiency balance of the N+3 engine | The tables as rationals, the 'large' polynomial with its cut, the residual and its partials (Model_CoreEff.v); core size and OPR_simple as in N3ref.py. | Derivatives by cases on the branch, away from the cut; monotonicity by the mean value theorem for the polynomial and piecewise by a rational check of the slope of every Akima cubic; levels by comparing cubics of equal pieces; the composite by C48's element facts. | partial |
| C73 | Generating the table of the TABULAR method from CEA | The two groups of the script wired from the thermo and mixing components, the grids, and the table as a record of what each converged model writes (Model_TabGen.v). | Same species: filter over the two species tables, computed; entries: station facts of both groups, the mixture by C17 and its uniqueness; stations: the interpolation of the TABULAR method at nodes is the entry (C69_nodes); combustors by C48 and the tabular mixing of C20. | proved |
| C74 | The standard atmosphere obeys the gas law, hydrostatic balance and the standard's temperature profile | The interpolants of Model_Atm; pressure of a perfect gas and weight density are defined in Prop_Atm2.v. | Each inequality is a polynomial of degree 3, 5 or 6 on every piece: its Bernstein coefficients are computed in exact rational arithmetic from the table and are non-negative, hence so is the polynomial; the piece that holds an altitude is found by induction on the table; slopes by C51's derivative of the interpolant. | partial |
| C75 | The N+3 example's maps are well formed, and every map's flow has the shape the balances rely on | The tables are generated from the example's map files by the generator of Data_Maps; lookups are Model_Maps's trilinear interpolation. | Order preservation of linear interpolation, in a strict and a weak form, is proved once by induction on grids; it lifts adjacent comparisons of the tables, which are computed, to every two real points. | partial |
| C76 | The second law: no duct, compressor, turbine or nozzle of a converged CEA model destroys entropy | For two equilibria, the Gibbs free energy of each is the least over compositions of its elements (C08): comparing each with the other state's composition at its own T and P gives the two-state inequality, by Gibbs-Duhem on the fits (C65). | The elements' equations, in the forms proved in C48, then place the states; monotonicity follows from the two inequalities taken both ways round. | proved |

## 6. Restrictions and refutations, per property

* **C01** termination for arbitrary graphs, including cyclic ones
* **C04** the claim is false of the code: C04_loop_reported_refuted exhibits a normal return with unconfigured elements; the exact set of configured elements is characterised by C04_configured_iff_upstream_acyclic
* **C06** false for FlowIn inputs stat:R, stat:Wc and FAR, which are never connected; proved for all others and for all flag combinations
* **C07** false for nested paths ('a.b.P' is attributed to element 'ab'); proved for one-level paths
* **C09** uniqueness of the design point and error behaviour proved; 'all points are kept' is false for a point whose design option is neither True nor False: it is silently not recorded (C09_points_kept_refuted)
* **C12** proved for list-valued skip; a string-valued skip is tested by substring (C12_skip_string_refuted)
* **C15** stated on the values returned by the object after any history of calls
* **C16** false exactly at the junction temperatures of two fits: there the answer depends on the history (C16_breakpoint_refuted, with the shipped N/N2 data at T=1000 after a query at 1500); proved for every other temperature and every history (C16_transparent_partial, C16_same_as_fresh_partial); at a junction the answer is one of the two adjacent fits (C16_breakpoint_partial)
* **C17** for any number of reactants or streams and any data set; element masses are stated through mass fractions defined in Spec_Mix.v
* **C19** CEA: announced elements = inflow plus listed reactants/streams and one vector entry per announced element. False in three corners: a reactant listed without a mix name is announced but never mixed (C19_surplus_reactant_refuted); with the default (None) inflow the port data is announced but setup fails (C19_default_inflow_refuted); the tabular method announces nothing (C19_tabular_refuted)
* **C20** false: the tabular method injects W/(1+sum(composition))*ratio; equal to CEA's W*ratio exactly when the inflow carries no fuel/water (C20_same_iff_dry_partial)
* **C21** Any number of species and elements. hP/SP demands are part of C42. Converged means all residuals are exactly 0 at positive P and mole numbers.
* **C22** Exact for every entry except (mole balance, mole number), and for those too exactly where the mole balance holds (the derivative of the damping weight is left out). With trace removal on, dropped species have a wrong diagonal; linearize raises AttributeError exactly when the last evaluation is the first with a norm below 1e-4 (or there was none).
* **C23** LinearSystemComp is not modelled: 'solves' says result_T/result_P solve the assembled systems. The matrix may be singular.
* **C24** The derivatives are exact except the dS/dn entry of trace species, which is stored as 0 (refuted). The thermodynamic theorem holds along any differentiable path of converged states.
* **C25** ht > hs: all relations and exact derivatives; ht < hs: the mirrored velocity (C25_inverted).
* **C26** Proved as an equivalence in both modes away from the two replaced equations; refuted there (MN = 0 accepts any W and area; zero area accepts MN = 5).
* **C27** MN mode exact above 1e-16 and stale below it (refuted); area mode exact where the MN state agrees with the inputs, four entries wrong elsewhere (refuted).
* **C28** Area mode proved for every history; in MN mode only the first guess is ever applied, so the claim is refuted there (C28_mach_mode_first_only says what happens for every history). fsolve is not modelled.
* **C34** finding: the gearbox efficiency acts the wrong way round (C34_gearbox_gains)
* **C35** definitions of thrust, OPR, TSFC, PSFC proved for any number of nozzles/burners, all derivatives but TSFC's exact; the code's TSFC adds 1e-10 to thrust in compute but not in compute_partials, so its entries are the exact derivatives of the formula without that offset (C35_TSFC_entries_partial) and not of the computed output (C35_TSFC_refuted)
* **C36** recovery formula and derivatives proved; the bound and the monotonicity fail across the Mach 5 switch (two refutations)
* **C37** all relations and derivatives proved; the claim 'writes all of its outputs' is false for 'choked' (C37_choked_flag_refuted)
* **C38** cooling flow, derivatives, stator energy balance proved; rotor energy balance holds iff the row is uncooled or does no work (exact characterisation); cooling flow is discontinuous at switch-on; row pressures are reversed
* **C40** The interpolant is scipy's Akima1DInterpolator, modelled from its definition. Pressure is strictly decreasing on both sides of [18000, 19000] ft; refuted across it: the table's pressure at 19000 ft is larger than at 18000 ft.
* **C41** By a balance over an arbitrary finite graph of ports. Energy: the enthalpy must be a function of T, P, composition (one_enthalpy); open inlets of splitters and bleed-outs must be fed a consistent state. C41_nonvacuous exhibits a converged cycle of six elements and a shaft.
* **C42** tp (the property relation of the gas) is arbitrary, so the theorems hold for CEA and tabular engines alike; ok_name asks that the flow name has no dot and is not 'guess'. Refuted: the static station does not carry the composition that the total station carries.
* **C43** Refuted: the cooled turbine's port name is a raw string, so row ports are never defined.
* **C44** Refuted parts: dict.get does not warn; the warning call leaves a global 'ignore' filter behind, so later unrelated DeprecationWarnings are silenced.
* **C46** Refuted part: the weight listed for carbon in janaf.py differs from the one used in the products' molecular weights.
* **C47** Holds for CorrectedInputsCalc and PropsRHS under the protocol OpenMDAO follows (evaluate, then linearise there), refuted without it with the exact condition. For ChemEq: C47_residuals and C47_chem_derivatives give what holds; C47_residuals_refuted (same point, two residuals) and C47_stale_mask_refuted (a converged point without trace species whose Jacobian row belongs to a dropped species) are concrete histories of the reacting gas of C21.
* **C48** The element groups are modelled subsystem by subsystem; a converged state satisfies every subsystem's relation and every connection (Spec_Wire). Converged examples for each element in Prop_StationEx.v.
* **C49** conservation proved in both modes; the initial value of the vector follows the user's dictionary order, not the sorted order (C49_initial_value_refuted)
* **C50** For the tabular method, port data is None for every mixing element (C50_tabular).
* **C51** The density-slope output is exact except at table altitudes; at every one of those the density has no derivative at all (C51_density_slope_kinks).
* **C52** Interpolation is OpenMDAO's slinear, modelled from its definition. Efficiency 0 is attained at a corner of the fan map (C52_zero_efficiency), so efficiencies are non-negative, not positive, inside the whole grid.
* **C53** The table lookup is an arbitrary relation (the shipped tables and slinear lookup are C46, C52).
* **C54** States are compared by name: the state `carry l w` gives each connected target the value of its source. Converged examples taken off design in Prop_OD4.v.
* **C55** Model_Stations records, per thermo station, the port data its composition option is taken from and the port whose vector it is connected to. C55_complete: no station of the wiring model is missing from that table; C55_vectors: in every converged element each station receives the vector of the listed port; C55_reads: in every accepted element it reads it with the right labels; C55_refused: which elements are refused. The refusals include legitimate designs (bypass air as stream 1 and burnt gas as stream 2; designed_stream 2 because of the copy-paste in mixer.py:173). The equality of sizes is what OpenMDAO checks when connecting; it is a dependency and assumed.
* **C56** OpenMDAO's unit factors (Spec_Wire.units) are part of the trusted base.
* **C57** Refuted: the margins are computed with the unscaled map values (PRmap), and the scaling acts on PR-1, so SMW of the machine differs. The exact relation is proved: C57_flow_margin, C57_speed_margin (they agree only for s_PR = 1 or a zero margin).
* **C58** Refuted for the Duct: s_dPqP is not among its default connections, and its declared default 0 means no loss. It is the only such input: for every element, every input that only the off-design version has is a default connection's target, a starting guess, or that coefficient (C58_off_design_inputs).
* **C59** Refuted: the inlet keeps the total temperature (total_TP), not the enthalpy (C59_enthalpy_refuted for a gas whose enthalpy depends on pressure, C59_cea_refuted for a genuine CEA equilibrium of a dissociating gas). Proved for gases whose enthalpy depends on temperature only, and for ram_recovery = 1.
* **C60** Refuted: two inlets fed by the same outlet both receive the whole mass flow, and nothing objects (C41 therefore requires one link per port).
* **C61** LinearSystemComp is modelled as its residual A x = b (its matrix may be singular: the properties are nevertheless unique). Trace-species removal off; C21_trace_off: no difference without trace species.
* **C62** By Gibbs' variational argument between the two states and the mean value theorem; C62_nonvacuous has a dissociating gas at two temperatures and one pressure.
* **C63** By a Cauchy-Schwarz argument in the inner product weighted by the mole numbers.
* **C64** From the minimum of the Gibbs energy at both pressures.
* **C65** Heat capacities by a verified positivity check of the integer polynomials T^2 (Cp0 - 2) (Taylor shift and bisection, Proofs_Poly), run by vm_compute on the data. C61_shipped, C62_shipped, C63_shipped, C62_shipped_across and C62_shipped_within instantiate C61-C63; the last two cross the junction at 1000 K with bounds on the jumps (at most 5e-8, from an enclosure of ln 1000, Proofs_Ln).
* **C66** C66_engine is the CEA statement for streams that enter normalised (with C66_elements and C66_normalised as its two halves); set_up ties the meaning of the composition vectors to the port data announced during set-up (C43) and to the mixing components built from them. C66_constituents is the tabular statement, for cycles whose mixing components were set up for the same constituents. A start's composition is taken as it stands (its Fl_O).
* **C67** elements, flow connections, connections, promotions, shafts, gearboxes, performance and balances of every example are read from the source (tools/gen_examples.py writes Data_Examples.v); the shafts, loads, targets and exits they are checked against are separate tables in the Prop files; a converged propulsor is exhibited
* **C68** The MPCycle classes are read from the source by tools/gen_multi.py (Data_Multi.v). N+3's point RTO (turbine cooling) and the connections between off-design points are not modelled. Refuted part: two off-design ducts get no area from the design point.
* **C69** Model_Tab gives SetTotalTP of the tabular method as multilinear interpolation (one direction after the other, outermost interval extended) on grids and arrays of the option spec; the pickled default table is not part of the repository (air_jetA.pkl is missing), so the table is universally quantified. C69_ideal_gas is the exact error of the equation of state for an ideal-gas table, C69_extrapolation_refuted the negative densities beyond it.
* **C70** C70_setup derives, from a returned Cycle.setup, everything C66 assumes of the port data (set_up, data_ok); C70_adders shows that then every mixing component's own setup succeeds; C70_setup_returns proves that setup returns on every such network (by comparison with a total variant of the elements' behaviour), C70_returns instantiates it on the shipped CEA engines. C70_engine and C70_inert are the element balances of the shipped CEA engines, stated with the inlet air's composition (dry air, or humid air with WAR) and each burner's own fuel. C70_humid_start / C70_humid_flight give the composition of humid air from the wiring of FlowStart / FlightConditions; C70_default_composition ties the initial value of a composition input to its dictionary. air_start assumes that the composition input of the start was left at its default (what the shipped examples do).
* **C71** Model_Viewers.v models prob[key] as a name table (promoted names, absolute names of components, cycle parameters at the top) and each table as a list of labelled keys. Refuted parts: print_mixer with designed_stream 2 indexes the problem with a tuple and raises; plot_compressor_maps reads map.scalars.PR, which exists only in design (with no bleeds, for every map and method, off-design raises); print_flow_station raises on an element without statics. The FAR that print_burner shows equals Fl_I:FAR for the CEA adder; for the tabular one it is fuel per unit of inflow. C71_bleed_out takes as a hypothesis that no variable of the stand-alone bleed is called blds_pwr.<b>:frac_P (C71_bleed_out_key shows it for a list of two). Formatting, headers, files and the drawn curves are not modelled.
* **C72** Model_CoreEff.v. The Akima curves reuse the construction of Model_Atm, so the statements about them are about exact rational knots and real cubics (scipy's nan outside of the table is outside of every theorem's range). Refuted parts: the 'large' curve drops at its cut and has no derivative there although the component returns 0; the 'small' curves overshoot their table's end (beyond 30, and before 30 on technology level 2), so a bigger core can be less efficient; and the design point is balanced on OPR_simple, which exceeds the engine's overall pressure ratio as soon as a duct has a loss (C72_opr, C72_opr_loss). C72_core_nonvacuous builds a converged compressor with its converged balance. Not modelled: ext_ratio, fan_dia; no closed instance of the whole chain of C72_opr is built, the elements' own instances are those of C48. C72_large_meets: the two pieces of the 'large' curve meet up to 3e-8, so the fall at the cut is no larger than that.
* **C73** Model_TabGen.v. linspace and logspace are in real arithmetic; the entries are what `generated` says of converged models, numpy arrays and pickling are not modelled, nor are the contents of the shipped air_jetA.pkl (tab_cea_comparison.py, which would compare them, imports a module that is not in the repository). C73_same_air justifies the script's use of janaf for row 0 and wet_air for the others. C73_same_exit compares the generator's gas (the species of wet_air formable from CEA_AIR_FUEL_COMPOSITION) with a combustor on the same gas; the default CEA engines use janaf for the burnt gas, which also holds CH4 and C2H4, a difference that is not modelled as an error of the table. C73_exists and C73_nonvacuous build a table and a pair of combustors at every grid point for a gas given by a function.
* **C74** Prop_Atm2.v. Partial: the gas law and hydrostatic balance are proved outside of [18000, 20000) ft and refuted at 19000 ft, where the table's pressure (7.4123 psi, C40_pressure_refuted) is 5.3 per cent above the one its own density and temperature give (7.0413 psi); the digits suggest a typing error (7.04123) in the table. Tolerances: gas law 0.03 per cent (0.2 per cent near the corners of the temperature profile and above 100000 ft), balance 0.2 per cent (2 per cent next to the wrong entry and where the table has steps of 5000 ft), temperature 0.004 degR (0.03 above 105000 ft), exact in the isothermal layer. Altitude is the table's own (geopotential) and g is 32.174 ft/s^2.
* **C75** Prop_Maps2.v. Partial: along the R-line flow is non-decreasing on every compressor map but two; LPCMap's falls at speed 1.15 between R-lines 1.0 and 1.2, and N3HPCMap's at speed 0.975 between 2.4 and 2.6 (C75_flow_rline_refuted). C75_rline_not_determined: every compressor map has a choked stretch where two R-lines give the same flow at the same speed, so a balance that solves flow for the R-line is singular there. Lookups inside the grid only; the N+3 elements set map_extrap, and what is extrapolated outside is not covered.
* **C76** Prop_Second.v, Prop_Second2.v; Prop_Second3.v instantiates them for every shipped data set. All temperatures must lie in one range on which the species fits belong together (proper_between; for the shipped data 201-999 K and 1000-6000 K by C65_proper): a process crossing a junction of the fits is not covered, since the fits jump there. The nozzle theorem also asks for Cp0 > 1 on the range and a non-zero inlet enthalpy. Entropy of mixing, and of the bleeds, is not treated; the inlet keeps T by construction (C59). Examples (Prop_SecondEx.v, Prop_SecondEx2.v, Prop_SecondEx3.v): a lossy duct, a compressor, a turbine with a cooling stream and a choked nozzle with a loss, each solved concretely for a gas of one species.
