# Formal model of OpenMDAO/pyCycle in Rocq (Coq 8.16.1)

(Generated by `tools/gen_design.py` from `tools/design_head.md`, `tools/notes.json`, `properties.jsonl` and `MANIFEST.json`.)

## 1. What is modelled and how

Source of truth: `/repo/pycycle` at the pinned commit, read as text. Every model definition carries a comment `(* file:lines *)`;
simplifications are stated in the same comment.

| layer | content |
|---|---|
| `Spec_*.v` | small vocabulary, independent of the model: Python dictionaries, environments of named reals, "the Jacobian is exact", streams and mass fractions, groups of subsystems and what a converged group is |
| `Model_*.v` | transcription of the Python functions, no proofs |
| `Data_*.v` | data shipped with the code (species, atmosphere table, maps), generated by `tools/gen_*.py` |
| `Lib_*.v`, `Proofs_*.v` | lemmas, tactics, example states |
| `Prop_*.v` | the theorems `Cxx_...`, the specification they are stated in, and examples that meet their hypotheses |

### Discrete code (C01-C14, C16, C19, C43, C44, C50)
`Cycle`, `MPCycle`, `Element`, `Thermo`, `Properties`, `DeprecatedDict` are state machines over lists, ordered association lists (Python
dictionaries) and strings; exceptions are explicit values. API histories are lists of calls.

### Numeric components (C15, C17-C18, C20-C40, C45, C49, C51)
An OpenMDAO component is the *sequence of assignments* its `compute` (or `apply_nonlinear`) makes on an environment `env := var -> R`, and
`compute_partials`/`linearize` the sequence of assignments on a Jacobian that first holds the values of `declare_partials(val=...)` (0 for pairs
never declared). Vectors are families `I "name" i`, per-port names `B "bleed" "frac_W"`; sizes are universally quantified.

"Derivatives are exact" (`Spec_Comp.jac_exact`) uses the standard library's `derivable_pt_lim`: for **every** output and **every** input, declared
or not, `t |-> compute (e[i:=t]) o` has derivative `partials e o i` at `e i`. `jac_declared` says that only declared entries are written,
`writes_all` that every output is written.

### Groups, elements, cycles (C41, C42, C48, C53, C54, C56-C60)
`Spec_Wire.v` is the assumed OpenMDAO semantics: a group is a list of subsystems with input and output metadata (name, unit, default), promotions
(`'x'`, `('x','alias')`, `'pre*'`, `'*suf'`, `'*part*'`), explicit connections and a converged state `solves g w` - every subsystem's relation holds on
its inputs and outputs converted to its own units, and every connection is an equality. Each pyCycle `Thermo` mode, element and map group is
transcribed subsystem by subsystem in the order of `add_subsystem`. The gas is an arbitrary relation `tp T P composition properties`, so the theorems hold
for CEA, tabular and any other property model; `Model_Equil` shows what the CEA relation is.

### Gas properties (C21-C24, C61-C66, C69)
`Model_Cea` composes ChemEq, the two linear systems and PropsCalcs into the CEA property relation `cea_tp` (solved = zero residual); `Prop_Shipped*` evaluates it on
the shipped JANAF data. `Model_Tab` is the tabular relation: `slinear` interpolation on a grid, for every grid and table.

### Engines and multi-point models (C41, C55, C66-C68)
`Model_Cycle` is an engine: a list of elements, flow links and shafts. `Model_Examples`/`Data_Examples` (generated by `tools/gen_examples.py` from the `ast` of
`/repo/example_cycles`) hold the shipped engines as data - elements, options, connections, balances - and `Model_Multi`/`Data_Multi` the multi-point models.

### Setup as a whole (C70)
`Prop_CycleSetup*` composes Cycle.setup (Model_Graph) with the port functions of every element and CEA ThermoAdd: the announced compositions of a whole engine, and
that setup returns on every fully fed acyclic network.

### Printed tables (C71)
`Model_Viewers`: `prob[key]` as a lookup among promoted names, absolute names and cycle parameters; every table is a list of labelled keys.

### Call histories (C28, C47)
`Model_Hist` is a component instance with its Python attributes, driven by an arbitrary list of evaluate/linearise calls.

## 2. Trusted base
* Coq 8.16.1 kernel (and `coqchk`), including `vm_compute`.
* Axioms: only those of the standard library's reals and classical logic. `ASSUMPTIONS.txt` lists the output of `Print Assumptions` for every
  theorem (tools/assumptions.py): subsets of `ClassicalDedekindReals.sig_forall_dec`, `ClassicalDedekindReals.sig_not_dec`,
  `FunctionalExtensionality.functional_extensionality_dep`, `Classical_Prop.classic`. Discrete theorems are closed under the global context. `coqchk`
  also reports ssreflect's `Under_rel` constants, which come with Coquelicot. No axiom is declared in this development.
* Fidelity of the transcription: no extraction, the Python is not run. `tools/gen_*.py` copy literal data.
* The semantics given to external code: OpenMDAO promotion, connection and unit conversion (`Spec_Wire.v`, unit factors in `Spec_Wire.units`); BalanceComp
  (lhs = rhs, without its optional normalisation); LinearSystemComp ("the result solves the system"); scipy's `Akima1DInterpolator` (Model_Atm) and OpenMDAO's
  `slinear` structured interpolation (Model_Maps), from their definitions; networkx insertion order of nodes and edges.
* Real numbers stand for IEEE doubles: rounding, NaN and overflow are outside of the model, except where the code branches on them.

## 3. Not modelled
Newton/linesearch/DirectSolver iterations and whether they converge (a converged state is any state that satisfies every equation); `om.Problem` and recorders;
the formatting and drawing done by `viewers.py` (which variable every printed column or plotted point reads is modelled); of `example_cycles/`, everything but the elements, options, connections and balances of the engine classes (initial guesses,
solver settings, run scripts); the numbers in the pickled property table (theorems hold for any grid and values); OpenMDAO's own error checking, except where a
claim mentions it.

## 4. Code covered

| /repo/pycycle | model |
|---|---|
| `mp_cycle.py` | Model_Graph, Model_Connect, Model_MP, Model_Cycle |
| `element_base.py`, port setup of every element | Model_Graph, Model_Ports |
| `constants.py` | Model_Misc (DeprecatedDict), constants in Model_Turbo, Model_Equil, Model_Flow |
| `passthrough.py`, `thermo/unit_comps.py`, `flow_in.py` | Model_Misc, Model_Connect, Model_Elem1 |
| `thermo/thermo.py` | Model_Thermo, Model_Cea (the CEA base_thermo group) |
| `thermo/cea/species_data.py`, `thermo_data/*` | Model_Species, Data_Thermo |
| `thermo/cea/thermo_add.py`, `thermo/tabular/thermo_add.py` | Model_ThermoAdd |
| `thermo/cea/chem_eq.py`, `props_rhs.py`, `props_calcs.py` | Model_Equil, Model_Cea, Model_Hist |
| `thermo/tabular/tabular_thermo.py` | Model_Tab |
| `thermo/static_ps_calc.py`, `static_ps_resid.py` | Model_Static |
| `elements/compressor.py`, `turbine.py`, `compressor_map.py`, `turbine_map.py` | Model_Turbo (components), Model_Elem2 (groups) |
| `elements/splitter.py`, `bleed_out.py`, `mixer.py` | Model_Split, Model_Elem1, Model_Elem2 |
| `elements/inlet.py`, `duct.py`, `combustor.py`, `flow_start.py`, `cfd_start.py`, `flight_conditions.py`, `ambient.py` | Model_Flow, Model_Elem1 |
| `elements/nozzle.py` | Model_Nozzle, Model_Elem2 |
| `elements/cooling.py` | Model_Cooling, Model_Ports |
| `elements/shaft.py`, `gearbox.py`, `performance.py` | Model_Shaft, Model_Cycle |
| `elements/US1976.py` | Data_Atm, Model_Atm |
| `maps/*.py` | Data_Maps, Model_Maps |
| `example_cycles/N+3ref/N3_*_map.py` | Data_MapsN3 |
| `viewers.py` | Model_Viewers |
| `example_cycles/tab_thermo_data_generator.py` | Model_TabGen |
| `example_cycles/N+3ref/small_core_eff_balance.py`, `hpc_CS` and `opr_calc` of `N3ref.py` | Model_CoreEff |
| `example_cycles/*.py`, `example_cycles/N+3ref` | Model_Examples, Data_Examples, Model_Multi, Data_Multi |
