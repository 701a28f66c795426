import json
props=[json.loads(l) for l in open('/verif/properties.jsonl')]
notes=json.load(open('/verif/tools/notes.json'))
man={c['property']:c for c in json.load(open('/verif/MANIFEST.json'))['claims']}
plan={
'C01':("Model_Graph: Cycle.setup loop as a function on (queue, visited, port data, trace); networkx graph as ordered node and edge lists","termination measure over arbitrary finite graphs, cyclic ones included"),
'C02':("same","invariants over the run: visited set predecessor closed, trace duplicate free, ports filled"),
'C03':("same","on acyclic graphs the final visited set is the node set; data equality by invariant"),
'C04':("same","exact characterisation of the configured set; refutation by a two element loop"),
'C05':("same","case analysis inside the run invariant"),
'C06':("Model_Connect: connections issued, inputs declared by FlowIn","list reasoning for all names and flags; refutation by three never-connected inputs"),
'C07':("Model_Connect: split/join on strings","string induction; refutation for nested names"),
'C08':("Model_Connect: option maps","induction over children"),
'C09':("Model_MP: MPCycle as a state machine over API calls","invariants over arbitrary call sequences"),
'C10':("Model_MP","same"),'C11':("Model_MP","same"),'C12':("Model_MP","same"),
'C13':("Model_Species: Properties.__init__ on ordered dictionaries","list induction, sums over R"),
'C14':("Model_Species","list induction"),
'C15':("Model_Species: NASA polynomials","derivatives in R for every product and temperature"),
'C16':("Model_Species: coefficient cache as a state machine over query histories","history induction; refutation at fit junctions"),
'C17':("Model_ThermoAdd: cea ThermoAdd setup/compute","sums over any number of streams and elements"),
'C18':("Model_ThermoAdd (both methods)","same"),'C19':("Model_ThermoAdd: output_port_data as dict updates","list induction; three refuted corners"),
'C20':("Model_ThermoAdd: both methods","algebra; exact condition for agreement"),
'C49':("Model_ThermoAdd: tabular","sums over any number of streams and constituents"),
'C21':("Model_Equil: ChemEq residuals, any number of species and elements","algebra and convexity (Gibbs minimum, uniqueness)"),
'C22':("Model_Equil: ChemEq.linearize","derivatives of finite sums; refutations for the damped and the trace entries"),
'C23':("Model_Equil: PropsRHS","same"),'C24':("Model_Equil: PropsCalcs","first law along differentiable paths of converged states"),
'C25':("Model_Static: PsCalc","algebra, derivatives"),'C26':("Model_Static: PsResid","equivalences; refutations at the replaced equations"),
'C27':("Model_Static: PsResid.linearize","derivatives; exact domains"),'C28':("Model_Static: guess state machine","induction over solve histories"),
'C29':("Model_Turbo","algebra for any number of bleeds"),'C30':("Model_Turbo","jac_exact for any number of bleeds (loop invariants, Lib_Loop)"),
'C31':("Model_Turbo: map scalars","algebra"),'C32':("Model_Split","algebra, jac_exact"),'C33':("Model_Split","algebra, jac_exact"),
'C34':("Model_Shaft","algebra, jac_exact for any number of torques"),'C35':("Model_Shaft: Performance","same; refuted for TSFC"),
'C36':("Model_Flow: MilSpec recovery","analysis by Mach range; refutations at Mach 5"),
'C37':("Model_Nozzle","algebra, jac_exact; refutation"),'C38':("Model_Cooling","algebra, jac_exact; refutations"),
'C39':("Model_Flow: Duct components","algebra, jac_exact"),
'C40':("Data_Atm (generated), Model_Atm: Akima interpolation of the table","per-interval cubic bounds, lifted by transitivity"),
'C51':("Model_Atm","derivatives of the interpolant on every interval"),
'C41':("Model_Cycle: networks of the element groups of Model_Elem1/2, flow connections, shafts","balance over an arbitrary finite port graph"),
'C42':("Model_Thermo: Thermo group for every mode, both methods, as wired subsystems","opening and closing of groups (Proofs_Wire), string lemmas for promotion"),
'C43':("Model_Ports: port dictionaries of every element","rewriting on association lists"),
'C50':("Model_Ports over Model_Graph","induction over the run"),
'C44':("Model_Misc: DeprecatedDict","induction over operation sequences"),'C45':("Model_Misc: unit_comps, passthrough","induction over variable lists"),
'C46':("Data_Thermo, Data_Maps (generated from the shipped files by tools/)","forallb by vm_compute, lifted by forallb_forall"),
'C52':("Model_Maps: slinear lookup of any table","induction over grids; shipped tables by computation"),
'C48':("Model_Elem1, Model_Elem2: all elements as groups of subsystems with promotions, connections and units","opening of the groups, station lemmas (Proofs_Elem*)"),
'C53':("Model_Elem2: compressor_map, turbine_map","opening of the map groups; any lookup relation"),
'C57':("same","refutation by a converged map"),
'C54':("Model_Elem1/2 in both modes","frame and static swap lemmas (Proofs_OD): the same state solves the off-design group"),
'C58':("same, with default_des_od_conns","refutation for the duct"),
'C56':("constants, ufac","numeric bounds (Machin formula for pi) on top of C48"),
'C59':("Model_Elem1: inlet","C48 and a pressure dependent gas"),'C60':("Model_Cycle","a converged cycle with a stream used twice"),
}
plan.update(json.load(open('/verif/tools/plan_extra.json')) if __import__('os').path.exists('/verif/tools/plan_extra.json') else {})
head=open('/verif/tools/design_head.md').read()
rows='\n'.join('| %s | %s | %s | %s | %s |'%(p['id'],p['title'],plan[p['id']][0],plan[p['id']][1],man[p['id']]['status']) for p in sorted(props,key=lambda p:p['id']))
nts='\n'.join('* **%s** %s'%(k,notes[k]) for k in sorted(notes))
open('/verif/DESIGN.md','w').write(head+'\n## 5. Per property: model, proof, status\n\nTheorem names are in MANIFEST.json. `partial` means that some theorem of the property ends in `_partial` or `_refuted`.\n\n| id | property | model | proof | status |\n|---|---|---|---|---|\n'+rows+'\n\n## 6. Restrictions and refutations, per property\n\n'+nts+'\n')
