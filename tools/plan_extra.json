{
 "C61": [
  "Model_Cea: SetTotalTP, ThermoCalcs as groups of the Model_Equil components, in OpenMDAO units",
  "unique equilibrium (C21) + uniqueness of the linear-system solutions up to the kernel, then every property"
 ],
 "C62": [
  "same, with Thermo (Model_Thermo)",
  "variational argument for monotonicity; station uniqueness by trichotomy"
 ],
 "C63": [
  "same",
  "weighted Cauchy-Schwarz on the linear systems' solutions"
 ],
 "C64": [
  "same",
  "Gibbs minimum at both pressures"
 ],
 "C65": [
  "Data_Thermo (generated from the data files), Model_Species",
  "reflection: integer polynomial positivity; gap argument across 1000 K"
 ],
 "C66": [
  "Model_Cycle (networks of elements), Model_ThermoAdd, Model_Ports (announced port data)",
  "element balances (C48_*_elements, C48_*_constituents) summed over the network (net_balance); normalisation by induction along the links"
 ],
 "C55": [
  "Model_Stations (composition option and source of every station), Model_Elem1/2 (wiring), Model_Ports (announced data)",
  "wiring facts of C48 for the vectors; for the labels, equal length plus inclusion of key sets gives equality"
 ],
 "C34": [
  "Model_Shaft.v: gearbox residuals and solve, shaft",
  "algebra on converged residuals; induction over ports"
 ],
 "C67": [
  "Model_Examples.v (what setup() of an example cycle builds and what converged means), Data_Examples.v (23 examples)",
  "C41 instantiated by computation on the example data: each network, shaft and balance is checked by a reflected checker, then C41/C48/C34/C35 give the laws"
 ],
 "C68": [
  "Model_Multi.v, Data_Multi.v: the MPCycle classes, what the design point hands over (default and explicit connections, cycle parameters), both points converged",
  "Proofs_Multi.v: the design state carried over element by element with C54, connection tables followed back to their sources, checked for all engines by computation; Prop_Multi.v, Prop_MultiEx.v (a converged propulsor)"
 ],
 "C69": [
  "tabular_thermo.py SetTotalTP as n-dimensional multilinear interpolation (Model_Tab), plugged into the thermo groups of C42 and the engines of C67",
  "induction over the axes: chord form in a cell, convexity, linearity in the entries, strict monotonicity and unboundedness along T, pasting for continuity, intermediate value theorem"
 ],
 "C47": [
  "Model_Hist: an instance = attributes + evaluate + linearise (None = AttributeError), `play` over an arbitrary list of calls, the framework's Jacobian kept alongside",
  "induction over the call list; entries are either always overwritten or never written, so the stored Jacobian depends on the last evaluated and the current point only; refutations by concrete histories"
 ],
 "C70": [
  "Cycle.setup (Model_Graph.setup with Model_Ports.setup_ports), the shipped engines (Data_Examples), FlowStart/FlightConditions groups with an adder",
  "rank induction along the flow (every reached element was handed good data), comparison with a total behaviour for the return, then C66 for the balance"
 ],
 "C71": [
  "Name lookup below an element and at the top of the model; each viewer as a row of labelled keys (Model_Viewers.v).",
  "Each key is traced to the subsystem that owns the variable (promoted output, absolute name in a component or map, or cycle parameter), and the column's meaning follows from the element facts of C48, C53 and C57; refutations compute the name table."
 ],
 "C72": [
  "The tables as rationals, the 'large' polynomial with its cut, the residual and its partials (Model_CoreEff.v); core size and OPR_simple as in N3ref.py.",
  "Derivatives by cases on the branch, away from the cut; monotonicity by the mean value theorem for the polynomial and piecewise by a rational check of the slope of every Akima cubic; levels by comparing cubics of equal pieces; the composite by C48's element facts."
 ],
 "C73": [
  "The two groups of the script wired from the thermo and mixing components, the grids, and the table as a record of what each converged model writes (Model_TabGen.v).",
  "Same species: filter over the two species tables, computed; entries: station facts of both groups, the mixture by C17 and its uniqueness; stations: the interpolation of the TABULAR method at nodes is the entry (C69_nodes); combustors by C48 and the tabular mixing of C20."
 ],
 "C74": [
  "The interpolants of Model_Atm; pressure of a perfect gas and weight density are defined in Prop_Atm2.v.",
  "Each inequality is a polynomial of degree 3, 5 or 6 on every piece: its Bernstein coefficients are computed in exact rational arithmetic from the table and are non-negative, hence so is the polynomial; the piece that holds an altitude is found by induction on the table; slopes by C51's derivative of the interpolant."
 ],
 "C75": [
  "The tables are generated from the example's map files by the generator of Data_Maps; lookups are Model_Maps's trilinear interpolation.",
  "Order preservation of linear interpolation, in a strict and a weak form, is proved once by induction on grids; it lifts adjacent comparisons of the tables, which are computed, to every two real points."
 ],
 "C76": [
  "For two equilibria, the Gibbs free energy of each is the least over compositions of its elements (C08): comparing each with the other state's composition at its own T and P gives the two-state inequality, by Gibbs-Duhem on the fits (C65).",
  "The elements' equations, in the forms proved in C48, then place the states; monotonicity follows from the two inequalities taken both ways round."
 ]
}