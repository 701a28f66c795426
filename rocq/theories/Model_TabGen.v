(* Model of example_cycles/tab_thermo_data_generator.py, the script that computes the table of the TABULAR method from the CEA method: the two
   OpenMDAO groups it runs (property calculation of air; air with fuel mixed in) and the table the loops over FAR, P and T fill. *)
From Verif Require Import Spec_Wire Model_Thermo Prop_Station Model_Species Data_Thermo Model_ThermoAdd Model_Elem1 Model_Tab Prop_Thermo Prop_Humid Proofs_Elem.
Open Scope string_scope. Open Scope list_scope. Open Scope R_scope.

(* tab_thermo_data_generator.py:98-103: linspace(0, .05, 20), logspace(0, 7, 110), linspace(100, 3500, 100) (real arithmetic) *)
Definition gen_far (i : nat) : R := INR i * (5 / 100) / 19.
Definition gen_P (j : nat) : R := rpow 10 (7 * INR j / 109).
Definition gen_T (k : nat) : R := 100 + INR k * 3400 / 99.
(* constants.py:23 *)
Definition CEA_AIR_FUEL_COMPOSITION : dict R := [("N", 539157698 / 10 ^ 10); ("O", 144860137 / 10 ^ 10); ("Ar", 323319235 / 10 ^ 12); ("C", 110132233 / 10 ^ 13); ("H", 1 / 10 ^ 8)].
(* the options of the ThermoAdd of lines 65-68 with the arguments of line 145 *)
Definition gen_opts : cea_opts := mkCea (specR wet_air_dec) (Some CEA_AIR_COMPOSITION) (Reactants ["Jet-A(g)"]) ["mix"].

(* lines 30-42 TabThermoGenAir.setup; tp: the property calculation of the method *)
Definition gen_air tp (me : method) : group :=
  mkGroup [tsub tp me "flow" total_TP "flow" [PN "T"; PN "P"] [PG "flow:"]] [] ["T"; "P"].
(* lines 55-88 TabThermoGenAirFuel.setup. Only the names of the input defaults are recorded, their values are part of `generated` below *)
Definition gen_fuel tp (me : method) (a : adder) : group :=
  mkGroup
    [add_sub "mix_fuel" a [PA "Fl_I:stat:W" "W"; PA "mix:ratio" "FAR"; PA "Fl_I:tot:composition" "composition"; PA "Fl_I:tot:h" "h"] [PA "mix:W" "Wfuel"; PN "Wout"];
     tsub tp me "vitiated_flow" total_TP "flow" [PN "T"; PN "P"] [PG "flow:"]]
    [("mix_fuel.composition_out", "vitiated_flow.composition")] ["W"; "FAR"; "T"; "P"].

(* lines 125-182: the table. Row 0 comes from the first problem (species data janaf, line 120), rows 1-19 from the second (wet_air, line 145),
   each entry from a converged model with T, P and FAR at the point's values and every other input left as set up: W is 1 kg/s and the composition
   of the incoming air is its initial value, the one made from CEA_AIR_COMPOSITION. get_val returns SI units for h, S, Cp, Cv, rho, R and gamma has
   none, so an entry is the value of the model's variable in SI. tpa, tpf: the CEA property calculation with the species formable from the elements
   of CEA_AIR_COMPOSITION (janaf) and of CEA_AIR_FUEL_COMPOSITION (wet_air); c: the mixing component built from gen_opts *)
Record generated tpa tpf (c : cea_adder) (sp : tab_spec) : Prop := mkGenerated {
  gd_far : tb_grid sp "FAR" = map gen_far (seq 0 20);
  gd_P : tb_grid sp "P" = map gen_P (seq 0 110);
  gd_T : tb_grid sp "T" = map gen_T (seq 0 100);
  gd_air : forall j k, (j < 110)%nat -> (k < 100)%nat -> exists w, solves (gen_air tpa CEA) w /\ val w "T" = gen_T k /\ val w "P" = gen_P j /\
    at_default (specR janaf_dec) CEA_AIR_COMPOSITION (w "flow.composition") /\ forall x, In x tab_outputs -> tb_val sp x [0%nat; j; k] = val w ("flow:" ++ x)%string;
  gd_fuel : forall i j k, (0 < i < 20)%nat -> (j < 110)%nat -> (k < 100)%nat -> exists w, solves (gen_fuel tpf CEA (ACea c)) w /\
    val w "T" = gen_T k /\ val w "P" = gen_P j /\ val w "FAR" = gen_far i /\ val w "W" = 1 /\
    at_default (specR wet_air_dec) CEA_AIR_COMPOSITION (w "composition") /\ forall x, In x tab_outputs -> tb_val sp x [i; j; k] = val w ("flow:" ++ x)%string }.
