(* Model of the Cycle classes in /repo/example_cycles: what their setup() builds, as data (Data_Examples.v, read from the source by
   tools/gen_examples.py), and what it means that such a cycle has been converged. The shaft, gearbox and performance elements
   (elements/shaft.py, gearbox.py, performance.py) and OpenMDAO's BalanceComp become part of the cycle here. *)
From Coq Require Export DecimalString.
From Verif Require Export Model_Cycle Data_Thermo.
Open Scope string_scope. Open Scope list_scope. Open Scope R_scope.

(* the element classes with the options the examples pass; an option that is not mentioned has its default (statics = True) *)
Inductive eclass :=
| XFlight (reactant : option (string * string))   (* FlightConditions(); Some (reactant, mix_ratio_name) with composition = CEA_AIR_COMPOSITION *)
| XInlet | XDuct (expMN : dec) | XSplitter | XBleedOut (bs : list string) | XCombustor (fuel : string)
| XCompressor (bs : list string) | XTurbine (bs : list string) | XNozzle (nt : nozz) (lc : loss_coef) | XMixer (one : bool).
(* balance.add_balance(name, units, eq_units, rhs_name, use_mult) *)
Record xbal := mkXBal { xb_name : string; xb_units : string; xb_eq : string; xb_rhs : string; xb_mult : bool }.
Record example := mkExample {
  x_name : string; x_method : method; x_data : string;          (* thermo_method, name of thermo_data *)
  x_design : bool;
  x_els : list (string * eclass);
  x_links : list link;                                          (* pyc_connect_flow *)
  x_conns : list (string * string);                             (* connect(source, target) *)
  x_promos : list (string * (string * string));                 (* (subsystem, (input, name it is promoted to)) *)
  x_shafts : list (string * nat);                               (* name, num_ports *)
  x_gears : list string;
  x_perfs : list (string * (nat * nat));                        (* name, (num_nozzles, num_burners) *)
  x_bals : list xbal;
  x_free : list (string * (string * dec)) }.                    (* right sides and multipliers that nothing drives: (name, (unit, value)) *)

(* the element an entry builds: maps (map_data) are arbitrary, mixing components arbitrary *)
Definition is_class (c : eclass) (k : ekind) : Prop :=
  match c with
  | XFlight None => k = EFlight None
  | XFlight (Some (_, ratio)) => exists a, k = EFlight (Some (a, ratio))                            (* flight_conditions.py:47-74 *)
  | XInlet => k = EInlet true
  | XDuct ex => k = EDuct true (negb (Z.eqb (fst ex) 0)) (dR ex)                                      (* duct.py:180: expMN > 1e-10 *)
  | XSplitter => k = ESplitter true
  | XBleedOut bs => k = EBleedOut bs true
  | XCombustor _ => exists a, k = ECombustor a true
  | XCompressor bs => exists mp rs, k = ECompressor mp rs bs true
  | XTurbine bs => exists mp a, k = ETurbine mp a bs true
  | XNozzle nt lc => k = ENozzle nt lc
  | XMixer one => exists a, k = EMixer a one
  end.
Definition builds (x : example) (els : list (string * ekind)) : Prop :=
  Forall2 (fun nc nk => fst nc = fst nk /\ is_class (snd nc) (snd nk)) (x_els x) els.

(* '{:d}'.format(i) *)
Definition natstr (n : nat) : string := NilEmpty.string_of_uint (Nat.to_uint n).
(* what a component n of the cycle sees: its variables in the units it declares *)
Definition comp_env (unit : string -> string) (w : state) (n : string) : env := fun v =>
  match v with V x => local w n x 0%nat / ufac (unit x) | I x i => local w n (x ++ natstr i)%string 0%nat / ufac (unit x) | _ => 0 end.
(* shaft.py:19-40 *)
Definition sh_unit (x : string) : string :=
  lookup "" [("Nmech", "rpm"); ("HPX", "hp"); ("trq_", "ft*lbf"); ("trq_in", "ft*lbf"); ("trq_out", "ft*lbf"); ("trq_net", "ft*lbf");
    ("pwr_in", "hp"); ("pwr_in_real", "hp"); ("pwr_out", "hp"); ("pwr_out_real", "hp"); ("pwr_net", "hp")] x.
(* performance.py:14-51; TSFC and PSFC are kept in the unit they are declared in *)
Definition perf_unit (x : string) : string :=
  lookup "" [("Pt2", "lbf/inch**2"); ("Pt3", "lbf/inch**2"); ("ram_drag", "lbf"); ("power", "hp"); ("Fg_", "lbf"); ("Wfuel_", "lbm/s"); ("Fg", "lbf"); ("Fn", "lbf"); ("Wfuel", "lbm/s")] x.
(* gearbox.py:11-31 *)
Definition gb_unit (x : string) : string :=
  lookup "" [("N_in", "rpm"); ("N_out", "rpm"); ("trq_base", "ft*lbf"); ("trq_in", "ft*lbf"); ("trq_out", "ft*lbf")] x.
Definition computed (c : comp) (e : env) : Prop := forall o, In o (outs c) -> e o = compute c e (fun _ => 0) o.
Definition balanced (c : comp) (e : env) : Prop := forall o, In o (outs c) -> compute c e (fun _ => 0) o = 0.

(* a converged example: every element and every other component is solved, connections and promotions hold, and every balance is met:
   OpenMDAO's BalanceComp has the residual (mult * lhs - rhs), up to a factor that is not zero; lhs and rhs have the same units, all of
   them multiples of SI units *)
Record cycle_converged tp (x : example) (els : list (string * ekind)) (w : state) : Prop := {
  cv_run : running tp (x_method x) (x_design x) els (x_links x) w;
  cv_conn : forall a b, In (a, b) (x_conns x) -> forall i, w b i = w a i;
  cv_promo : forall n v a, In (n, (v, a)) (x_promos x) -> forall i, local w n v i = w a i;
  cv_shaft : forall n k, In (n, k) (x_shafts x) -> computed (shaft k) (comp_env sh_unit w n);
  cv_gear : forall n, In n (x_gears x) -> balanced (gearbox (x_design x)) (comp_env gb_unit w n);
  cv_perf : forall n i j, In (n, (i, j)) (x_perfs x) -> computed (performance i j) (comp_env perf_unit w n);
  cv_bal : forall b, In b (x_bals x) ->
    (if xb_mult b then w ("balance.mult:" ++ xb_name b)%string 0%nat else 1) * w ("balance.lhs:" ++ xb_name b)%string 0%nat = w ("balance." ++ xb_rhs b)%string 0%nat;
  cv_free : forall v u d, In (v, (u, d)) (x_free x) -> w v 0%nat = dR d * ufac u }.
