(* Model of the setup of pycycle/elements/{duct,inlet,flow_start,ambient,flight_conditions,cfd_start,splitter,bleed_out,combustor}.py: which
   subsystems an element has, how their variables are promoted and connected. Numerical solvers, bounds and initial values are not modelled (a
   solution of an element is any converged state of its group). `promotes=[..]` (inputs and outputs) is split here into the patterns that match
   inputs and those that match outputs. The property calculation tp is arbitrary, as in Model_Thermo. *)
From Verif Require Export Model_Thermo Model_Split Model_Flow Model_Misc Model_Atm Model_ThermoAdd.
Open Scope string_scope. Open Scope list_scope. Open Scope R_scope.

(* ---------- subsystems shared by the elements ---------- *)
(* flow_in.py:14-59 FlowIn: declares the variables of a flow port, computes nothing *)
Definition port_tot : list meta :=
  [("tot:h", ("Btu/lbm", "1.0")); ("tot:T", ("degR", "518.")); ("tot:P", ("lbf/inch**2", "1.")); ("tot:rho", ("lbm/ft**3", "1.0")); ("tot:gamma", ("", "1.4"));
   ("tot:Cp", ("Btu/(lbm*degR)", "1.0")); ("tot:Cv", ("Btu/(lbm*degR)", "1.0")); ("tot:S", ("Btu/(lbm*degR)", "1.0")); ("tot:R", ("Btu/(lbm*degR)", "1.0"));
   ("tot:composition", ("", ""))].
Definition port_stat : list meta :=
  [("stat:h", ("Btu/lbm", "1.0")); ("stat:T", ("degR", "518.")); ("stat:P", ("lbf/inch**2", "1.0")); ("stat:rho", ("lbm/ft**3", "1.0")); ("stat:gamma", ("", "1.4"));
   ("stat:Cp", ("Btu/(lbm*degR)", "1.0")); ("stat:Cv", ("Btu/(lbm*degR)", "1.0")); ("stat:S", ("Btu/(lbm*degR)", "0.0")); ("stat:R", ("Btu/(lbm*degR)", "1.0"));
   ("stat:composition", ("", "")); ("stat:V", ("ft/s", "1.0")); ("stat:Vsonic", ("ft/s", "1.0")); ("stat:MN", ("", "1.0")); ("stat:area", ("inch**2", "1.0"));
   ("stat:Wc", ("lbm/s", "1.0")); ("stat:W", ("lbm/s", "0.0"))].
Definition in_port (fl : string) : list meta := map (fun m => ((fl ++ ":" ++ fst m)%string, snd m)) (port_tot ++ port_stat ++ [("FAR", ("", "0.0"))]).
Definition flow_in (name fl : string) (pi : list promo) : sub := mkSub name (in_port fl) [("foo", ("", "1."))] pi [] (fun _ _ => True).
(* passthrough.py:6-42 with a scalar value and units lbm/s, promotes=['*'] *)
Definition pass_sub (name a b : string) : sub := mkSub name [(a, ("lbm/s", "1.0"))] [(b, ("lbm/s", "1.0"))] [PG ""] [PG ""] (expl_rel (pass_through a b 1)).
(* OpenMDAO's BalanceComp: per balance a state, and the equation lhs = rhs in eq_units *)
Record bal := mkBal { b_var : string; b_units : string; b_eq : string; b_lhs : string; b_rhs : string }.
Definition bal_sub (name : string) (bs : list bal) (pi po : list promo) : sub :=
  mkSub name (flat_map (fun b => [(b_lhs b, (b_eq b, "lhs")); (b_rhs b, (b_eq b, "rhs"))]) bs) (map (fun b => (b_var b, (b_units b, "val"))) bs) pi po
    (fun li _ => forall b, In b bs -> li (b_lhs b) 0%nat = li (b_rhs b) 0%nat).
(* thermo.py:190-248 ThermoAdd: either method's component *)
Inductive adder := ACea (a : cea_adder) | ATab (a : tab_adder).
Definition add_compute (a : adder) : env -> env -> env := match a with ACea a => cea_compute a | ATab a => tab_compute a end.
Definition add_names (a : adder) : list string := match a with ACea a => ad_names a | ATab a => ta_names a end.
Definition add_reacting (a : adder) : bool :=
  match a with ACea a => match ad_reactants a with Some _ => true | None => false end | ATab a => match ta_idx a with Some _ => true | None => false end end.
Definition add_size (a : adder) : nat := match a with ACea a => List.length (ad_mixed a) | ATab a => ta_n a end.
(* cea/thermo_add.py:110-146, tabular/thermo_add.py:57-91 *)
Definition add_ins (a : adder) : list meta :=
  [("Fl_I:stat:W", ("lbm/s", "0.0")); ("Fl_I:tot:h", ("Btu/lbm", "0.0")); ("Fl_I:tot:composition", ("", "composition"))] ++
  flat_map (fun n => if add_reacting a then [((n ++ ":h")%string, ("Btu/lbm", "0.0")); ((n ++ ":ratio")%string, ("", "0.0"))]
                     else [((n ++ ":h")%string, ("Btu/lbm", "0.0")); ((n ++ ":W")%string, ("lbm/s", "0.0")); ((n ++ ":composition")%string, ("", "composition"))]) (add_names a).
Definition add_outs (a : adder) : list meta :=
  [("composition_out", ("", "composition")); ("mass_avg_h", ("Btu/lbm", "")); ("Wout", ("lbm/s", ""))] ++
  (if add_reacting a then map (fun n => ((n ++ ":W")%string, ("lbm/s", "0.0"))) (add_names a) else []).
Definition add_vars (a : adder) : list var :=
  [V "mass_avg_h"; V "Wout"] ++ map (I "composition_out") (seq 0 (add_size a)) ++ (if add_reacting a then map (fun n => B n "W") (add_names a) else []).
Definition add_sub (name : string) (a : adder) (pi po : list promo) : sub :=
  mkSub name (add_ins a) (add_outs a) pi po (fun li lo => forall o, In o (add_vars a) -> vget lo o = add_compute a (vget li) (fun _ => 0) o).
(* duct.py:66-75 *)
Definition p_loss_sub : sub :=
  mkSub "p_loss" [("dPqP", ("", "0.0")); ("Pt_in", ("lbf/inch**2", "5.0"))] [("Pt_out", ("lbf/inch**2", "14.696"))] [PA "Pt_in" "Fl_I:tot:P"; PN "dPqP"] [] (expl_rel pressure_loss).

Section Elements.
Variable tp : R -> R -> (nat -> R) -> (string -> R) -> Prop.
Variable me : method.
Definition tsub (name : string) (m : mode) (fl : string) (pi po : list promo) : sub := group_sub name (thermo tp me m fl) pi po.
Definition stat_mode (design : bool) : mode := if design then static_MN else static_A.
(* the four connections every element makes to the static station of an outlet *)
Definition stat_conns (tot name : string) : list (string * string) :=
  [((tot ++ ":S")%string, (name ++ ".S")%string); ((tot ++ ":h")%string, (name ++ ".ht")%string);
   ((tot ++ ":P")%string, (name ++ ".guess:Pt")%string); ((tot ++ ":gamma")%string, (name ++ ".guess:gamt")%string)].
Definition fl_i : list promo := [PG "Fl_I:tot:"; PG "Fl_I:stat:"].

(* ---------- inlet.py:124-208 ---------- *)
(* inlet.py:66-74 *)
Definition inlet_calcs_sub : sub :=
  mkSub "calcs_inlet" [("Pt_in", ("lbf/inch**2", "5.0")); ("ram_recovery", ("", "1.0")); ("V_in", ("ft/s", "0.0")); ("W_in", ("lbm/s", "100.0"))]
    [("Pt_out", ("lbf/inch**2", "14.696")); ("F_ram", ("lbf", "1.0"))]
    [PN "ram_recovery"; PA "Pt_in" "Fl_I:tot:P"; PA "V_in" "Fl_I:stat:V"; PA "W_in" "Fl_I:stat:W"] [PN "F_ram"] (expl_rel inlet_calcs).
Definition inlet (statics design : bool) : group :=
  mkGroup
    ([flow_in "flow_in" "Fl_I" fl_i; inlet_calcs_sub;
      tsub "real_flow" total_TP "Fl_O:tot" [PA "T" "Fl_I:tot:T"; PA "composition" "Fl_I:tot:composition"] [PG "Fl_O:"]] ++
     (if statics then [tsub "out_stat" (stat_mode design) "Fl_O:stat"
                         [PA "composition" "Fl_I:tot:composition"; PA "W" "Fl_I:stat:W"; PN (if design then "MN" else "area")] [PG "Fl_O:stat:"]]
      else [pass_sub "W_passthru" "Fl_I:stat:W" "Fl_O:stat:W"]))
    ([("calcs_inlet.Pt_out", "real_flow.P")] ++ (if statics then stat_conns "Fl_O:tot" "out_stat" else [])) [].

(* ---------- duct.py:166-249 ---------- *)
(* duct.py:23-39; dPqP_MN exists only when expMN > 1e-10 (with_MN) *)
Definition dPqP_MN_sub (design : bool) (expMN : R) : sub :=
  if design
  then mkSub "dPqP_MN" [("MN_in", ("", "0.0")); ("dPqP", ("", "0.0"))] [("s_dPqP", ("", "0.0"))] [PN "dPqP"; PA "MN_in" "Fl_I:stat:MN"] [PN "s_dPqP"]
         (expl_rel (mach_pressure_loss true expMN))
  else mkSub "dPqP_MN" [("MN_in", ("", "0.0")); ("s_dPqP", ("", "0.0"))] [("dPqP", ("", "0.0"))] [PN "s_dPqP"; PA "MN_in" "Fl_I:stat:MN"] [PN "dPqP"]
         (expl_rel (mach_pressure_loss false expMN)).
(* duct.py:90-98 *)
Definition q_calc_sub : sub :=
  mkSub "q_calc" [("W_in", ("lbm/s", "2.0")); ("Q_dot", ("Btu/s", "0.0")); ("ht_in", ("Btu/lbm", "1.0"))] [("ht_out", ("Btu/lbm", "1.0"))]
    [PA "W_in" "Fl_I:stat:W"; PA "ht_in" "Fl_I:tot:h"; PN "Q_dot"] [] (expl_rel qcalc).
Definition duct (statics design with_MN : bool) (expMN : R) : group :=
  mkGroup
    ([flow_in "flow_in" "Fl_I" fl_i] ++ (if with_MN then [dPqP_MN_sub design expMN] else []) ++
     [p_loss_sub; q_calc_sub; tsub "real_flow" total_hP "Fl_O:tot" [PA "composition" "Fl_I:tot:composition"] [PG "Fl_O:"]] ++
     (if statics then [tsub "out_stat" (stat_mode design) "Fl_O:stat"
                         [PA "composition" "Fl_I:tot:composition"; PA "W" "Fl_I:stat:W"; PN (if design then "MN" else "area")] [PG "Fl_O:stat:"]]
      else [pass_sub "W_passthru" "Fl_I:stat:W" "Fl_O:stat:W"]))
    ([("q_calc.ht_out", "real_flow.h"); ("p_loss.Pt_out", "real_flow.P")] ++ (if statics then stat_conns "Fl_O:tot" "out_stat" else [])) [].

(* ---------- flow_start.py:49-84; add = Some (adder, mix_ratio_name) when a reactant is mixed in ---------- *)
Definition flow_start (add : option (adder * string)) : group :=
  mkGroup
    (match add with Some (a, ratio) => [add_sub "thermo_add" a [PA "Fl_I:stat:W" "W"; PA "mix:ratio" ratio] [PA "composition_out" "composition"]] | None => [] end ++
     [tsub "totals" total_TP "Fl_O:tot" [PN "T"; PN "P"; PN "composition"] [PG "Fl_O:tot:"];
      tsub "exit_static" static_MN "Fl_O:stat" [PN "MN"; PN "W"; PN "composition"] [PG "Fl_O:stat:"]])
    [("totals.h", "exit_static.ht"); ("totals.S", "exit_static.S"); ("Fl_O:tot:P", "exit_static.guess:Pt"); ("totals.gamma", "exit_static.guess:gamt")] [].

(* ---------- ambient.py:25-33 ---------- *)
Definition ambient : group :=
  mkGroup
    [mkSub "readAtmTable" [("alt", ("ft", "1."))] [("Ts", ("degR", "1.")); ("Ps", ("psi", "1.")); ("rhos", ("slug/ft**3", "1.")); ("drhos_dalt", ("slug/ft**4", "1."))]
       [PN "alt"] [PN "Ps"; PN "rhos"] (expl_rel usatm);
     mkSub "dTs" [("Ts_in", ("degR", "500.0")); ("dTs", ("degR", "0.0"))] [("Ts", ("degR", ""))] [PN "dTs"] [PN "Ts"] (expl_rel delta_ts)]
    [("readAtmTable.Ts", "dTs.Ts_in")] [].
(* ---------- flight_conditions.py:52-101 ---------- *)
Definition fc_conv (add : option (adder * string)) : group :=
  mkGroup
    [group_sub "fs" (flow_start add) ([PN "MN"; PN "W"] ++ match add with Some (_, ratio) => [PN ratio] | None => [] end) [PG "Fl_O:"];
     bal_sub "balance" [mkBal "Tt" "degR" "degR" "lhs:Tt" "rhs:Tt"; mkBal "Pt" "psi" "psi" "lhs:Pt" "rhs:Pt"] [] []] [] [].
Definition flight_conditions (add : option (adder * string)) : group :=
  mkGroup
    [group_sub "ambient" ambient [PN "alt"; PN "dTs"] []; group_sub "conv" (fc_conv add) [PG ""] [PG ""]]
    [("ambient.Ps", "balance.rhs:Pt"); ("ambient.Ts", "balance.rhs:Tt"); ("balance.Pt", "fs.P"); ("balance.Tt", "fs.T");
     ("Fl_O:stat:P", "balance.lhs:Pt"); ("Fl_O:stat:T", "balance.lhs:Tt")] [].
(* ---------- cfd_start.py:26-66 ---------- *)
Definition cfd_start : group :=
  mkGroup
    [group_sub "fs" (flow_start None) [PN "W"] [PG "Fl_O:"];
     bal_sub "balance" [mkBal "P" "psi" "psi" "Ps_computed" "Ps"; mkBal "T" "degR" "ft/s" "V_computed" "V"; mkBal "MN" "" "inch**2" "area_computed" "area"]
       [PN "Ps"; PN "V"; PN "area"] []]
    [("Fl_O:stat:P", "balance.Ps_computed"); ("Fl_O:stat:V", "balance.V_computed"); ("Fl_O:stat:area", "balance.area_computed");
     ("balance.P", "fs.P"); ("balance.T", "fs.T"); ("balance.MN", "fs.MN")] [].

(* ---------- splitter.py:94-206 ---------- *)
(* splitter.py:15-23 *)
Definition split_calc_sub : sub :=
  mkSub "split_calc" [("W_in", ("lbm/s", "1.0")); ("BPR", ("", "1.5"))] [("W1", ("lbm/s", "0.44")); ("W2", ("lbm/s", "0.56"))]
    [PN "BPR"; PA "W_in" "Fl_I:stat:W"] [] (expl_rel bpr_calc).
Definition splitter (statics design : bool) : group :=
  let from_in := [PA "composition" "Fl_I:tot:composition"; PA "P" "Fl_I:tot:P"; PA "T" "Fl_I:tot:T"] in
  let given i := if design then PA "MN" ("MN" ++ i)%string else PA "area" ("area" ++ i)%string in
  mkGroup
    ([flow_in "flow_in" "Fl_I" [PG "Fl_I:"]; split_calc_sub;
      tsub "real_flow1" total_TP "Fl_O1:tot" from_in [PG "Fl_O1:tot:"]; tsub "real_flow2" total_TP "Fl_O2:tot" from_in [PG "Fl_O2:tot:"]] ++
     (if statics
      then [tsub "out1_stat" (stat_mode design) "Fl_O1:stat" [PA "composition" "Fl_I:tot:composition"; given "1"] [PG "Fl_O1:stat:"];
            tsub "out2_stat" (stat_mode design) "Fl_O2:stat" [PA "composition" "Fl_I:tot:composition"; given "2"] [PG "Fl_O2:stat:"]]
      else [pass_sub "W1_passthru" "split_calc_W1" "Fl_O1:stat:W"; pass_sub "W2_passthru" "split_calc_W2" "Fl_O2:stat:W"]))
    (if statics
     then stat_conns "Fl_O1:tot" "out1_stat" ++ [("split_calc.W1", "out1_stat.W")] ++ stat_conns "Fl_O2:tot" "out2_stat" ++ [("split_calc.W2", "out2_stat.W")]
     else [("split_calc.W1", "split_calc_W1"); ("split_calc.W2", "split_calc_W2")]) [].

(* ---------- bleed_out.py:105-186 ---------- *)
(* bleed_out.py:19-30 *)
Definition bld_calcs_sub (bs : list string) : sub :=
  mkSub "bld_calcs" (("W_in", ("lbm/s", "30.0")) :: map (fun b => ((b ++ ":frac_W")%string, ("", "0.0"))) bs)
    (("W_out", ("lbm/s", "")) :: map (fun b => ((b ++ ":stat:W")%string, ("lbm/s", ""))) bs)
    [PA "W_in" "Fl_I:stat:W"; PS ":frac_W"] (PN "W_out" :: map (fun b => PG (b ++ ":")%string) bs) (expl_rel (bleed_calcs bs)).
Definition bleed_out (bs : list string) (statics design : bool) : group :=
  let from_in := [PA "composition" "Fl_I:tot:composition"; PA "T" "Fl_I:tot:T"; PA "P" "Fl_I:tot:P"] in
  mkGroup
    ([flow_in "flow_in" "Fl_I" fl_i; bld_calcs_sub bs] ++
     map (fun b => tsub (b ++ "_flow")%string total_TP (b ++ ":tot")%string from_in [PG (b ++ ":tot:")%string]) bs ++
     [tsub "real_flow" total_TP "Fl_O:tot" from_in [PG "Fl_O:"]] ++
     (if statics then [tsub "out_stat" (stat_mode design) "Fl_O:stat" [PA "composition" "Fl_I:tot:composition"; PN (if design then "MN" else "area")] [PG "Fl_O:stat:"]]
      else [pass_sub "W_passthru" "W_out" "Fl_O:stat:W"]))
    (if statics then stat_conns "Fl_O:tot" "out_stat" ++ [("W_out", "out_stat.W")] else []) [].

(* ---------- combustor.py:86-178; the adder is in reactant mode with the single mix name 'mix' ---------- *)
Definition combustor (a : adder) (statics design : bool) : group :=
  mkGroup
    ([flow_in "in_flow" "Fl_I" fl_i;
      add_sub "mix_fuel" a [PN "Fl_I:stat:W"; PA "mix:ratio" "Fl_I:FAR"; PN "Fl_I:tot:composition"; PN "Fl_I:tot:h"] [PA "mix:W" "Wfuel"; PN "Wout"];
      p_loss_sub; tsub "vitiated_flow" total_hP "Fl_O:tot" [] [PG "Fl_O:"]] ++
     (if statics then [tsub "out_stat" (stat_mode design) "Fl_O:stat" [PN (if design then "MN" else "area")] [PG "Fl_O:stat:"]]
      else [pass_sub "W_passthru" "Wout" "Fl_O:stat:W"]))
    ([("mix_fuel.mass_avg_h", "vitiated_flow.h"); ("mix_fuel.composition_out", "vitiated_flow.composition"); ("p_loss.Pt_out", "vitiated_flow.P")] ++
     (if statics then [("mix_fuel.composition_out", "out_stat.composition")] ++ stat_conns "Fl_O:tot" "out_stat" ++ [("Wout", "out_stat.W")] else [])) [].
End Elements.
