(* Model of pycycle/thermo/thermo.py (class Thermo), thermo/unit_comps.py and OpenMDAO's BalanceComp as Thermo uses it. The property
   calculation at given temperature, pressure and composition (SetTotalTP of either method) is an arbitrary relation `tp T P comp props`
   on the values in its declared units; the numerical solvers and bounds are not modelled (a solution is any converged state). *)
From Verif Require Export Spec_Wire Model_Static.
Open Scope string_scope. Open Scope list_scope. Open Scope R_scope.

(* thermo.py:26-28, the values accepted for the mode option *)
Inductive mode := total_TP | total_SP | total_hP | static_MN | static_A | static_Ps.
Definition mode_name (m : mode) : string :=
  match m with total_TP => "total_TP" | total_SP => "total_SP" | total_hP => "total_hP" | static_MN => "static_MN" | static_A => "static_A" | static_Ps => "static_Ps" end.
Definition modes : list mode := [total_TP; total_SP; total_hP; static_MN; static_A; static_Ps].
(* options.declare(values=...): anything else is rejected *)
Definition parse_mode (s : string) : option mode := find (fun m => String.eqb (mode_name m) s) modes.
(* constants.py ALLOWED_THERMOS *)
Inductive method := CEA | TABULAR.

Definition has (s : string) (m : mode) : bool := contains s (mode_name m).

(* ---- unit_comps.py:8-45 UnitCompBase: one output fl_name:x per input x, same units and value, in the same order; compute copies the
   data vector, i.e. entry i of the outputs is entry i of the inputs ---- *)
Definition unit_outs (fl : string) (l : list meta) : list meta := map (fun m => ((fl ++ ":" ++ fst m)%string, snd m)) l.
Definition unit_rel (fl : string) (l : list meta) (li lo : state) : Prop :=
  Forall2 (fun i o => forall k, lo o k = li i k) (names l) (names (unit_outs fl l)).
(* unit_comps.py:47-63 EngUnitProps *)
Definition eng_props : list meta :=
  [("T", ("degR", "284.")); ("P", ("lbf/inch**2", "1.")); ("h", ("Btu/lbm", "1.")); ("S", ("Btu/(lbm*degR)", "1.")); ("gamma", ("", "1.4"));
   ("Cp", ("Btu/(lbm*degR)", "1.")); ("Cv", ("Btu/(lbm*degR)", "1.")); ("rho", ("lbm/ft**3", "1.")); ("R", ("Btu/(lbm*degR)", "1.0"));
   ("composition", ("", "composition"))].
(* unit_comps.py:66-76 EngUnitStaticProps *)
Definition eng_static : list meta :=
  [("area", ("inch**2", "1.0")); ("W", ("lbm/s", "1.0")); ("V", ("ft/s", "1.0")); ("Vsonic", ("ft/s", "1.0")); ("MN", ("", "0.5"))].
Definition unit_sub (name fl : string) (l : list meta) (pi : list promo) : sub :=
  mkSub name l (unit_outs fl l) pi [PG (fl ++ ":")%string] (unit_rel fl l).

Section Thermo.
Variable tp : R -> R -> (nat -> R) -> (string -> R) -> Prop.

(* cea: chem_eq.py:94-98, props_calcs.py:18-37; tabular: tabular_thermo.py:29-45 *)
Definition base_ins (me : method) : list meta :=
  match me with
  | CEA => [("T", ("degK", "400.")); ("composition", ("", "composition")); ("P", ("bar", "1."))]
  | TABULAR => [("T", ("degK", "273.0")); ("composition", ("", "composition")); ("P", ("Pa", "101325.0"))]
  end.
Definition base_outs (me : method) : list meta :=
  match me with
  | CEA => [("h", ("cal/g", "1.")); ("S", ("cal/(g*degK)", "1.")); ("gamma", ("", "1.4")); ("Cp", ("cal/(g*degK)", "1.")); ("Cv", ("cal/(g*degK)", "1."));
            ("rho", ("g/cm**3", "0.0004")); ("R", ("(N*m)/(kg*degK)", "1."))]
  | TABULAR => [("h", ("J/kg", "1.0")); ("S", ("J/kg/degK", "1.0")); ("gamma", ("", "1.4")); ("Cp", ("J/kg/degK", "1.0")); ("Cv", ("J/kg/degK", "1.0"));
            ("rho", ("kg/m**3", "1.0")); ("R", ("J/kg/degK", "287.0"))]
  end.
(* thermo.py:60-85 *)
Definition base_pin (m : mode) : list promo :=
  [PN "T"; PN "composition"] ++ (if has "TP" m then [PN "P"] else []) ++ (if has "hP" m then [PN "P"] else []) ++
  (if has "SP" m then [PN "P"] else []) ++ (if has "static" m then [PA "P" "Ps"] else []).
Definition base_pout (m : mode) : list promo :=
  [PN "gamma"; PN "Cp"; PN "Cv"; PN "rho"; PN "R"] ++ (if has "TP" m then [PN "S"; PN "h"] else []) ++ (if has "hP" m then [PN "S"] else []) ++
  (if has "SP" m then [PN "h"] else []) ++ (if has "static" m then [PN "h"] else []).
Definition base_sub (me : method) (m : mode) : sub :=
  mkSub "base_thermo" (base_ins me) (base_outs me) (base_pin m) (base_pout m)
    (fun li lo => tp (li "T" 0%nat) (li "P" 0%nat) (li "composition") (fun x => lo x 0%nat)).

(* thermo.py:89-109: the balance on T; its residual vanishes iff lhs:T = rhs:T *)
Definition balance_ins (m : mode) : list meta :=
  let u := if has "SP" m || has "static" m then "cal/(g*degK)" else "cal/g" in [("lhs:T", (u, "lhs")); ("rhs:T", (u, "rhs"))].
Definition balance_pin (m : mode) : list promo :=
  if has "SP" m || has "static" m then [PA "rhs:T" "S"] else if has "hP" m then [PA "rhs:T" "h"] else [].
Definition balance_sub (m : mode) : sub :=
  mkSub "balance" (balance_ins m) [("T", ("degK", "500."))] (balance_pin m) [PN "T"] (fun li _ => li "lhs:T" 0%nat = li "rhs:T" 0%nat).
Definition balance_conns (m : mode) : list (string * string) :=
  if has "SP" m || has "static" m then [("base_thermo.S", "balance.lhs:T")] else if has "hP" m then [("base_thermo.h", "balance.lhs:T")] else [].

(* static_ps_calc.py:12-23, static_ps_resid.py:17-57 *)
Definition ps_calc_sub : sub :=
  mkSub "ps_calc"
    [("gamma", ("", "1.4")); ("R", ("J/kg/degK", "0.0")); ("Ts", ("degK", "518.")); ("ht", ("J/kg", "0.")); ("hs", ("J/kg", "0.")); ("W", ("kg/s", "0.0")); ("rho", ("kg/m**3", "1.0"))]
    [("MN", ("", "1.0")); ("V", ("m/s", "1.0")); ("Vsonic", ("m/s", "1.0")); ("area", ("m**2", "1.0"))]
    [PN "gamma"; PN "R"; PN "ht"; PN "W"; PN "rho"; PA "Ts" "T"; PA "hs" "h"] [PN "MN"; PN "V"; PN "Vsonic"; PN "area"] (expl_rel ps_calc).
Definition ps_resid_ins : list meta :=
  [("Ts", ("degK", "518.")); ("ht", ("J/kg", "1.")); ("hs", ("J/kg", "1.")); ("R", ("J/kg/degK", "0.0")); ("gamma", ("", "1.4")); ("W", ("kg/s", "1."));
   ("rho", ("kg/m**3", "1.")); ("guess:gamt", ("", "1.4")); ("guess:Pt", ("bar", "1.0"))].
Definition ps_resid_outs : list meta := [("Ps", ("bar", ".001")); ("V", ("m/s", "100.0")); ("Vsonic", ("m/s", "330.0"))].
Definition ps_area_sub : sub :=
  mkSub "ps_resid" (ps_resid_ins ++ [("guess:MN", ("", "0.5")); ("area", ("m**2", "inf"))]) (ps_resid_outs ++ [("MN", ("", ".5"))])
    [PN "ht"; PN "R"; PN "gamma"; PN "W"; PN "rho"; PN "area"; PG "guess:"; PA "Ts" "T"; PA "hs" "h"]
    [PN "V"; PN "Vsonic"; PN "MN"; PN "Ps"] (impl_rel ps_resid_area).
(* the initial value .5 of MN is written 0.5 here: the same number as in EngUnitStaticProps *)
Definition ps_MN_sub : sub :=
  mkSub "ps_resid" (ps_resid_ins ++ [("MN", ("", "0.5"))]) (ps_resid_outs ++ [("area", ("m**2", "1"))])
    [PN "ht"; PN "R"; PN "gamma"; PN "W"; PN "rho"; PN "MN"; PG "guess:"; PA "Ts" "T"; PA "hs" "h"]
    [PN "V"; PN "Vsonic"; PN "area"; PN "Ps"] (impl_rel ps_resid_MN).
(* thermo.py:111-134: the if/elif chain on the mode string *)
Definition static_subs (m : mode) : list sub :=
  if has "Ps" m then [ps_calc_sub] else if has "A" m then [ps_area_sub] else if has "MN" m then [ps_MN_sub] else [].

(* thermo.py:140-150 *)
Definition flow_pin (m : mode) : list promo :=
  if has "static" m then [PN "T"; PA "P" "Ps"; PN "h"; PN "S"; PN "gamma"; PN "Cp"; PN "Cv"; PN "rho"; PN "R"]
  else [PN "T"; PN "P"; PN "h"; PN "S"; PN "gamma"; PN "Cp"; PN "Cv"; PN "rho"; PN "composition"; PN "R"].
Definition flow_sub (m : mode) (fl : string) : sub := unit_sub "flow" fl eng_props (flow_pin m).
(* thermo.py:152-158 *)
Definition flow_static_sub (fl : string) : sub :=
  unit_sub "flow_static" fl eng_static [PN "area"; PN "W"; PN "V"; PN "Vsonic"; PN "MN"].
(* thermo.py:160-178 *)
Definition thermo_defaults (m : mode) : list string :=
  (if has "static" m then ["W"; "Ps"] ++ (if has "A" m then ["area"] else []) else ["P"]) ++
  (if has "TP" m then ["T"] else (if has "hP" m then ["h"] else []) ++ (if has "SP" m || has "static" m then ["S"] else [])).
(* thermo.py:44-178 setup *)
Definition thermo (me : method) (m : mode) (fl : string) : group :=
  mkGroup
    ([base_sub me m] ++ (if String.eqb (mode_name m) "total_TP" then [] else balance_sub m :: static_subs m) ++
     [flow_sub m fl] ++ (if has "static" m then [flow_static_sub fl] else []))
    (if String.eqb (mode_name m) "total_TP" then [] else balance_conns m)
    (thermo_defaults m).
End Thermo.
