(* Model of pycycle/viewers.py: which variable every printed column reads. Formatting (widths, digits, headers, files) and the plots' drawing are
   not modelled; a printed number is the SI value of the variable it is read from (the code prints it in the variable's declared units). *)
From Verif Require Export Model_Shaft Model_Elem1 Model_Elem2 Prop_Station.
Open Scope string_scope. Open Scope list_scope. Open Scope R_scope.

(* ---- OpenMDAO (not part of /repo): what prob[key] finds ----
   below an element, a key is either a promoted name or the absolute name of a component's variable; a name in `params` was promoted on to the top of
   the model (pyc_add_cycle_param), so it is no longer a name below the element *)
Record scope := mkScope { promoted : list string; components : list (string * string); params : list string }.
Inductive finds (sc : scope) (k : string) : string -> Prop :=
| by_promotion : In k (promoted sc) -> ~ In k (params sc) -> finds sc k k
| by_path n : In (k, n) (components sc) -> finds sc k n.
Definition key_error (sc : scope) (k : string) : Prop := forall n, ~ finds sc k n.
(* the absolute names of a component's variables, and the names these variables have in the group *)
Definition comp_keys (s : sub) : list (string * string) :=
  map (fun x => ((sname s ++ "." ++ x)%string, gname (sname s) (pin s) x)) (names (sins s)) ++
  map (fun x => ((sname s ++ "." ++ x)%string, gname (sname s) (pout s) x)) (names (souts s)).
Definition inner_keys (mh : sub * group) : list (string * string) :=
  let m := fst mh in
  flat_map (fun t => map (fun kn => ((sname m ++ "." ++ fst kn)%string, gname (sname m) (pin m ++ pout m) (snd kn))) (comp_keys t)) (subs (snd mh)).
(* leaves: the subsystems of the group that are components; inner: the groups among them whose own subsystems are components *)
Definition scope_of (g : group) (leaves : list string) (inner : list (sub * group)) (ps : list string) : scope :=
  mkScope (flat_map (fun s => in_names s ++ out_names s) (subs g))
    (flat_map comp_keys (filter (fun s => memb (sname s) leaves) (subs g)) ++ flat_map inner_keys inner) ps.
(* what can be made a cycle parameter: an input of the element that nothing inside drives, under a name of the element itself *)
Definition params_ok (g : group) (ps : list string) : Prop := forall k, In k ps -> In k (g_ins g) /\ contains "." k = false.

(* ---- viewers.py ---- *)
(* prob[e_name + '.' + k], get_val(prob, point, element, k), a literal, prob[e_name + '.' + k,]: Python indexes with a tuple, which names no variable,
   so it cannot be read *)
Inductive cell := At (k : string) | Via (k : string) | Lit (r : R) | Tuple (k : string).
Inductive cell_val (sc : scope) (w : state) : cell -> R -> Prop :=
| read_at k n : finds sc k n -> cell_val sc w (At k) (val w n)
(* viewers.py:31-37 get_val: below the point, and on KeyError at the top of the model *)
| read_via k n : finds sc k n -> cell_val sc w (Via k) (val w n)
| read_param k : key_error sc k -> In k (params sc) -> cell_val sc w (Via k) (val w k)
| read_lit r : cell_val sc w (Lit r) r.
(* a printed row: every column's cell can be read, and shows the number f *)
Definition prints (sc : scope) (w : state) (row : list (string * cell)) (f : string -> R) : Prop := forall l c, In (l, c) row -> cell_val sc w c (f l).
Definition raises (sc : scope) (w : state) (row : list (string * cell)) : Prop := exists l c, In (l, c) row /\ forall v, ~ cell_val sc w c v.

(* viewers.py:40-67 *)
Definition station_row (fl : string) : list (string * cell) :=
  map (fun n => (n, At (fl ++ ":" ++ n)%string)) ["tot:P"; "tot:T"; "tot:h"; "tot:S"; "stat:P"; "stat:W"; "stat:MN"; "stat:V"; "stat:area"].
(* viewers.py:70-101 *)
Definition compressor_row (design : bool) : list (string * cell) :=
  [("Wc", At "Wc"); ("Pr", At (if design then "map.scalars.PR" else "PR")); ("eta_a", At (if design then "map.scalars.eff" else "eff")); ("eta_p", At "eff_poly");
   ("Nc", At "Nc"); ("pwr", At "power"); ("RlineMap", At "map.RlineMap"); ("NcMap", At "map.NcMap"); ("PRmap", At "map.PRmap"); ("WcMap", At "map.WcMap");
   ("alphaMap", At "map.map.alphaMap"); ("SMN", At "SMN"); ("SMW", At "SMW"); ("effMap", At "map.effMap")].
(* viewers.py:104-131; the two columns FAR is computed from, and the computation (lines 122-125) *)
Definition burner_row : list (string * cell) := [("dPqP", Via "dPqP"); ("TtOut", Via "Fl_O:tot:T"); ("Wfuel", Via "Wfuel"); ("W_tot", Via "Fl_O:stat:W")].
Definition burner_far (W_fuel W_tot : R) : R := let W_air := W_tot - W_fuel in W_fuel / W_air.
(* viewers.py:134-171 *)
Definition turbine_row (design : bool) : list (string * cell) :=
  [("Wp", Via "Wp"); ("PR", Via (if design then "map.scalars.PR" else "PR")); ("eff_a", Via (if design then "map.scalars.eff" else "eff")); ("eff_p", Via "eff_poly"); ("Np", Via "Np");
   ("pwr", Via "power"); ("NpMap", Via "map.NpMap"); ("PRmap", Via "map.PRmap"); ("alphaMap", Via "map.alphaMap")].
(* viewers.py:174-213; the other coefficient's column prints N/A *)
Definition nozzle_row (lc : loss_coef) : list (string * cell) :=
  [("PR", Via "PR"); match lc with Cv => ("Cv", Via "Cv") | Cfg => ("Cfg", Via "Cfg") end; ("Ath", Via "Throat:stat:area"); ("MNth", Via "Throat:stat:MN"); ("MNout", Via "Fl_O:stat:MN");
   ("V", Via "Fl_O:stat:V"); ("Fg", Via "Fg")].
(* viewers.py:246-262: the interstage bleed of a compressor, and on KeyError the stand-alone bleed *)
Definition bleed_first (b : string) : list (string * cell) :=
  [("Pfrac", At ("blds_pwr." ++ b ++ ":frac_P")%string); ("Workfrac", At ("blds_pwr." ++ b ++ ":frac_work")%string); ("Wb/Win", At ("blds_pwr." ++ b ++ ":frac_W")%string)].
Definition bleed_alone (b : string) : list (string * cell) := [("Wb/Win", At ("bld_calcs." ++ b ++ ":frac_W")%string); ("Pfrac", Lit 1); ("Workfrac", Lit 1)].
Definition bleed_rest (b : string) : list (string * cell) :=
  [("W", At (b ++ ":stat:W")%string); ("Tt", At (b ++ ":tot:T")%string); ("ht", At (b ++ ":tot:h")%string); ("Pt", At (b ++ ":tot:P")%string)].
Definition prints_bleed (sc : scope) (w : state) (b : string) (f : string -> R) : Prop :=
  (prints sc w (bleed_first b) f \/ (raises sc w (bleed_first b) /\ prints sc w (bleed_alone b) f)) /\ prints sc w (bleed_rest b) f.
(* viewers.py:276-295 *)
Definition shaft_row : list (string * cell) := [("Nmech", At "Nmech"); ("trqin", At "trq_in"); ("trqout", At "trq_out"); ("pwrin", At "pwr_in"); ("pwrout", At "pwr_out")].
(* viewers.py:298-329; in the branch of designed_stream == 2 (line 327) the key of ER has a trailing comma *)
Definition mixer_row (one : bool) : list (string * cell) :=
  let i := if one then "Fl_I1" else "Fl_I2" in
  [("balance.P_tot", At "balance.P_tot"); ("designed_stream", Lit (if one then 1 else 2)); ("Fl_calc:stat:P", At (i ++ "_calc:stat:P")%string); ("Fl_calc:stat:area", At (i ++ "_calc:stat:area")%string);
   ("Fl_calc:stat:MN", At (i ++ "_calc:stat:MN")%string); ("ER", if one then At "ER" else Tuple "ER")].
(* viewers.py:332-365, 368-400: the scalars and the operating point that is drawn on the scaled map *)
Definition plot_row (x n : string) : list (string * cell) :=
  [("s_x", At ("s_" ++ x)%string); ("s_PR", At "s_PR"); ("s_eff", At "s_eff"); ("s_n", At ("s_" ++ n)%string); ("x", At x); ("y", At "map.scalars.PR")].

(* the elements' scopes *)
Section Scopes.
Variable tp : R -> R -> (nat -> R) -> (string -> R) -> Prop.
Variable me : method.
(* compressor.py:414-555: the subsystems that are components *)
Definition compressor_scope mp rs bs (statics design : bool) ps : scope :=
  scope_of (compressor tp me mp rs bs statics design) ["flow_in"; "corrinputs"; "press_rise"; "enth_rise"; "eff_poly_calc"; "blds_pwr"; "W_passthru"]
    [(group_sub "map" (compressor_map mp rs design) (c_map_pin design) (c_map_pout design), compressor_map mp rs design)] ps.
(* turbine.py:449-640 *)
Definition turbine_scope mp a bs (statics design : bool) ps : scope :=
  scope_of (turbine tp me mp a bs statics design) (["in_flow"; "corrinputs"; "press_drop"; "bld_add"; "blds"; "pwr_turb"; "eff_poly_calc"; "W_passthru"] ++ bs)
    [(group_sub "map" (turbine_map mp design) (t_map_pin design) (t_map_pout design), turbine_map mp design)] ps.
(* combustor.py:86-178 *)
Definition combustor_scope a (statics design : bool) ps : scope := scope_of (combustor tp me a statics design) ["in_flow"; "mix_fuel"; "p_loss"; "W_passthru"] [] ps.
(* nozzle.py:318-445 *)
Definition nozzle_scope nt lc ps : scope := scope_of (nozzle tp me nt lc) ["mach_choked"; "in_flow"; "PR_bal"; "press_calcs"; "mux"; "perf_calcs"] [] ps.
(* bleed_out.py:105-186 *)
Definition bleed_scope bs (statics design : bool) ps : scope := scope_of (bleed_out tp me bs statics design) ["flow_in"; "bld_calcs"; "W_passthru"] [] ps.
(* mixer.py:155-315 *)
Definition mixer_scope a (one design : bool) ps : scope := scope_of (mixer tp me a one design) ["in_flow1"; "in_flow2"; "area_calc"; "extraction_ratio"; "flow_add"; "impulse_mix"] [] ps.
End Scopes.
(* shaft.py:6-58: the shaft is itself a component, so its variables keep their absolute names whatever they are promoted to *)
Definition shaft_scope (n : nat) (ps : list string) : scope := mkScope (map vname (ins (shaft n) ++ outs (shaft n))) (map (fun v => (vname v, vname v)) (ins (shaft n) ++ outs (shaft n))) ps.
