(* Model of the components of pycycle/elements/compressor.py, turbine.py,
   compressor_map.py and turbine_map.py. Bleed names are arbitrary user strings. *)
From Verif Require Export Spec_Comp.
Open Scope string_scope. Open Scope list_scope. Open Scope R_scope.

(* constants.py:8 BTU_s2HP, constants.py:9 HP_per_RPM_to_FT_LBF *)
Definition BTU_s2HP : R := 14148532 / 10000000.
Definition HP_per_RPM_to_FT_LBF : R := 525211 / 100.
(* constants.py T_STDeng, P_STDeng *)
Definition T_STDeng : R := 51867 / 100.
Definition P_STDeng : R := 14695951 / 1000000.

(* ======== compressor.py ======== *)

(* compressor.py:37-44; self.delta, self.W and self.theta are kept on the instance *)
Definition cci_self (e : env) : env := fun v =>
  if var_eq_dec v (V "delta") then e (V "Pt") / P_STDeng else
  if var_eq_dec v (V "W") then e (V "W_in") else
  if var_eq_dec v (V "theta") then e (V "Tt") / T_STDeng else 0.
Definition cci_compute (e old : env) : env :=
  let s := cci_self e in
  let o := upd old (V "Wc") (s (V "W") * rpow (s (V "theta")) (1 / 2) / s (V "delta")) in
  upd o (V "Nc") (e (V "Nmech") * rpow (s (V "theta")) (- (1 / 2))).
(* compressor.py:46-55; s is the instance state left by the last compute *)
Definition cci_partials_self (s e : env) (J : jac) : jac :=
  let theta := s (V "theta") in
  let delta := s (V "delta") in
  let J := jset J (V "Wc") (V "Tt") (1 / 2 * s (V "W") / delta * rpow theta (- (1 / 2)) / T_STDeng) in
  let J := jset J (V "Wc") (V "Pt") (- s (V "W") * rpow theta (1 / 2) * rpow delta (- 2) / P_STDeng) in
  let J := jset J (V "Wc") (V "W_in") (rpow theta (1 / 2) / delta) in
  let J := jset J (V "Nc") (V "Nmech") (rpow theta (- (1 / 2))) in
  jset J (V "Nc") (V "Tt") (- (1 / 2) * e (V "Nmech") * rpow theta (- (3 / 2)) / T_STDeng).
(* compressor.py:18-35; linearised, as OpenMDAO does, at the point compute was last run at *)
Definition c_corrected_inputs : comp :=
  mkComp [V "Tt"; V "Pt"; V "W_in"; V "Nmech"] [V "Wc"; V "Nc"] cci_compute
    [([V "Wc"], [V "Tt"; V "Pt"; V "W_in"], 0); ([V "Nc"], [V "Nmech"; V "Tt"], 0)]
    (fun e J => cci_partials_self (cci_self e) e J).

(* compressor.py:69-75 *)
Definition cep_compute (e old : env) : env :=
  let PR := e (V "PR") in let S_in := e (V "S_in") in let S_out := e (V "S_out") in let Rt := e (V "Rt") in
  upd old (V "eff_poly") (Rt * ln PR / (Rt * ln PR + S_out - S_in)).
(* compressor.py:77-88 *)
Definition cep_partials (e : env) (J : jac) : jac :=
  let PR := e (V "PR") in let S_in := e (V "S_in") in let S_out := e (V "S_out") in let Rt := e (V "Rt") in
  let J := jset J (V "eff_poly") (V "PR") (Rt * (S_out - S_in) / (PR * (ln PR * Rt + S_out - S_in) ^ 2)) in
  let J := jset J (V "eff_poly") (V "S_in") (ln PR * Rt / (ln PR * Rt + S_out - S_in) ^ 2) in
  let J := jset J (V "eff_poly") (V "S_out") (- (ln PR * Rt) / (ln PR * Rt + S_out - S_in) ^ 2) in
  jset J (V "eff_poly") (V "Rt") (ln PR * (S_out - S_in) / (ln PR * Rt + S_out - S_in) ^ 2).
(* compressor.py:57-68 *)
Definition c_eff_poly : comp :=
  mkComp [V "PR"; V "S_in"; V "S_out"; V "Rt"] [V "eff_poly"] cep_compute
    [([V "eff_poly"], [V "PR"; V "S_in"; V "S_out"; V "Rt"], 0)] cep_partials.

(* compressor.py:110-113 *)
Definition pow_compute (e old : env) : env :=
  let o := upd old (V "power") (e (V "W") * (e (V "ht_in") - e (V "ht_out")) * BTU_s2HP) in
  upd o (V "trq") (HP_per_RPM_to_FT_LBF * o (V "power") / e (V "Nmech")).
(* compressor.py:116-130 *)
Definition pow_partials (e : env) (J : jac) : jac :=
  let ht_in := e (V "ht_in") in let ht_out := e (V "ht_out") in let W := e (V "W") in let Nmech := e (V "Nmech") in
  let J := jset J (V "power") (V "W") ((ht_in - ht_out) * BTU_s2HP) in
  let J := jset J (V "power") (V "ht_out") (- W * BTU_s2HP) in
  let J := jset J (V "power") (V "ht_in") (W * BTU_s2HP) in
  let J := jset J (V "trq") (V "W") ((ht_in - ht_out) * BTU_s2HP * HP_per_RPM_to_FT_LBF / Nmech) in
  let J := jset J (V "trq") (V "ht_out") (- W * BTU_s2HP * HP_per_RPM_to_FT_LBF / Nmech) in
  let J := jset J (V "trq") (V "ht_in") (W * BTU_s2HP * HP_per_RPM_to_FT_LBF / Nmech) in
  jset J (V "trq") (V "Nmech") (- W * (ht_in - ht_out) * BTU_s2HP * HP_per_RPM_to_FT_LBF * / (Nmech ^ 2)).
(* compressor.py:91-108 *)
Definition power_comp : comp :=
  mkComp [V "W"; V "ht_out"; V "ht_in"; V "Nmech"] [V "power"; V "trq"] pow_compute
    [([V "power"], [V "W"; V "ht_out"; V "ht_in"], 0);
     ([V "trq"], [V "W"; V "ht_out"; V "ht_in"; V "Nmech"], 0)] pow_partials.

(* compressor.py:185-213; bs = options['bleed_names'] *)
Definition bp_step (e : env) (o : env) (b : string) : env :=
  let stat_W := e (V "W_in") * e (B b "frac_W") in
  let o := upd o (B b "Pt") (e (V "Pt_in") + e (B b "frac_P") * (e (V "Pt_out") - e (V "Pt_in"))) in
  let ht := e (V "ht_in") + e (B b "frac_work") * (e (V "ht_out") - e (V "ht_in")) in
  let o := upd o (V "W_out") (o (V "W_out") - stat_W) in
  let o := upd o (V "power") (o (V "power") - stat_W * (ht - e (V "ht_out")) * BTU_s2HP) in
  let o := upd o (B b "stat:W") stat_W in
  upd o (B b "ht") ht.
Definition bp_compute (bs : list string) (e old : env) : env :=
  let o := upd old (V "W_out") (e (V "W_in")) in
  let o := upd o (V "power") (e (V "W_in") * (e (V "ht_in") - e (V "ht_out")) * BTU_s2HP) in
  let o := fold_left (bp_step e) bs o in
  upd o (V "trq") (HP_per_RPM_to_FT_LBF * o (V "power") / e (V "Nmech")).
(* compressor.py:215-287; the local accumulators dW_out_dW_in, ... are named variables of
   a second environment l *)
Definition bp_loc0 (e : env) : env :=
  let ht_in := e (V "ht_in") in let ht_out := e (V "ht_out") in let W_in := e (V "W_in") in let Nmech := e (V "Nmech") in
  let l := upd (fun _ => 0) (V "dW_out_dW_in") 1 in
  let l := upd l (V "dpower_dW_in") ((ht_in - ht_out) * BTU_s2HP) in
  let l := upd l (V "dpower_dht_in") (W_in * BTU_s2HP) in
  let l := upd l (V "dpower_dht_out") (- W_in * BTU_s2HP) in
  let l := upd l (V "dtrq_dW_in") ((ht_in - ht_out) * BTU_s2HP * HP_per_RPM_to_FT_LBF / Nmech) in
  let l := upd l (V "dtrq_dht_in") (W_in * BTU_s2HP * HP_per_RPM_to_FT_LBF / Nmech) in
  let l := upd l (V "dtrq_dht_out") (- W_in * BTU_s2HP * HP_per_RPM_to_FT_LBF / Nmech) in
  upd l (V "dtrq_dNmech") (- W_in * (ht_in - ht_out) * BTU_s2HP * HP_per_RPM_to_FT_LBF * / (Nmech ^ 2)).
Definition bp_pstep (e : env) (s : jac * env) (b : string) : jac * env :=
  let (J, l) := s in
  let ht_in := e (V "ht_in") in let ht_out := e (V "ht_out") in let W_in := e (V "W_in") in let Nmech := e (V "Nmech") in
  let delta_Pt := e (V "Pt_out") - e (V "Pt_in") in
  let frac_W := e (B b "frac_W") in let frac_work := e (B b "frac_work") in let frac_P := e (B b "frac_P") in
  let l := upd l (V "dW_out_dW_in") (l (V "dW_out_dW_in") - frac_W) in
  let J := jset J (V "W_out") (B b "frac_W") (- W_in) in
  let l := upd l (V "dpower_dW_in") (l (V "dpower_dW_in") - frac_W * (1 - frac_work) * (ht_in - ht_out) * BTU_s2HP) in
  let l := upd l (V "dpower_dht_in") (l (V "dpower_dht_in") - W_in * frac_W * (1 - frac_work) * BTU_s2HP) in
  let l := upd l (V "dpower_dht_out") (l (V "dpower_dht_out") - (- W_in * frac_W * (1 - frac_work) * BTU_s2HP)) in
  let J := jset J (V "power") (B b "frac_W") (- W_in * (1 - frac_work) * (ht_in - ht_out) * BTU_s2HP) in
  let J := jset J (V "power") (B b "frac_work") (W_in * frac_W * (ht_in - ht_out) * BTU_s2HP) in
  let J := jset J (B b "stat:W") (V "W_in") frac_W in
  let J := jset J (B b "stat:W") (B b "frac_W") W_in in
  let J := jset J (B b "Pt") (V "Pt_in") (1 - frac_P) in
  let J := jset J (B b "Pt") (B b "frac_P") delta_Pt in
  let J := jset J (B b "Pt") (V "Pt_out") frac_P in
  let J := jset J (B b "ht") (V "ht_in") (1 - frac_work) in
  let J := jset J (B b "ht") (B b "frac_work") (ht_out - ht_in) in
  let J := jset J (B b "ht") (V "ht_out") frac_work in
  let l := upd l (V "dtrq_dW_in") (l (V "dtrq_dW_in") - frac_W * (1 - frac_work) * (ht_in - ht_out) * BTU_s2HP * HP_per_RPM_to_FT_LBF / Nmech) in
  let l := upd l (V "dtrq_dht_in") (l (V "dtrq_dht_in") - W_in * frac_W * (1 - frac_work) * BTU_s2HP * HP_per_RPM_to_FT_LBF / Nmech) in
  let l := upd l (V "dtrq_dht_out") (l (V "dtrq_dht_out") - (- W_in * frac_W * (1 - frac_work) * BTU_s2HP * HP_per_RPM_to_FT_LBF / Nmech)) in
  let J := jset J (V "trq") (B b "frac_W") (- W_in * (1 - frac_work) * (ht_in - ht_out) * BTU_s2HP * HP_per_RPM_to_FT_LBF / Nmech) in
  let J := jset J (V "trq") (B b "frac_work") (W_in * frac_W * (ht_in - ht_out) * BTU_s2HP * HP_per_RPM_to_FT_LBF / Nmech) in
  let l := upd l (V "dtrq_dNmech") (l (V "dtrq_dNmech") - (- W_in * frac_W * (1 - frac_work) * (ht_in - ht_out) * BTU_s2HP * HP_per_RPM_to_FT_LBF * / (Nmech ^ 2))) in
  (J, l).
Definition bp_partials (bs : list string) (e : env) (J : jac) : jac :=
  let s := fold_left (bp_pstep e) bs (J, bp_loc0 e) in
  let J := fst s in let l := snd s in
  let J := jset J (V "W_out") (V "W_in") (l (V "dW_out_dW_in")) in
  let J := jset J (V "power") (V "W_in") (l (V "dpower_dW_in")) in
  let J := jset J (V "power") (V "ht_in") (l (V "dpower_dht_in")) in
  let J := jset J (V "power") (V "ht_out") (l (V "dpower_dht_out")) in
  let J := jset J (V "trq") (V "W_in") (l (V "dtrq_dW_in")) in
  let J := jset J (V "trq") (V "ht_in") (l (V "dtrq_dht_in")) in
  let J := jset J (V "trq") (V "ht_out") (l (V "dtrq_dht_out")) in
  jset J (V "trq") (V "Nmech") (l (V "dtrq_dNmech")).
(* compressor.py:140-183 *)
Definition bleeds_and_power (bs : list string) : comp :=
  mkComp ([V "W_in"; V "ht_out"; V "ht_in"; V "Pt_out"; V "Pt_in"; V "Nmech"] ++
          flat_map (fun b => [B b "frac_W"; B b "frac_P"; B b "frac_work"]) bs)
    ([V "W_out"; V "power"; V "trq"] ++ flat_map (fun b => [B b "stat:W"; B b "Pt"; B b "ht"]) bs)
    (bp_compute bs)
    ([([V "W_out"], [V "W_in"], 0);
      ([V "power"], [V "W_in"; V "ht_in"; V "ht_out"], 0);
      ([V "trq"], [V "W_in"; V "ht_in"; V "ht_out"; V "Nmech"], 0)] ++
     flat_map (fun b =>
      [([V "W_out"], [B b "frac_W"], 0);
       ([V "power"], [B b "frac_W"; B b "frac_work"], 0);
       ([B b "stat:W"], [V "W_in"; B b "frac_W"], 0);
       ([B b "Pt"], [V "Pt_in"; B b "frac_P"; V "Pt_out"], 0);
       ([B b "ht"], [V "ht_in"; B b "frac_work"; V "ht_out"], 0);
       ([V "trq"], [B b "frac_W"; B b "frac_work"], 0)]) bs)
    (bp_partials bs).

(* compressor.py:305-307 *)
Definition er_compute (e old : env) : env :=
  let inlet_ht := e (V "inlet_ht") in
  upd old (V "ht_out") ((e (V "ideal_ht") - inlet_ht) / e (V "eff") + inlet_ht).
(* compressor.py:309-315 *)
Definition er_partials (e : env) (J : jac) : jac :=
  let eff := e (V "eff") in
  let J := jset J (V "ht_out") (V "ideal_ht") (1 / eff) in
  let J := jset J (V "ht_out") (V "inlet_ht") (1 - 1 / eff) in
  jset J (V "ht_out") (V "eff") (- (e (V "ideal_ht") - e (V "inlet_ht")) * / (eff ^ 2)).
(* compressor.py:290-303 *)
Definition enthalpy_rise : comp :=
  mkComp [V "ideal_ht"; V "inlet_ht"; V "eff"] [V "ht_out"] er_compute
    [([V "ht_out"], [V "ideal_ht"; V "inlet_ht"; V "eff"], 0)] er_partials.

(* compressor.py:331-336 *)
Definition pr_compute (e old : env) : env := upd old (V "Pt_out") (e (V "PR") * e (V "Pt_in")).
Definition pr_partials (e : env) (J : jac) : jac :=
  let J := jset J (V "Pt_out") (V "Pt_in") (e (V "PR")) in
  jset J (V "Pt_out") (V "PR") (e (V "Pt_in")).
(* compressor.py:318-329 *)
Definition pressure_rise : comp :=
  mkComp [V "PR"; V "Pt_in"] [V "Pt_out"] pr_compute [([V "Pt_out"], [V "PR"; V "Pt_in"], 0)] pr_partials.

(* ======== compressor_map.py ======== *)

(* compressor_map.py:26-29 *)
Definition st_compute (e old : env) : env :=
  let o := upd old (V "SMN") ((e (V "Wc_actual") / e (V "Wc_SMN") / (e (V "PR_actual") / e (V "PR_SMN")) - 1) * 100) in
  upd o (V "SMW") ((e (V "PR_SMW") - e (V "PR_actual")) / e (V "PR_actual") * 100).
(* compressor_map.py:31-49 *)
Definition st_partials (e : env) (J : jac) : jac :=
  let PR_actual := e (V "PR_actual") in let PR_SMN := e (V "PR_SMN") in let PR_SMW := e (V "PR_SMW") in
  let Wc_actual := e (V "Wc_actual") in let Wc_SMN := e (V "Wc_SMN") in
  let wc_ratio := 100 * Wc_actual / Wc_SMN in
  let J := jset J (V "SMN") (V "PR_SMN") (wc_ratio / PR_actual) in
  let J := jset J (V "SMN") (V "PR_actual") (- wc_ratio * PR_SMN / PR_actual ^ 2) in
  let PR_ratio := 100 * PR_SMN / PR_actual in
  let J := jset J (V "SMN") (V "Wc_SMN") (- Wc_actual / Wc_SMN ^ 2 * PR_ratio) in
  let J := jset J (V "SMN") (V "Wc_actual") (PR_ratio / Wc_SMN) in
  let J := jset J (V "SMW") (V "PR_SMW") (100 / PR_actual) in
  jset J (V "SMW") (V "PR_actual") (- 100 * PR_SMW / PR_actual ^ 2).
(* compressor_map.py:8-24 *)
Definition stall_calcs : comp :=
  mkComp [V "PR_SMN"; V "PR_SMW"; V "PR_actual"; V "Wc_SMN"; V "Wc_actual"] [V "SMN"; V "SMW"] st_compute
    [([V "SMN"], [V "PR_SMN"; V "PR_actual"; V "Wc_SMN"; V "Wc_actual"], 0);
     ([V "SMW"], [V "PR_SMW"; V "PR_actual"], 0)] st_partials.

(* compressor_map.py:89-93 *)
Definition cms_compute (e old : env) : env :=
  let o := upd old (V "s_Nc") (e (V "Nc") / e (V "NcMap")) in
  let o := upd o (V "s_PR") ((e (V "PR") - 1) / (e (V "PRmap") - 1)) in
  let o := upd o (V "s_eff") (e (V "eff") / e (V "effMap")) in
  upd o (V "s_Wc") (e (V "Wc") / e (V "WcMap")).
(* compressor_map.py:95-103 *)
Definition cms_partials (e : env) (J : jac) : jac :=
  let J := jset J (V "s_Nc") (V "Nc") (1 / e (V "NcMap")) in
  let J := jset J (V "s_Nc") (V "NcMap") (- e (V "Nc") / e (V "NcMap") ^ 2) in
  let J := jset J (V "s_PR") (V "PR") (1 / (e (V "PRmap") - 1)) in
  let J := jset J (V "s_PR") (V "PRmap") (- (e (V "PR") - 1) / (e (V "PRmap") - 1) ^ 2) in
  let J := jset J (V "s_eff") (V "eff") (1 / e (V "effMap")) in
  let J := jset J (V "s_eff") (V "effMap") (- e (V "eff") * / (e (V "effMap") ^ 2)) in
  let J := jset J (V "s_Wc") (V "Wc") (1 / e (V "WcMap")) in
  jset J (V "s_Wc") (V "WcMap") (- e (V "Wc") * / (e (V "WcMap") ^ 2)).
(* compressor_map.py:56-87 *)
Definition c_map_scalars : comp :=
  mkComp [V "Nc"; V "NcMap"; V "PR"; V "PRmap"; V "eff"; V "effMap"; V "Wc"; V "WcMap"]
    [V "s_Nc"; V "s_PR"; V "s_eff"; V "s_Wc"] cms_compute
    [([V "s_Nc"], [V "Nc"; V "NcMap"], 0); ([V "s_PR"], [V "PR"; V "PRmap"], 0);
     ([V "s_eff"], [V "eff"; V "effMap"], 0); ([V "s_Wc"], [V "Wc"; V "WcMap"], 0)] cms_partials.

(* compressor_map.py:140-144 *)
Definition csm_compute (e old : env) : env :=
  let o := upd old (V "PR") ((e (V "PRmap") - 1) * e (V "s_PR") + 1) in
  let o := upd o (V "eff") (e (V "effMap") * e (V "s_eff")) in
  let o := upd o (V "Wc") (e (V "WcMap") * e (V "s_Wc")) in
  upd o (V "Nc") (e (V "NcMap") * e (V "s_Nc")).
(* compressor_map.py:146-154 *)
Definition csm_partials (e : env) (J : jac) : jac :=
  let J := jset J (V "PR") (V "PRmap") (e (V "s_PR")) in
  let J := jset J (V "PR") (V "s_PR") (e (V "PRmap") - 1) in
  let J := jset J (V "eff") (V "effMap") (e (V "s_eff")) in
  let J := jset J (V "eff") (V "s_eff") (e (V "effMap")) in
  let J := jset J (V "Wc") (V "WcMap") (e (V "s_Wc")) in
  let J := jset J (V "Wc") (V "s_Wc") (e (V "WcMap")) in
  let J := jset J (V "Nc") (V "NcMap") (e (V "s_Nc")) in
  jset J (V "Nc") (V "s_Nc") (e (V "NcMap")).
(* compressor_map.py:106-138 *)
Definition c_scaled_map : comp :=
  mkComp [V "effMap"; V "PRmap"; V "WcMap"; V "NcMap"; V "s_PR"; V "s_eff"; V "s_Wc"; V "s_Nc"]
    [V "PR"; V "eff"; V "Wc"; V "Nc"] csm_compute
    [([V "PR"], [V "PRmap"; V "s_PR"], 0); ([V "eff"], [V "effMap"; V "s_eff"], 0);
     ([V "Wc"], [V "WcMap"; V "s_Wc"], 0); ([V "Nc"], [V "NcMap"; V "s_Nc"], 0)] csm_partials.

(* ======== turbine.py ======== *)

(* turbine.py:38-45; the FloatingPointError branch only raises *)
Definition tci_compute (e old : env) : env :=
  let o := upd old (V "Wp") (e (V "W_in") * rpow (e (V "Tt")) (1 / 2) / e (V "Pt")) in
  upd o (V "Np") (e (V "Nmech") * rpow (e (V "Tt")) (- (1 / 2))).
(* turbine.py:47-57 *)
Definition tci_partials (e : env) (J : jac) : jac :=
  let W_in := e (V "W_in") in let Tt := e (V "Tt") in let Pt := e (V "Pt") in
  let J := jset J (V "Wp") (V "Tt") (1 / 2 * W_in / Pt * rpow Tt (- (1 / 2))) in
  let J := jset J (V "Wp") (V "Pt") (- W_in * rpow Tt (1 / 2) * rpow Pt (- 2)) in
  let J := jset J (V "Wp") (V "W_in") (rpow Tt (1 / 2) / Pt) in
  let J := jset J (V "Np") (V "Nmech") (rpow Tt (- (1 / 2))) in
  jset J (V "Np") (V "Tt") (- (1 / 2) * e (V "Nmech") * rpow Tt (- (3 / 2))).
(* turbine.py:19-36 *)
Definition t_corrected_inputs : comp :=
  mkComp [V "Tt"; V "Pt"; V "W_in"; V "Nmech"] [V "Wp"; V "Np"] tci_compute
    [([V "Wp"], [V "Tt"; V "Pt"; V "W_in"], 0); ([V "Np"], [V "Nmech"; V "Tt"], 0)] tci_partials.

(* turbine.py:81-92 *)
Definition tep_compute (e old : env) : env :=
  let PR := e (V "PR") in let S_in := e (V "S_in") in let S_out := e (V "S_out") in let Rt := e (V "Rt") in
  let invPR := 1 / PR in
  upd old (V "eff_poly") (1 + (S_out - S_in) / (Rt * ln invPR)).
(* turbine.py:94-114 *)
Definition tep_partials (e : env) (J : jac) : jac :=
  let PR := e (V "PR") in let S_in := e (V "S_in") in let S_out := e (V "S_out") in let Rt := e (V "Rt") in
  let log_PR := ln (1 / PR) in
  let J := jset J (V "eff_poly") (V "PR") (- (S_in - S_out) / (PR * Rt * log_PR ^ 2)) in
  let J := jset J (V "eff_poly") (V "S_in") (-1 / (Rt * log_PR)) in
  let J := jset J (V "eff_poly") (V "S_out") (1 / (Rt * log_PR)) in
  jset J (V "eff_poly") (V "Rt") (- (S_out - S_in) / (Rt ^ 2 * log_PR)).
(* turbine.py:60-79 *)
Definition t_eff_poly : comp :=
  mkComp [V "PR"; V "S_in"; V "S_out"; V "Rt"] [V "eff_poly"] tep_compute
    [([V "eff_poly"], [V "PR"; V "S_in"; V "S_out"; V "Rt"], 0)] tep_partials.

(* turbine.py:132-138 *)
Definition pd_compute (e old : env) : env := upd old (V "Pt_out") (e (V "Pt_in") / e (V "PR")).
Definition pd_partials (e : env) (J : jac) : jac :=
  let J := jset J (V "Pt_out") (V "PR") (- e (V "Pt_in") * / (e (V "PR") ^ 2)) in
  jset J (V "Pt_out") (V "Pt_in") (1 / e (V "PR")).
(* turbine.py:117-130 *)
Definition pressure_drop : comp :=
  mkComp [V "PR"; V "Pt_in"] [V "Pt_out"] pd_compute [([V "Pt_out"], [V "Pt_in"; V "PR"], 0)] pd_partials.

(* turbine.py:158-165 *)
Definition ed_compute (e old : env) : env :=
  upd old (V "ht_out") (e (V "ht_in") - (e (V "ht_in") - e (V "ht_out_ideal")) * e (V "eff")).
Definition ed_partials (e : env) (J : jac) : jac :=
  let J := jset J (V "ht_out") (V "ht_in") (1 - e (V "eff")) in
  let J := jset J (V "ht_out") (V "ht_out_ideal") (e (V "eff")) in
  jset J (V "ht_out") (V "eff") (- e (V "ht_in") + e (V "ht_out_ideal")).
(* turbine.py:141-156 *)
Definition enthalpy_drop : comp :=
  mkComp [V "ht_in"; V "ht_out_ideal"; V "eff"] [V "ht_out"] ed_compute
    [([V "ht_out"], [V "ht_in"; V "ht_out_ideal"; V "eff"], 0)] ed_partials.

(* turbine.py:201-210 *)
Definition blp_compute (bs : list string) (e old : env) : env :=
  let Pt_out := e (V "Pt_out") in
  let delta_Pt := e (V "Pt_in") - Pt_out in
  fold_left (fun o b => upd o (B b "Pt") (Pt_out + e (B b "frac_P") * delta_Pt)) bs old.
(* turbine.py:212-229 *)
Definition blp_partials (bs : list string) (e : env) (J : jac) : jac :=
  let Pt_in := e (V "Pt_in") in let Pt_out := e (V "Pt_out") in
  fold_left (fun J b =>
    let J := jset J (B b "Pt") (V "Pt_in") (e (B b "frac_P")) in
    let J := jset J (B b "Pt") (V "Pt_out") (1 - e (B b "frac_P")) in
    jset J (B b "Pt") (B b "frac_P") (Pt_in - Pt_out)) bs J.
(* turbine.py:176-199; the input '{BN}:W' is declared and unused *)
Definition bleed_pressure (bs : list string) : comp :=
  mkComp ([V "Pt_in"; V "Pt_out"] ++ flat_map (fun b => [B b "frac_P"; B b "W"]) bs)
    (flat_map (fun b => [B b "Pt"]) bs) (blp_compute bs)
    (flat_map (fun b => [([B b "Pt"], [V "Pt_in"; V "Pt_out"; B b "frac_P"], 0)]) bs)
    (blp_partials bs).

(* turbine.py:281-308; the locals ht_out and power are named variables *)
Definition ep_step (e : env) (l : env) (b : string) : env :=
  let W_out := e (V "W_out") in let eff := e (V "eff") in
  let W := e (B b "W") in let ht := e (B b "ht") in let ht_ideal := e (B b "ht_ideal") in
  let l := upd l (V "ht_out") (l (V "ht_out") + W / W_out * (ht * (1 - eff) + ht_ideal * eff)) in
  upd l (V "power") (l (V "power") + W * eff * (ht - ht_ideal) * BTU_s2HP).
Definition ep_compute (bs : list string) (e old : env) : env :=
  let W_out := e (V "W_out") in let W_in := e (V "W_in") in let eff := e (V "eff") in
  let ht_out_ideal := e (V "ht_out_ideal") in let ht_in := e (V "ht_in") in
  let ht_out_b4bld := ht_in * (1 - eff) + ht_out_ideal * eff in
  let l := upd (fun _ => 0) (V "ht_out") (W_in / W_out * ht_out_b4bld) in
  let l := upd l (V "power") (W_in * eff * (ht_in - ht_out_ideal) * BTU_s2HP) in
  let l := fold_left (ep_step e) bs l in
  let o := upd old (V "power") (l (V "power")) in
  let o := upd o (V "ht_out_b4bld") ht_out_b4bld in
  let o := upd o (V "ht_out") (l (V "ht_out")) in
  upd o (V "trq") (l (V "power") / e (V "Nmech") * HP_per_RPM_to_FT_LBF).
(* turbine.py:310-366 *)
Definition ep_pstep (e : env) (s : jac * env) (b : string) : jac * env :=
  let (J, l) := s in
  let W_out := e (V "W_out") in let eff := e (V "eff") in let Nmech := e (V "Nmech") in
  let W := e (B b "W") in let ht := e (B b "ht") in let ht_ideal := e (B b "ht_ideal") in
  let J := jset J (V "ht_out") (B b "W") ((ht * (1 - eff) + ht_ideal * eff) / W_out) in
  let l := upd l (V "dht_out_dW_out") (l (V "dht_out_dW_out") + - W / W_out ^ 2 * (ht * (1 - eff) + ht_ideal * eff)) in
  let J := jset J (V "ht_out") (B b "ht") (W / W_out * (1 - eff)) in
  let J := jset J (V "ht_out") (B b "ht_ideal") (W / W_out * eff) in
  let l := upd l (V "dht_out_deff") (l (V "dht_out_deff") + W / W_out * (ht_ideal - ht)) in
  let J := jset J (V "power") (B b "W") (eff * (ht - ht_ideal) * BTU_s2HP) in
  let J := jset J (V "power") (B b "ht") (W * eff * BTU_s2HP) in
  let J := jset J (V "power") (B b "ht_ideal") (- W * eff * BTU_s2HP) in
  let l := upd l (V "dpower_deff") (l (V "dpower_deff") + W * (ht - ht_ideal) * BTU_s2HP) in
  let J := jset J (V "trq") (B b "W") (eff * (ht - ht_ideal) / Nmech * BTU_s2HP * HP_per_RPM_to_FT_LBF) in
  let J := jset J (V "trq") (B b "ht") (W * eff / Nmech * BTU_s2HP * HP_per_RPM_to_FT_LBF) in
  let J := jset J (V "trq") (B b "ht_ideal") (- W * eff / Nmech * BTU_s2HP * HP_per_RPM_to_FT_LBF) in
  let l := upd l (V "dtrq_deff") (l (V "dtrq_deff") + W * (ht - ht_ideal) / Nmech * BTU_s2HP * HP_per_RPM_to_FT_LBF) in
  let l := upd l (V "dtrq_dNmech") (l (V "dtrq_dNmech") + - W * eff * (ht - ht_ideal) / Nmech ^ 2 * BTU_s2HP * HP_per_RPM_to_FT_LBF) in
  (J, l).
Definition ep_partials (bs : list string) (e : env) (J : jac) : jac :=
  let ht_in := e (V "ht_in") in let W_out := e (V "W_out") in let W_in := e (V "W_in") in let eff := e (V "eff") in
  let ht_out_ideal := e (V "ht_out_ideal") in let Nmech := e (V "Nmech") in
  let J := jset J (V "ht_out_b4bld") (V "ht_in") (1 - eff) in
  let J := jset J (V "ht_out_b4bld") (V "ht_out_ideal") eff in
  let J := jset J (V "ht_out_b4bld") (V "eff") (ht_out_ideal - ht_in) in
  let J := jset J (V "ht_out") (V "W_in") ((ht_in * (1 - eff) + ht_out_ideal * eff) / W_out) in
  let l := upd (fun _ => 0) (V "dht_out_dW_out") (- W_in / W_out ^ 2 * (ht_in * (1 - eff) + ht_out_ideal * eff)) in
  let J := jset J (V "ht_out") (V "ht_in") (W_in / W_out * (1 - eff)) in
  let J := jset J (V "ht_out") (V "ht_out_ideal") (W_in / W_out * eff) in
  let l := upd l (V "dht_out_deff") (W_in / W_out * (ht_out_ideal - ht_in)) in
  let J := jset J (V "power") (V "W_in") ((ht_in - ht_out_ideal) * eff * BTU_s2HP) in
  let J := jset J (V "power") (V "ht_in") (W_in * eff * BTU_s2HP) in
  let J := jset J (V "power") (V "ht_out_ideal") (- W_in * eff * BTU_s2HP) in
  let l := upd l (V "dpower_deff") (W_in * (ht_in - ht_out_ideal) * BTU_s2HP) in
  let J := jset J (V "trq") (V "W_in") ((ht_in - ht_out_ideal) * eff / Nmech * BTU_s2HP * HP_per_RPM_to_FT_LBF) in
  let J := jset J (V "trq") (V "ht_in") (W_in * eff / Nmech * BTU_s2HP * HP_per_RPM_to_FT_LBF) in
  let J := jset J (V "trq") (V "ht_out_ideal") (- W_in * eff / Nmech * BTU_s2HP * HP_per_RPM_to_FT_LBF) in
  let l := upd l (V "dtrq_deff") (W_in * (ht_in - ht_out_ideal) / Nmech * BTU_s2HP * HP_per_RPM_to_FT_LBF) in
  let l := upd l (V "dtrq_dNmech") (- W_in * eff * (ht_in - ht_out_ideal) / Nmech ^ 2 * BTU_s2HP * HP_per_RPM_to_FT_LBF) in
  let s := fold_left (ep_pstep e) bs (J, l) in
  let J := fst s in let l := snd s in
  let J := jset J (V "ht_out") (V "W_out") (l (V "dht_out_dW_out")) in
  let J := jset J (V "ht_out") (V "eff") (l (V "dht_out_deff")) in
  let J := jset J (V "power") (V "eff") (l (V "dpower_deff")) in
  let J := jset J (V "trq") (V "eff") (l (V "dtrq_deff")) in
  jset J (V "trq") (V "Nmech") (l (V "dtrq_dNmech")).
(* turbine.py:239-279 *)
Definition enthalpy_and_power (bs : list string) : comp :=
  mkComp ([V "W_in"; V "W_out"; V "ht_in"; V "ht_out_ideal"; V "eff"; V "Nmech"] ++
          flat_map (fun b => [B b "W"; B b "ht"; B b "ht_ideal"]) bs)
    [V "ht_out_b4bld"; V "ht_out"; V "power"; V "trq"]
    (ep_compute bs)
    (flat_map (fun b => [([V "ht_out"; V "power"; V "trq"], [B b "W"; B b "ht"; B b "ht_ideal"], 0)]) bs ++
     [([V "ht_out_b4bld"], [V "ht_in"; V "ht_out_ideal"; V "eff"], 0);
      ([V "ht_out"], [V "W_in"; V "W_out"; V "ht_in"; V "ht_out_ideal"; V "eff"], 0);
      ([V "power"], [V "W_in"; V "ht_in"; V "ht_out_ideal"; V "eff"], 0);
      ([V "trq"], [V "W_in"; V "ht_in"; V "ht_out_ideal"; V "eff"; V "Nmech"], 0)])
    (ep_partials bs).

(* ======== turbine_map.py ======== *)

(* turbine_map.py:39-43 *)
Definition tms_compute (e old : env) : env :=
  let o := upd old (V "s_Np") (e (V "Np") / e (V "NpMap")) in
  let o := upd o (V "s_PR") ((e (V "PR") - 1) / (e (V "PRmap") - 1)) in
  let o := upd o (V "s_eff") (e (V "eff") / e (V "effMap")) in
  upd o (V "s_Wp") (e (V "Wp") / e (V "WpMap")).
(* turbine_map.py:45-53 *)
Definition tms_partials (e : env) (J : jac) : jac :=
  let J := jset J (V "s_eff") (V "eff") (1 / e (V "effMap")) in
  let J := jset J (V "s_eff") (V "effMap") (- e (V "eff") / e (V "effMap") ^ 2) in
  let J := jset J (V "s_Np") (V "Np") (1 / e (V "NpMap")) in
  let J := jset J (V "s_Np") (V "NpMap") (- e (V "Np") / e (V "NpMap") ^ 2) in
  let J := jset J (V "s_PR") (V "PR") (1 / (e (V "PRmap") - 1)) in
  let J := jset J (V "s_PR") (V "PRmap") ((1 - e (V "PR")) / (e (V "PRmap") - 1) ^ 2) in
  let J := jset J (V "s_Wp") (V "Wp") (1 / e (V "WpMap")) in
  jset J (V "s_Wp") (V "WpMap") (- e (V "Wp") / e (V "WpMap") ^ 2).
(* turbine_map.py:9-37 *)
Definition t_map_scalars : comp :=
  mkComp [V "eff"; V "Np"; V "PR"; V "Wp"; V "effMap"; V "NpMap"; V "PRmap"; V "WpMap"]
    [V "s_eff"; V "s_Np"; V "s_PR"; V "s_Wp"] tms_compute
    [([V "s_eff"], [V "eff"; V "effMap"], 0); ([V "s_Np"], [V "Np"; V "NpMap"], 0);
     ([V "s_PR"], [V "PR"; V "PRmap"], 0); ([V "s_Wp"], [V "Wp"; V "WpMap"], 0)] tms_partials.

(* turbine_map.py:84-88 *)
Definition tsm_compute (e old : env) : env :=
  let o := upd old (V "eff") (e (V "effMap") * e (V "s_eff")) in
  let o := upd o (V "Np") (e (V "NpMap") * e (V "s_Np")) in
  let o := upd o (V "PR") ((e (V "PRmap") - 1) * e (V "s_PR") + 1) in
  upd o (V "Wp") (e (V "WpMap") * e (V "s_Wp")).
(* turbine_map.py:90-98 *)
Definition tsm_partials (e : env) (J : jac) : jac :=
  let J := jset J (V "eff") (V "effMap") (e (V "s_eff")) in
  let J := jset J (V "eff") (V "s_eff") (e (V "effMap")) in
  let J := jset J (V "Np") (V "NpMap") (e (V "s_Np")) in
  let J := jset J (V "Np") (V "s_Np") (e (V "NpMap")) in
  let J := jset J (V "PR") (V "PRmap") (e (V "s_PR")) in
  let J := jset J (V "PR") (V "s_PR") (e (V "PRmap") - 1) in
  let J := jset J (V "Wp") (V "WpMap") (e (V "s_Wp")) in
  jset J (V "Wp") (V "s_Wp") (e (V "WpMap")).
(* turbine_map.py:55-82 *)
Definition t_scaled_map : comp :=
  mkComp [V "effMap"; V "NpMap"; V "PRmap"; V "WpMap"; V "s_eff"; V "s_Np"; V "s_PR"; V "s_Wp"]
    [V "eff"; V "Np"; V "PR"; V "Wp"] tsm_compute
    [([V "eff"], [V "effMap"; V "s_eff"], 0); ([V "Np"], [V "NpMap"; V "s_Np"], 0);
     ([V "PR"], [V "PRmap"; V "s_PR"], 0); ([V "Wp"], [V "WpMap"; V "s_Wp"], 0)] tsm_partials.
