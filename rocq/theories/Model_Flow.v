(* Model of the scalar components of pycycle/elements/{inlet,mixer,duct,ambient}.py. *)
From Verif Require Export Spec_Comp.
Open Scope string_scope. Open Scope list_scope. Open Scope R_scope.

Definition g_c : R := 32174 / 1000.                                  (* constants.py:61 *)

(* inlet.py:31-43; x**1.35 with real exponent *)
Definition ms_compute (e old : env) : env :=
  let MN := e (V "MN") in
  let base := e (V "ram_recovery_base") in
  if Rlt_dec MN 1 then upd old (V "ram_recovery") base
  else if Rlt_dec MN 5 then upd old (V "ram_recovery") (base * (1 - (75 / 1000) * rpow (MN - 1) (135 / 100)))
  else upd old (V "ram_recovery") (800 / (MN ^ 4 + 935)).
(* inlet.py:45-60 *)
Definition ms_partials (e : env) (J : jac) : jac :=
  let MN := e (V "MN") in
  let base := e (V "ram_recovery_base") in
  if Rlt_dec MN 1 then
    jset (jset J (V "ram_recovery") (V "ram_recovery_base") 1) (V "ram_recovery") (V "MN") 0
  else if Rlt_dec MN 5 then
    jset (jset J (V "ram_recovery") (V "ram_recovery_base") (1 - (75 / 1000) * rpow (MN - 1) (135 / 100)))
      (V "ram_recovery") (V "MN") (- (10125 / 100000) * base * rpow (MN - 1) (35 / 100))
  else
    jset (jset J (V "ram_recovery") (V "ram_recovery_base") 0) (V "ram_recovery") (V "MN")
      (- (3200 * MN ^ 3) / (MN ^ 4 + 935) ^ 2).
(* inlet.py:21-29 *)
Definition milspec : comp :=
  mkComp [V "MN"; V "ram_recovery_base"] [V "ram_recovery"] ms_compute
    [([V "ram_recovery"], [V "ram_recovery_base"; V "MN"], 0)] ms_partials.

(* inlet.py:81-83 *)
Definition inlet_compute (e old : env) : env :=
  let o := upd old (V "Pt_out") (e (V "Pt_in") * e (V "ram_recovery")) in
  upd o (V "F_ram") (e (V "W_in") * e (V "V_in") / g_c).
(* inlet.py:85-89 *)
Definition inlet_partials (e : env) (J : jac) : jac :=
  let J := jset J (V "Pt_out") (V "Pt_in") (e (V "ram_recovery")) in
  let J := jset J (V "Pt_out") (V "ram_recovery") (e (V "Pt_in")) in
  let J := jset J (V "F_ram") (V "V_in") (e (V "W_in") / g_c) in
  jset J (V "F_ram") (V "W_in") (e (V "V_in") / g_c).
(* inlet.py:67-79 *)
Definition inlet_calcs : comp :=
  mkComp [V "Pt_in"; V "ram_recovery"; V "V_in"; V "W_in"] [V "Pt_out"; V "F_ram"] inlet_compute
    [([V "Pt_out"], [V "Pt_in"; V "ram_recovery"], 0); ([V "F_ram"], [V "V_in"; V "W_in"], 0)] inlet_partials.

(* mixer.py:40-43 *)
Definition miximp_compute (e old : env) : env :=
  upd old (V "impulse_mix")
    ((e (V "Fl_I1:stat:P") * e (V "Fl_I1:stat:area") + e (V "Fl_I1:stat:W") * e (V "Fl_I1:stat:V")) +
     (e (V "Fl_I2:stat:P") * e (V "Fl_I2:stat:area") + e (V "Fl_I2:stat:W") * e (V "Fl_I2:stat:V"))).
(* mixer.py:46-56 *)
Definition miximp_partials (e : env) (J : jac) : jac :=
  let J := jset J (V "impulse_mix") (V "Fl_I1:stat:P") (e (V "Fl_I1:stat:area")) in
  let J := jset J (V "impulse_mix") (V "Fl_I1:stat:area") (e (V "Fl_I1:stat:P")) in
  let J := jset J (V "impulse_mix") (V "Fl_I1:stat:W") (e (V "Fl_I1:stat:V")) in
  let J := jset J (V "impulse_mix") (V "Fl_I1:stat:V") (e (V "Fl_I1:stat:W")) in
  let J := jset J (V "impulse_mix") (V "Fl_I2:stat:P") (e (V "Fl_I2:stat:area")) in
  let J := jset J (V "impulse_mix") (V "Fl_I2:stat:area") (e (V "Fl_I2:stat:P")) in
  let J := jset J (V "impulse_mix") (V "Fl_I2:stat:W") (e (V "Fl_I2:stat:V")) in
  jset J (V "impulse_mix") (V "Fl_I2:stat:V") (e (V "Fl_I2:stat:W")).
(* mixer.py:16-35 *)
Definition miximp_ins : list var :=
  [V "Fl_I1:stat:P"; V "Fl_I1:stat:area"; V "Fl_I1:stat:W"; V "Fl_I1:stat:V";
   V "Fl_I2:stat:P"; V "Fl_I2:stat:area"; V "Fl_I2:stat:W"; V "Fl_I2:stat:V"].
Definition mix_impulse : comp :=
  mkComp miximp_ins [V "impulse_mix"] miximp_compute [([V "impulse_mix"], miximp_ins, 0)] miximp_partials.

(* mixer.py:59-72; no compute_partials *)
Definition areasum_compute (e old : env) : env :=
  upd old (V "area_sum") (e (V "Fl_I1:stat:area") + e (V "Fl_I2:stat:area")).
Definition area_sum : comp :=
  mkComp [V "Fl_I1:stat:area"; V "Fl_I2:stat:area"] [V "area_sum"] areasum_compute
    [([V "area_sum"], [V "Fl_I1:stat:area"; V "Fl_I2:stat:area"], 1)] (fun _ J => J).

(* mixer.py:87-96 *)
Definition imp_compute (e old : env) : env :=
  upd old (V "impulse") (e (V "P") * e (V "area") + e (V "W") * e (V "V")).
Definition imp_partials (e : env) (J : jac) : jac :=
  let J := jset J (V "impulse") (V "P") (e (V "area")) in
  let J := jset J (V "impulse") (V "area") (e (V "P")) in
  let J := jset J (V "impulse") (V "V") (e (V "W")) in
  jset J (V "impulse") (V "W") (e (V "V")).
(* mixer.py:77-85 *)
Definition impulse : comp :=
  mkComp [V "P"; V "area"; V "V"; V "W"] [V "impulse"] imp_compute
    [([V "impulse"], [V "P"; V "area"; V "V"; V "W"], 0)] imp_partials.

(* duct.py:41-48 *)
Definition mpl_compute (design : bool) (expMN : R) (e old : env) : env :=
  if design then upd old (V "s_dPqP") (e (V "dPqP") / rpow (e (V "MN_in")) expMN)
  else upd old (V "dPqP") (e (V "s_dPqP") * rpow (e (V "MN_in")) expMN).
(* duct.py:50-59 *)
Definition mpl_partials (design : bool) (expMN : R) (e : env) (J : jac) : jac :=
  if design then
    let J := jset J (V "s_dPqP") (V "dPqP") (1 / rpow (e (V "MN_in")) expMN) in
    jset J (V "s_dPqP") (V "MN_in") (- expMN * e (V "dPqP") * rpow (e (V "MN_in")) (- expMN - 1))
  else
    let J := jset J (V "dPqP") (V "s_dPqP") (rpow (e (V "MN_in")) expMN) in
    jset J (V "dPqP") (V "MN_in") (expMN * e (V "s_dPqP") * rpow (e (V "MN_in")) (expMN - 1)).
(* duct.py:23-39 *)
Definition mach_pressure_loss (design : bool) (expMN : R) : comp :=
  if design then
    mkComp [V "MN_in"; V "dPqP"] [V "s_dPqP"] (mpl_compute true expMN)
      [([V "s_dPqP"], [V "dPqP"; V "MN_in"], 0)] (mpl_partials true expMN)
  else
    mkComp [V "MN_in"; V "s_dPqP"] [V "dPqP"] (mpl_compute false expMN)
      [([V "dPqP"], [V "s_dPqP"; V "MN_in"], 0)] (mpl_partials false expMN).

(* duct.py:77-82 *)
Definition ploss_compute (e old : env) : env := upd old (V "Pt_out") (e (V "Pt_in") * (1 - e (V "dPqP"))).
Definition ploss_partials (e : env) (J : jac) : jac :=
  let J := jset J (V "Pt_out") (V "dPqP") (- e (V "Pt_in")) in
  jset J (V "Pt_out") (V "Pt_in") (1 - e (V "dPqP")).
(* duct.py:66-75 *)
Definition pressure_loss : comp :=
  mkComp [V "dPqP"; V "Pt_in"] [V "Pt_out"] ploss_compute [([V "Pt_out"], [V "dPqP"; V "Pt_in"], 0)] ploss_partials.

(* duct.py:102-108 *)
Definition qcalc_compute (e old : env) : env := upd old (V "ht_out") (e (V "ht_in") + e (V "Q_dot") / e (V "W_in")).
Definition qcalc_partials (e : env) (J : jac) : jac :=
  let J := jset J (V "ht_out") (V "W_in") (- e (V "Q_dot") / e (V "W_in") ^ 2) in
  let J := jset J (V "ht_out") (V "Q_dot") (1 / e (V "W_in")) in
  jset J (V "ht_out") (V "ht_in") 1.
(* duct.py:90-100 *)
Definition qcalc : comp :=
  mkComp [V "W_in"; V "Q_dot"; V "ht_in"] [V "ht_out"] qcalc_compute
    [([V "ht_out"], [V "W_in"; V "Q_dot"; V "ht_in"], 0)] qcalc_partials.

(* ambient.py:8-22 *)
Definition dts_compute (e old : env) : env := upd old (V "Ts") (e (V "Ts_in") + e (V "dTs")).
Definition delta_ts : comp :=
  mkComp [V "Ts_in"; V "dTs"] [V "Ts"] dts_compute [([V "Ts"], [V "Ts_in"; V "dTs"], 1)] (fun _ J => J).
