(* Model of pycycle/elements/nozzle.py: PR_bal, PressureCalcs, PerformanceCalcs, Mux. *)
From Verif Require Export Spec_Comp.
Open Scope string_scope. Open Scope list_scope. Open Scope R_scope.

(* constants.py:62 g_c *)
Definition g_c : R := 32174 / 1000.

(* nozzle.py:29-33; implicit, the environment holds the inputs and the state PR *)
Definition prb_resid (e old : env) : env := upd old (V "PR") (e (V "Ps_exhaust") - e (V "Ps_calc")).
Definition prb_linearize (e : env) (J : jac) : jac := J.
(* nozzle.py:20-27 *)
Definition pr_bal : comp :=
  mkComp [V "Ps_exhaust"; V "Ps_calc"; V "PR"] [V "PR"] prb_resid
    [([V "PR"], [V "Ps_exhaust"], 1); ([V "PR"], [V "Ps_calc"], -1)] prb_linearize.

(* nozzle.py:53-55 *)
Definition pc_compute (e old : env) : env :=
  let o := upd old (V "Pt_th") (e (V "Pt_in") * (1 - e (V "dPqP"))) in
  upd o (V "Ps_calc") (o (V "Pt_th") / e (V "PR")).
(* nozzle.py:57-62 *)
Definition pc_partials (e : env) (J : jac) : jac :=
  let J := jset J (V "Pt_th") (V "Pt_in") (1 - e (V "dPqP")) in
  let J := jset J (V "Pt_th") (V "dPqP") (- e (V "Pt_in")) in
  let J := jset J (V "Ps_calc") (V "Pt_in") ((1 - e (V "dPqP")) / e (V "PR")) in
  let J := jset J (V "Ps_calc") (V "PR") (- e (V "Pt_in") * (1 - e (V "dPqP")) * / (e (V "PR") ^ 2)) in
  jset J (V "Ps_calc") (V "dPqP") (- e (V "Pt_in") / e (V "PR")).
(* nozzle.py:36-51 *)
Definition pressure_calcs : comp :=
  mkComp [V "Pt_in"; V "PR"; V "dPqP"] [V "Pt_th"; V "Ps_calc"] pc_compute
    [([V "Pt_th"], [V "Pt_in"; V "dPqP"], 0); ([V "Ps_calc"], [V "Pt_in"; V "PR"; V "dPqP"], 0)] pc_partials.

Inductive loss_coef := Cfg | Cv.
(* nozzle.py:75-78: None is the ValueError *)
Definition loss_coef_of (s : string) : option loss_coef :=
  if string_dec s "Cfg" then Some Cfg else if string_dec s "Cv" then Some Cv else None.
(* nozzle.py:108-119 *)
Definition pf_compute (lc : loss_coef) (e old : env) : env :=
  let o := upd old (V "Fg_ideal") (e (V "W_in") / g_c * e (V "V_ideal")) in
  match lc with
  | Cfg => upd o (V "Fg") (o (V "Fg_ideal") * e (V "Cfg"))
  | Cv => upd o (V "Fg") (e (V "W_in") / g_c * e (V "V_actual") * e (V "Cv") * e (V "Cang") * e (V "CmixCorr") +
                          (e (V "Ps_actual") - e (V "Ps_calc")) * e (V "A_actual"))
  end.
(* nozzle.py:121-140 *)
Definition pf_partials (lc : loss_coef) (e : env) (J : jac) : jac :=
  let J := jset J (V "Fg_ideal") (V "W_in") (1 / g_c * e (V "V_ideal")) in
  let J := jset J (V "Fg_ideal") (V "V_ideal") (e (V "W_in") / g_c) in
  match lc with
  | Cfg =>
    let J := jset J (V "Fg") (V "W_in") (1 / g_c * e (V "V_ideal") * e (V "Cfg")) in
    let J := jset J (V "Fg") (V "V_ideal") (e (V "W_in") / g_c * e (V "Cfg")) in
    jset J (V "Fg") (V "Cfg") (e (V "W_in") / g_c * e (V "V_ideal"))
  | Cv =>
    let J := jset J (V "Fg") (V "W_in") (1 / g_c * e (V "V_actual") * e (V "Cv") * e (V "Cang") * e (V "CmixCorr")) in
    let J := jset J (V "Fg") (V "V_actual") (e (V "W_in") / g_c * e (V "Cv") * e (V "Cang") * e (V "CmixCorr")) in
    let J := jset J (V "Fg") (V "Cv") (e (V "W_in") / g_c * e (V "V_actual") * e (V "Cang") * e (V "CmixCorr")) in
    let J := jset J (V "Fg") (V "Cang") (e (V "W_in") / g_c * e (V "V_actual") * e (V "Cv") * e (V "CmixCorr")) in
    let J := jset J (V "Fg") (V "CmixCorr") (e (V "W_in") / g_c * e (V "V_actual") * e (V "Cv") * e (V "Cang")) in
    let J := jset J (V "Fg") (V "Ps_actual") (e (V "A_actual")) in
    let J := jset J (V "Fg") (V "Ps_calc") (- e (V "A_actual")) in
    jset J (V "Fg") (V "A_actual") (e (V "Ps_actual") - e (V "Ps_calc"))
  end.
(* nozzle.py:80-106 *)
Definition nozzle_perf (lc : loss_coef) : comp :=
  mkComp ([V "W_in"; V "Ps_calc"; V "V_ideal"] ++
          match lc with Cfg => [V "Cfg"]
          | Cv => [V "Cv"; V "Cang"; V "CmixCorr"; V "V_actual"; V "A_actual"; V "Ps_actual"] end)
    [V "Fg_ideal"; V "Fg"] (pf_compute lc)
    (([V "Fg_ideal"], [V "W_in"; V "V_ideal"], 0) ::
     match lc with
     | Cfg => [([V "Fg"], [V "W_in"; V "V_ideal"; V "Ps_calc"; V "Cfg"], 0)]
     | Cv => [([V "Fg"], [V "W_in"; V "V_actual"; V "Cv"; V "Cang"; V "CmixCorr"; V "Ps_actual"; V "Ps_calc"; V "A_actual"], 0)]
     end)
    (pf_partials lc).

Inductive nozz := CV | CD | CD_CV.
(* nozzle.py:159-161: None is the ValueError *)
Definition nozz_of (s : string) : option nozz :=
  if string_dec s "CV" then Some CV else if string_dec s "CD" then Some CD
  else if string_dec s "CD_CV" then Some CD_CV else None.
(* nozzle.py:201 *)
Definition flow_out : list string := ["h"; "T"; "P"; "rho"; "gamma"; "Cp"; "Cv"; "V"; "Vsonic"; "MN"; "area"; "W"].
(* '{prefix}:stat:{p}' *)
Definition stat (prefix p : string) : var := B prefix ("stat:" ++ p).
(* nozzle.py:223-226, 242-245, 262-267 *)
Definition mux_prefix (e : env) : string :=
  if Rlt_dec (e (V "Ps_calc")) (e (B "MN" "P")) then "MN" else "Ps".
Definition mux_other (e : env) : string :=
  if Rlt_dec (e (V "Ps_calc")) (e (B "MN" "P")) then "Ps" else "MN".
(* nozzle.py:217-252; fl = options['fl_out_name'] *)
Definition mux_compute (nt : nozz) (fl : string) (e old : env) : env :=
  let o := match nt with
    | CV => fold_left (fun o p => let o := upd o (stat "Throat" p) (e (B (mux_prefix e) p)) in
                                  upd o (stat fl p) (e (B (mux_prefix e) p))) flow_out old
    | CD => fold_left (fun o p => let o := upd o (stat "Throat" p) (e (B "MN" p)) in
                                  upd o (stat fl p) (e (B "Ps" p))) flow_out old
    | CD_CV => fold_left (fun o p => let o := upd o (stat "Throat" p) (e (B (mux_prefix e) p)) in
                                  upd o (stat fl p) (e (B "Ps" p))) flow_out old
    end in
  let o := upd o (stat "Throat" "S") (e (V "S")) in
  upd o (stat fl "S") (e (V "S")).
(* nozzle.py:254-300 *)
Definition mux_partials (nt : nozz) (fl : string) (e : env) (J : jac) : jac :=
  let J := match nt with
    | CV => fold_left (fun J p =>
        let J := jset J (stat "Throat" p) (B (mux_prefix e) p) 1 in
        let J := jset J (stat fl p) (B (mux_prefix e) p) 1 in
        let J := jset J (stat "Throat" p) (B (mux_other e) p) 0 in
        jset J (stat fl p) (B (mux_other e) p) 0) flow_out J
    | CD => fold_left (fun J p =>
        let J := jset J (stat "Throat" p) (B "MN" p) 1 in
        jset J (stat fl p) (B "Ps" p) 1) flow_out J
    | CD_CV => fold_left (fun J p =>
        let J := jset J (stat "Throat" p) (B (mux_prefix e) p) 1 in
        let J := jset J (stat fl p) (B "Ps" p) 1 in
        jset J (stat "Throat" p) (B (mux_other e) p) 0) flow_out J
    end in
  let J := jset J (stat "Throat" "S") (V "S") 1 in
  jset J (stat fl "S") (V "S") 1.
(* nozzle.py:163-215; patterns '*:stat:h' and '*:h' written out *)
Definition mux (nt : nozz) (fl : string) : comp :=
  mkComp ([V "Ps_calc"; V "S"] ++ flat_map (fun p => [B "Ps" p; B "MN" p]) flow_out)
    ([V "choked"; stat "Throat" "S"; stat fl "S"] ++ flat_map (fun p => [stat "Throat" p; stat fl p]) flow_out)
    (mux_compute nt fl)
    (([stat "Throat" "S"; stat fl "S"], [V "S"], 0) ::
     flat_map (fun p => [([stat "Throat" p; stat fl p], [B "Ps" p; B "MN" p], 0)]) flow_out)
    (mux_partials nt fl).
