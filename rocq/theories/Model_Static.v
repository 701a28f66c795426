(* Model of pycycle/thermo/static_ps_calc.py and static_ps_resid.py. x**0.5 and np.sqrt are both modelled by sqrt (they agree
   for x >= 0; a negative radicand gives nan in python and is outside of every statement's domain). *)
From Verif Require Export Spec_Comp.
Open Scope string_scope. Open Scope list_scope. Open Scope R_scope.

(* ---- PsCalc ---- *)
(* static_ps_calc.py:38-43 (and 57-64): the velocity *)
Definition pv_V (e : env) : R :=
  if Rle_dec (e (V "hs")) (e (V "ht")) then sqrt (2 * (e (V "ht") - e (V "hs"))) else sqrt (2 * (e (V "hs") - e (V "ht"))).
Definition pv_Vsonic (e : env) : R := sqrt (e (V "gamma") * e (V "R") * e (V "Ts")).
(* static_ps_calc.py:33-46 compute *)
Definition pv_compute (e old : env) : env :=
  let Vs := pv_Vsonic e in let Vel := pv_V e in
  let o := upd old (V "Vsonic") Vs in
  let o := upd o (V "V") Vel in
  let o := upd o (V "MN") (Vel / Vs) in
  upd o (V "area") (e (V "W") / (e (V "rho") * Vel)).
(* static_ps_calc.py:49-78 compute_partials *)
Definition pv_partials (e : env) (J : jac) : jac :=
  let Vs := pv_Vsonic e in
  let dg := Vs / (2 * e (V "gamma")) in let dR := Vs / (2 * e (V "R")) in let dT := Vs / (2 * e (V "Ts")) in
  let J := jset J (V "Vsonic") (V "gamma") dg in
  let J := jset J (V "Vsonic") (V "R") dR in
  let J := jset J (V "Vsonic") (V "Ts") dT in
  let Vel := pv_V e in
  let dht := if Rle_dec (e (V "hs")) (e (V "ht")) then 1 / Vel else -1 / Vel in
  let dhs := if Rle_dec (e (V "hs")) (e (V "ht")) then -1 / Vel else 1 / Vel in
  let J := jset J (V "V") (V "ht") dht in
  let J := jset J (V "V") (V "hs") dhs in
  let J := jset J (V "MN") (V "ht") (1 / Vs * dht) in
  let J := jset J (V "MN") (V "hs") (1 / Vs * dhs) in
  let J := jset J (V "MN") (V "gamma") (- Vel / Vs ^ 2 * dg) in
  let J := jset J (V "MN") (V "R") (- Vel / Vs ^ 2 * dR) in
  let J := jset J (V "MN") (V "Ts") (- Vel / Vs ^ 2 * dT) in
  let J := jset J (V "area") (V "W") (1 / (e (V "rho") * Vel)) in
  let J := jset J (V "area") (V "rho") (- e (V "W") / (e (V "rho") ^ 2 * Vel)) in
  let J := jset J (V "area") (V "ht") (- e (V "W") / (e (V "rho") * Vel ^ 2) * dht) in
  jset J (V "area") (V "hs") (- e (V "W") / (e (V "rho") * Vel ^ 2) * dhs).
(* static_ps_calc.py:10-31 setup *)
Definition ps_calc : comp :=
  mkComp [V "gamma"; V "R"; V "Ts"; V "ht"; V "hs"; V "W"; V "rho"] [V "MN"; V "V"; V "Vsonic"; V "area"] pv_compute
    [([V "V"], [V "ht"; V "hs"], 0); ([V "Vsonic"], [V "gamma"; V "R"; V "Ts"], 0);
     ([V "MN"], [V "gamma"; V "R"; V "Ts"; V "hs"; V "ht"], 0); ([V "area"], [V "rho"; V "W"; V "hs"; V "ht"], 0)] pv_partials.

(* ---- PsResid, Mach number given ---- *)
Definition tiny : R := / 10 ^ 16.
(* static_ps_resid.py:117-135 _compute_outputs_MN; None stands for area = inf *)
Definition pm_area (e : env) : option R :=
  if Rlt_dec (e (V "MN")) tiny then None else Some (e (V "W") / (e (V "rho") * pv_Vsonic e * e (V "MN"))).
(* static_ps_resid.py:171-204 apply_nonlinear *)
Definition ps_resid_Ps (e : env) (MN : R) : R :=
  (e (V "hs") + MN ^ 2 / 2 * e (V "gamma") * (e (V "Ts") * e (V "R")) - e (V "ht")) / e (V "ht").
Definition pm_resid (e old : env) : env :=
  let MN := e (V "MN") in
  let r := upd old (V "area") (match pm_area e with Some a => a - e (V "area") | None => 0 end) in
  let r := upd r (V "Vsonic") (pv_Vsonic e - e (V "Vsonic")) in
  let r := upd r (V "V") (MN * pv_Vsonic e - e (V "V")) in
  upd r (V "Ps") (ps_resid_Ps e MN).
(* static_ps_resid.py:217-276 linearize, MN branch *)
Definition pm_linearize (e : env) (J : jac) : jac :=
  let gamma := e (V "gamma") in let Ts := e (V "Ts") in let R := e (V "R") in let rho := e (V "rho") in let W := e (V "W") in let ht := e (V "ht") in
  let MN := e (V "MN") in
  let MNq := MN ^ 2 / 2 in
  let RT := R * Ts in
  let ht_calc := e (V "hs") + MNq * gamma * RT in
  let J := jset J (V "Ps") (V "ht") (- ht_calc / ht ^ 2) in
  let J := jset J (V "Ps") (V "hs") (1 / ht) in
  let part := / 2 * / sqrt (gamma * R * Ts) in
  let J := jset J (V "Vsonic") (V "gamma") (part * R * Ts) in
  let J := jset J (V "Vsonic") (V "R") (part * gamma * Ts) in
  let J := jset J (V "Vsonic") (V "Ts") (part * gamma * R) in
  let J := jset J (V "Vsonic") (V "Vsonic") (-1) in
  let Vs := pv_Vsonic e in
  let J := jset J (V "area") (V "area") (-1) in
  let J := jset J (V "Ps") (V "MN") (MN * gamma * RT / ht) in
  let J := jset J (V "Ps") (V "R") (Ts * MNq * gamma / ht) in
  let J := jset J (V "Ps") (V "gamma") (RT * MNq / ht) in
  let J := jset J (V "Ps") (V "Ts") (MNq * gamma * R / ht) in
  if Rle_dec tiny MN then
    let J := jset J (V "area") (V "W") (1 / (rho * Vs * MN)) in
    let J := jset J (V "area") (V "rho") (- W / (Vs * MN * rho ^ 2)) in
    let part2 := - W / (rho * Vs ^ 2 * MN) * (/ 2) * / sqrt (R * gamma * Ts) in
    let J := jset J (V "area") (V "gamma") (part2 * R * Ts) in
    let J := jset J (V "area") (V "R") (part2 * gamma * Ts) in
    let J := jset J (V "area") (V "Ts") (part2 * gamma * R) in
    let J := jset J (V "area") (V "MN") (- W / rho / Vs / MN ^ 2) in
    let J := jset J (V "V") (V "MN") Vs in
    let J := jset J (V "V") (V "Ts") (MN * (part * gamma * R)) in
    let J := jset J (V "V") (V "R") (MN * (part * gamma * Ts)) in
    jset J (V "V") (V "gamma") (MN * (part * R * Ts))
  else J.
Definition ps_base_ins : list var := [V "Ts"; V "ht"; V "hs"; V "R"; V "gamma"; V "W"; V "rho"; V "guess:gamt"; V "guess:Pt"].
(* static_ps_resid.py:15-57 setup *)
Definition ps_base_decls : list decl :=
  [([V "Ps"], [V "ht"; V "hs"], 0); ([V "Vsonic"], [V "gamma"; V "R"; V "Ts"; V "Vsonic"], 0); ([V "V"], [V "V"], -1)].
Definition ps_resid_MN : comp :=
  mkComp (ps_base_ins ++ [V "MN"; V "Ps"; V "V"; V "Vsonic"; V "area"]) [V "Ps"; V "V"; V "Vsonic"; V "area"] pm_resid
    (ps_base_decls ++
     [([V "area"], [V "area"; V "W"; V "rho"; V "gamma"; V "R"; V "Ts"; V "MN"], 0); ([V "Ps"], [V "MN"; V "R"; V "gamma"; V "Ts"], 0);
      ([V "V"], [V "MN"; V "R"; V "gamma"; V "Ts"], 0)]) pm_linearize.
(* static_ps_resid.py:158-169 solve_nonlinear, MN mode: outputs written; the Ps state is left to the outer solver. None = inf *)
Definition pm_solve (e : env) : option R * env := (pm_area e, upd (upd e (V "Vsonic") (pv_Vsonic e)) (V "V") (e (V "MN") * pv_Vsonic e)).

(* ---- PsResid, area given (the value area = inf, MN = 0, is not modelled) ---- *)
(* static_ps_resid.py:137-156 _compute_outputs_area: a zero denominator raises under np.seterr(all='raise') and MN becomes 5 *)
Definition pa_MN (e : env) : R :=
  let d := e (V "rho") * pv_Vsonic e * e (V "area") in if Req_EM_T d 0 then 5 else e (V "W") / d.
Definition pa_resid (e old : env) : env :=
  let MN := pa_MN e in
  let r := upd old (V "MN") (MN - e (V "MN")) in
  let r := upd r (V "Vsonic") (pv_Vsonic e - e (V "Vsonic")) in
  let r := upd r (V "V") (MN * pv_Vsonic e - e (V "V")) in
  upd r (V "Ps") (ps_resid_Ps e MN).
(* static_ps_resid.py:217-244, 278-319 linearize, area branch *)
Definition pa_linearize (e : env) (J : jac) : jac :=
  let gamma := e (V "gamma") in let Ts := e (V "Ts") in let R := e (V "R") in let rho := e (V "rho") in let W := e (V "W") in let ht := e (V "ht") in
  let MNq := e (V "MN") ^ 2 / 2 in                 (* outputs['MN'] *)
  let RT := R * Ts in
  let ht_calc := e (V "hs") + MNq * gamma * RT in
  let J := jset J (V "Ps") (V "ht") (- ht_calc / ht ^ 2) in
  let J := jset J (V "Ps") (V "hs") (1 / ht) in
  let part := / 2 * / sqrt (gamma * R * Ts) in
  let dVs_dg := part * R * Ts in
  let J := jset J (V "Vsonic") (V "gamma") dVs_dg in
  let J := jset J (V "Vsonic") (V "R") (part * gamma * Ts) in
  let J := jset J (V "Vsonic") (V "Ts") (part * gamma * R) in
  let J := jset J (V "Vsonic") (V "Vsonic") (-1) in
  let MN := pa_MN e in let Vs := pv_Vsonic e in let area := e (V "area") in
  let J := jset J (V "MN") (V "MN") (-1) in
  let dr := MN * gamma * RT in
  let dA := - (W / rho / Vs / area ^ 2) in
  let J := jset J (V "Ps") (V "area") (dA * dr / ht) in
  let J := jset J (V "V") (V "area") (dA * Vs) in
  let J := jset J (V "MN") (V "area") dA in
  let dMN_dVs := - W / (rho * area * Vs ^ 2) in
  let dVs_dTs := / 2 * gamma * R / Vs in
  let J := jset J (V "Ps") (V "Ts") (gamma * (MN * dMN_dVs * dVs_dTs * RT + MNq * R) / ht) in
  let J := jset J (V "V") (V "Ts") (- (dMN_dVs * dVs_dTs * Vs + MN * dVs_dTs)) in
  let J := jset J (V "MN") (V "Ts") (dMN_dVs * dVs_dTs) in
  let dVs_dR := / 2 * gamma * Ts / Vs in
  let J := jset J (V "Ps") (V "R") (- gamma * (MN * RT * dMN_dVs * dVs_dR + MNq * Ts) / ht) in
  let J := jset J (V "V") (V "R") (dMN_dVs * dVs_dR * Vs + dVs_dR * MN) in
  let J := jset J (V "MN") (V "R") (dMN_dVs * dVs_dR) in
  let dW := 1 / rho / Vs / area in
  let J := jset J (V "Ps") (V "W") (dW * dr / ht) in
  let J := jset J (V "V") (V "W") (dW * Vs) in
  let J := jset J (V "MN") (V "W") dW in
  let dg := dMN_dVs * dVs_dg in
  let J := jset J (V "MN") (V "gamma") dg in
  let J := jset J (V "Ps") (V "gamma") (RT / ht * (MNq + gamma * MN * dg)) in
  let J := jset J (V "V") (V "gamma") (dg * Vs + dVs_dg * MN) in
  let drho := - W / (area * Vs * rho ^ 2) in
  let J := jset J (V "Ps") (V "rho") (MN * gamma * R * Ts * drho / ht) in
  let J := jset J (V "V") (V "rho") (drho * Vs) in
  jset J (V "MN") (V "rho") drho.
Definition ps_resid_area : comp :=
  mkComp (ps_base_ins ++ [V "guess:MN"; V "area"; V "MN"; V "Ps"; V "V"; V "Vsonic"]) [V "Ps"; V "V"; V "Vsonic"; V "MN"] pa_resid
    (ps_base_decls ++
     [([V "MN"], [V "MN"; V "area"; V "Ts"; V "R"; V "W"; V "gamma"; V "rho"], 0); ([V "Ps"], [V "area"; V "Ts"; V "R"; V "W"; V "gamma"; V "rho"], 0);
      ([V "V"], [V "area"; V "Ts"; V "R"; V "W"; V "gamma"; V "rho"], 0)]) pa_linearize.

(* ---- guess_nonlinear (static_ps_resid.py:83-115) as a state machine: the only state is self._ps_guess_cache ----
   ps_guess is the pressure proposed at this call (a function of the inputs; in area mode the result of fsolve, not modelled).
   The result says whether outputs['Ps'] is overwritten. *)
Definition guess_init : R := -1.
Definition guess_step (mn_mode : bool) (ps_guess cache : R) : option R * R :=
  if Rlt_dec (/ 10 ^ 10) (Rabs (ps_guess - cache)) then
    if mn_mode then (if Req_EM_T cache (-1) then (Some ps_guess, ps_guess) else (None, cache))
    else (Some ps_guess, ps_guess)
  else (None, cache).
Definition guess_run (mn_mode : bool) (l : list R) : R := fold_left (fun c g => snd (guess_step mn_mode g c)) l guess_init.
(* static_ps_resid.py:86: the guess in MN mode *)
Definition ps_guess_MN (e : env) : R :=
  e (V "guess:Pt") * rpow (1 + (e (V "guess:gamt") - 1) / 2 * e (V "MN") ^ 2) (- e (V "guess:gamt") / (e (V "guess:gamt") - 1)).
