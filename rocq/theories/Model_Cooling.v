(* Model of pycycle/elements/cooling.py: CombineCooling and CoolingCalcs. *)
From Verif Require Export Spec_Comp.
Open Scope string_scope. Open Scope list_scope. Open Scope R_scope.

(* cooling.py:24-28; input 'W_{i}' is I "W_" i, i = 1..n *)
Definition cc_compute (n : nat) (e old : env) : env :=
  upd old (V "W_cool") (fold_left (fun acc i => acc + e (I "W_" i)) (seq 1 n) 0).
(* cooling.py:13-22; the constant Jacobian is declared once, there is no compute_partials *)
Definition combine_cooling (n : nat) : comp :=
  mkComp (map (I "W_") (seq 1 n)) [V "W_cool"] (cc_compute n)
    [([V "W_cool"], map (I "W_") (seq 1 n), 1)] (fun _ J => J).

(* cooling.py:60 integer division *)
Definition cool_i_stage (n_stages i_row : nat) : nat := Nat.div (Nat.div i_row 2 + 1) n_stages.
(* the options of a row *)
Record row := mkRow { n_stages : nat; i_row : nat; T_safety : R; T_metal : R }.
Definition is_stator (r : row) : bool := Nat.even (i_row r).
(* cooling.py:73-79 *)
Definition cool_T_gas (r : row) (e : env) : R :=
  if is_stator r then e (V "Tt_primary") + T_safety r else 92 / 100 * e (V "Tt_primary") + T_safety r.
Definition cool_dh (r : row) (e : env) : R :=
  if is_stator r then 0 else e (V "turb_pwr") / INR (n_stages r).
(* cooling.py:82-85 *)
Definition profile_factor (r : row) : R := match i_row r with O => 3 / 10 | _ => 13 / 100 end.
(* cooling.py:92-93 *)
Definition cool_phi' (r : row) (e : env) : R :=
  let phi := (cool_T_gas r e - T_metal r) / (cool_T_gas r e - e (V "Tt_cool")) in
  (phi + profile_factor r) / (profile_factor r + 1).
(* cooling.py:87-100: the local W_cool *)
Definition cool_W (r : row) (e : env) : R :=
  if Rlt_dec (cool_T_gas r e) (T_metal r) then 0
  else 22 / 1000 * e (V "x_factor") * (4 / 3) * e (V "W_primary") * rpow (cool_phi' r e / (1 - cool_phi' r e)) (125 / 100).
(* cooling.py:68-106 *)
Definition cool_compute (r : row) (e old : env) : env :=
  let W_primary := e (V "W_primary") in
  let W_cool := cool_W r e in
  let o := upd old (V "W_cool") W_cool in
  let o := upd o (V "ht_out") ((W_primary * e (V "ht_primary") + W_cool * e (V "ht_cool")) / (W_primary + W_cool) - cool_dh r e / W_primary) in
  upd o (V "Pt_stage") (e (V "Pt_out") + (e (V "Pt_in") - e (V "Pt_out")) * INR (cool_i_stage (n_stages r) (i_row r))).
(* cooling.py:109-179; the locals that differ between the branches are returned as a tuple
   (dWc_dx_factor, dWc_dWp, dWc_dTt_primary, dWc_dTt_cool, W_cool) *)
Definition cool_dW (r : row) (e : env) : R * R * R * R * R :=
  let T_gas := cool_T_gas r e in
  let dTgas_dTprimary := if is_stator r then 1 else 92 / 100 in
  let W_primary := e (V "W_primary") in
  if Rlt_dec T_gas (T_metal r) then (0, 0, 0, 0, 0)
  else
    let T_cool := e (V "Tt_cool") in
    let phi := (T_gas - T_metal r) / (T_gas - T_cool) in
    let phi_prime := (phi + profile_factor r) / (profile_factor r + 1) in
    let x_factor := e (V "x_factor") in
    let const := 22 / 1000 * 4 / 3 in
    let phi_prime_term := rpow (phi_prime / (1 - phi_prime)) (125 / 100) in
    let dphi_prime_dphi := 1 / (profile_factor r + 1) in
    let dphi_dTgas := 1 / (T_gas - T_cool) - (T_gas - T_metal r) / (T_gas - T_cool) ^ 2 in
    let dphi_dTcool := (T_gas - T_metal r) / (T_gas - T_cool) ^ 2 in
    let dphi_prime_term_dphi_prime := 125 / 100 * rpow (phi_prime / (1 - phi_prime)) (25 / 100) * (1 / (1 - phi_prime) + phi_prime / (1 - phi_prime) ^ 2) in
    (const * phi_prime_term * W_primary,
     const * phi_prime_term * x_factor,
     const * W_primary * x_factor * dphi_prime_term_dphi_prime * dphi_prime_dphi * dphi_dTgas * dTgas_dTprimary,
     const * W_primary * x_factor * dphi_prime_term_dphi_prime * dphi_prime_dphi * dphi_dTcool,
     const * x_factor * W_primary * rpow (phi_prime / (1 - phi_prime)) (125 / 100)).
Definition cool_partials (r : row) (e : env) (J : jac) : jac :=
  let '(dWc_dx_factor, dWc_dWp, dWc_dTt_primary, dWc_dTt_cool, W_cool) := cool_dW r e in
  let ddh_dturb_pwr := if is_stator r then 0 else 1 / INR (n_stages r) in
  let W_primary := e (V "W_primary") in
  let ht_primary := e (V "ht_primary") in let ht_cool := e (V "ht_cool") in
  let dh := cool_dh r e in
  let WpWc := W_primary + W_cool in
  let dht_out_dW_cool := - W_primary * ht_primary / WpWc ^ 2 + ht_cool / WpWc - W_cool * ht_cool / WpWc ^ 2 in
  let J := jset J (V "W_cool") (V "W_primary") dWc_dWp in
  let J := jset J (V "W_cool") (V "x_factor") dWc_dx_factor in
  let J := jset J (V "W_cool") (V "Tt_primary") dWc_dTt_primary in
  let J := jset J (V "W_cool") (V "Tt_cool") dWc_dTt_cool in
  let J := jset J (V "ht_out") (V "x_factor") (dht_out_dW_cool * dWc_dx_factor) in
  let J := jset J (V "ht_out") (V "W_primary") ((ht_primary - ht_cool) * (W_cool - W_primary * dWc_dWp) / WpWc ^ 2 + dh / W_primary ^ 2) in
  let J := jset J (V "ht_out") (V "Tt_primary") (dht_out_dW_cool * dWc_dTt_primary) in
  let J := jset J (V "ht_out") (V "Tt_cool") (dht_out_dW_cool * dWc_dTt_cool) in
  let J := jset J (V "ht_out") (V "ht_primary") (W_primary / WpWc) in
  let J := jset J (V "ht_out") (V "ht_cool") (W_cool / WpWc) in
  let J := jset J (V "ht_out") (V "turb_pwr") (- ddh_dturb_pwr / W_primary) in
  let J := jset J (V "Pt_stage") (V "Pt_in") (INR (cool_i_stage (n_stages r) (i_row r))) in
  jset J (V "Pt_stage") (V "Pt_out") (1 - INR (cool_i_stage (n_stages r) (i_row r))).
(* cooling.py:40-65 *)
Definition cooling_calcs (r : row) : comp :=
  mkComp [V "turb_pwr"; V "Pt_in"; V "Pt_out"; V "x_factor"; V "W_primary"; V "Tt_primary"; V "Tt_cool"; V "ht_primary"; V "ht_cool"]
    [V "W_cool"; V "Pt_stage"; V "ht_out"] (cool_compute r)
    [([V "W_cool"], [V "x_factor"; V "W_primary"; V "Tt_primary"; V "Tt_cool"], 0);
     ([V "ht_out"], [V "x_factor"; V "W_primary"; V "Tt_primary"; V "Tt_cool"; V "turb_pwr"; V "ht_cool"; V "ht_primary"], 0);
     ([V "Pt_stage"], [V "Pt_in"; V "Pt_out"], 0)] (cool_partials r).
