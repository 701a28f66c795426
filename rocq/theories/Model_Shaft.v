(* Model of pycycle/elements/gearbox.py, shaft.py, performance.py. *)
From Verif Require Export Spec_Comp.
Open Scope string_scope. Open Scope list_scope. Open Scope R_scope.

(* ---- Gearbox: an implicit component; the environment holds inputs and states ---- *)
(* gearbox.py:57-69 apply_nonlinear *)
Definition gb_resid (design : bool) (e old : env) : env :=
  if design then
    let r := upd old (V "gear_ratio") (e (V "N_out") / e (V "N_in") - e (V "gear_ratio")) in
    let r := upd r (V "trq_in") (- e (V "trq_base") * e (V "eff") * e (V "N_out") / e (V "N_in") - e (V "trq_in")) in
    upd r (V "trq_out") (e (V "trq_base") - e (V "trq_out"))
  else
    let r := upd old (V "trq_base") (e (V "N_out") - e (V "N_in") * e (V "gear_ratio")) in
    let r := upd r (V "trq_in") (- e (V "trq_base") * e (V "eff") * e (V "gear_ratio") - e (V "trq_in")) in
    upd r (V "trq_out") (e (V "trq_base") - e (V "trq_out")).
(* gearbox.py:45-55 solve_nonlinear *)
Definition gb_solve (design : bool) (e : env) : env :=
  if design then
    let o := upd e (V "gear_ratio") (e (V "N_out") / e (V "N_in")) in
    let o := upd o (V "trq_in") (- e (V "trq_base") * e (V "eff") * e (V "N_out") / e (V "N_in")) in
    upd o (V "trq_out") (e (V "trq_base"))
  else
    let o := upd e (V "trq_in") (- e (V "trq_base") * e (V "eff") * e (V "gear_ratio")) in
    upd o (V "trq_out") (e (V "trq_base")).
(* gearbox.py:71-90 linearize *)
Definition gb_partials (design : bool) (e : env) (J : jac) : jac :=
  if design then
    let J := jset J (V "gear_ratio") (V "N_in") (- e (V "N_out") / e (V "N_in") ^ 2) in
    let J := jset J (V "gear_ratio") (V "N_out") (1 / e (V "N_in")) in
    let J := jset J (V "trq_in") (V "trq_base") (- e (V "eff") * e (V "N_out") / e (V "N_in")) in
    let J := jset J (V "trq_in") (V "eff") (- e (V "trq_base") * e (V "N_out") / e (V "N_in")) in
    let J := jset J (V "trq_in") (V "N_in") (e (V "trq_base") * e (V "eff") * e (V "N_out") / e (V "N_in") ^ 2) in
    jset J (V "trq_in") (V "N_out") (- e (V "trq_base") * e (V "eff") / e (V "N_in"))
  else
    let J := jset J (V "trq_base") (V "N_in") (- e (V "gear_ratio")) in
    let J := jset J (V "trq_base") (V "gear_ratio") (- e (V "N_in")) in
    let J := jset J (V "trq_in") (V "trq_base") (- e (V "eff") * e (V "gear_ratio")) in
    let J := jset J (V "trq_in") (V "eff") (- e (V "trq_base") * e (V "gear_ratio")) in
    jset J (V "trq_in") (V "gear_ratio") (- e (V "trq_base") * e (V "eff")).
(* gearbox.py:11-42 setup *)
Definition gearbox (design : bool) : comp :=
  mkComp [V "N_in"; V "N_out"; V "eff"; V "trq_base"; V "gear_ratio"; V "trq_in"; V "trq_out"]
    (if design then [V "gear_ratio"; V "trq_in"; V "trq_out"] else [V "trq_base"; V "trq_in"; V "trq_out"])
    (gb_resid design)
    ((if design then
        [([V "gear_ratio"], [V "N_in"; V "N_out"], 0); ([V "gear_ratio"], [V "gear_ratio"], -1);
         ([V "trq_in"], [V "N_in"; V "N_out"], 0)]
      else
        [([V "trq_base"], [V "N_in"; V "gear_ratio"], 0); ([V "trq_base"], [V "N_out"], 1);
         ([V "trq_in"], [V "gear_ratio"], 0)])
     ++ [([V "trq_in"], [V "trq_base"; V "eff"], 0); ([V "trq_in"], [V "trq_in"], -1);
         ([V "trq_out"], [V "trq_base"], 1); ([V "trq_out"], [V "trq_out"], -1)])
    (gb_partials design).

(* ---- Shaft; port i is the input 'trq_{i}' ---- *)
(* shaft.py:31-32 *)
Definition sh_convert : R := 2 * PI / 60 / 550.
Definition ports (n : nat) : list nat := seq 0 n.
(* shaft.py:53-61: the loop over the torque inputs, returning (trq_in, trq_out) *)
Definition sh_sums (n : nat) (e : env) : R * R :=
  fold_left (fun s i => let trq := e (I "trq_" i) in
      if Rge_dec trq 0 then (fst s + trq, snd s) else (fst s, snd s + trq)) (ports n) (0, 0).
(* shaft.py:47-72 *)
Definition sh_compute (n : nat) (e old : env) : env :=
  let fracLoss := e (V "fracLoss") in
  let HPX := e (V "HPX") in
  let Nmech := e (V "Nmech") in
  let trq_in := fst (sh_sums n e) in
  let trq_out := snd (sh_sums n e) in
  let trq_net := trq_in * (1 - fracLoss) + trq_out - HPX / (Nmech * sh_convert) in
  let o := upd old (V "trq_net") trq_net in
  let o := upd o (V "trq_in") trq_in in
  let o := upd o (V "trq_out") trq_out in
  let o := upd o (V "pwr_in") (trq_in * Nmech * sh_convert) in
  let o := upd o (V "pwr_out") (trq_out * Nmech * sh_convert) in
  let o := upd o (V "pwr_net") (trq_net * Nmech * sh_convert) in
  let o := upd o (V "pwr_in_real") (trq_in * (1 - fracLoss) * Nmech * sh_convert) in
  upd o (V "pwr_out_real") (trq_out * Nmech * sh_convert - HPX).
(* shaft.py:74-134 *)
Definition sh_partials (n : nat) (e : env) (J : jac) : jac :=
  let fracLoss := e (V "fracLoss") in
  let HPX := e (V "HPX") in
  let Nmech := e (V "Nmech") in
  let trq_in := fst (sh_sums n e) in
  let trq_out := snd (sh_sums n e) in
  let J := jset J (V "trq_net") (V "Nmech") (HPX * / (Nmech ^ 2) / sh_convert) in
  let J := jset J (V "trq_net") (V "HPX") (-1 / (Nmech * sh_convert)) in
  let J := jset J (V "trq_net") (V "fracLoss") (- trq_in) in
  let J := jset J (V "pwr_in") (V "Nmech") (trq_in * sh_convert) in
  let J := jset J (V "pwr_out") (V "Nmech") (trq_out * sh_convert) in
  let J := jset J (V "pwr_in_real") (V "Nmech") (trq_in * sh_convert * (1 - fracLoss)) in
  let J := jset J (V "pwr_in_real") (V "fracLoss") (- trq_in * sh_convert * Nmech) in
  let J := jset J (V "pwr_out_real") (V "Nmech") (trq_out * sh_convert) in
  let J := jset J (V "pwr_out_real") (V "HPX") (-1) in
  let J := jset J (V "pwr_net") (V "Nmech") (trq_in * (1 - fracLoss) * sh_convert + trq_out * sh_convert) in
  let J := jset J (V "pwr_net") (V "HPX") (-1) in
  let J := jset J (V "pwr_net") (V "fracLoss") (- trq_in * Nmech * sh_convert) in
  fold_left (fun J i =>
    let x := I "trq_" i in
    if Rge_dec (e x) 0 then
      let J := jset J (V "trq_in") x 1 in
      let J := jset J (V "trq_out") x 0 in
      let J := jset J (V "trq_net") x (1 - fracLoss) in
      let J := jset J (V "pwr_in") x (Nmech * sh_convert) in
      let J := jset J (V "pwr_out") x 0 in
      let J := jset J (V "pwr_in_real") x (Nmech * sh_convert * (1 - fracLoss)) in
      let J := jset J (V "pwr_out_real") x 0 in
      jset J (V "pwr_net") x (Nmech * sh_convert * (1 - fracLoss))
    else if Rlt_dec (e x) 0 then
      let J := jset J (V "trq_out") x 1 in
      let J := jset J (V "trq_in") x 0 in
      let J := jset J (V "trq_net") x 1 in
      let J := jset J (V "pwr_in") x 0 in
      let J := jset J (V "pwr_out") x (Nmech * sh_convert) in
      let J := jset J (V "pwr_in_real") x 0 in
      let J := jset J (V "pwr_out_real") x (Nmech * sh_convert) in
      jset J (V "pwr_net") x (Nmech * sh_convert)
    else J) (ports n) J.
(* shaft.py:14-45 *)
Definition sh_ins (n : nat) : list var := [V "Nmech"; V "HPX"; V "fracLoss"] ++ map (I "trq_") (ports n).
Definition shaft (n : nat) : comp :=
  mkComp (sh_ins n)
    [V "trq_in"; V "trq_out"; V "trq_net"; V "pwr_in"; V "pwr_in_real"; V "pwr_out"; V "pwr_out_real"; V "pwr_net"]
    (sh_compute n)
    (map (fun i => ([V "trq_in"; V "trq_out"; V "pwr_in"; V "pwr_out"], [I "trq_" i], 0)) (ports n)
     ++ [([V "trq_net"], sh_ins n, 0); ([V "pwr_net"], sh_ins n, 0);
         ([V "pwr_in"; V "pwr_out"; V "pwr_in_real"; V "pwr_out_real"], sh_ins n, 0)])
    (sh_partials n).

(* ---- Performance; nozzle i is 'Fg_{i}', burner i is 'Wfuel_{i}' ---- *)
(* performance.py:59-61, 66-68 accumulation loops *)
Definition acc_loop (x : nat -> var) (n : nat) (e : env) : R :=
  fold_left (fun s i => s + e (x i)) (ports n) 0.
(* performance.py:55-72 *)
Definition perf_compute (nn nb : nat) (e old : env) : env :=
  let o := upd old (V "OPR") (e (V "Pt3") / e (V "Pt2")) in
  let Fg := acc_loop (I "Fg_") nn e in
  let Fn := Fg - e (V "ram_drag") in
  let o := upd o (V "Fn") Fn in
  let o := upd o (V "Fg") Fg in
  match nb with
  | O => o
  | _ => let Wfuel := acc_loop (I "Wfuel_") nb e in
         let o := upd o (V "Wfuel") Wfuel in
         let o := upd o (V "TSFC") (Wfuel * 3600 / (Fn + / 10 ^ 10)) in
         upd o (V "PSFC") (Wfuel * 3600 / e (V "power"))
  end.
(* performance.py:74-101 *)
Definition perf_partials (nn nb : nat) (e : env) (J : jac) : jac :=
  let Pt2 := e (V "Pt2") in
  let power := e (V "power") in
  let J := jset J (V "OPR") (V "Pt3") (1 / Pt2) in
  let J := jset J (V "OPR") (V "Pt2") (- e (V "Pt3") / Pt2 ^ 2) in
  let wfuel := acc_loop (I "Wfuel_") nb e in
  let fg := acc_loop (I "Fg_") nn e in
  let fn := fg - e (V "ram_drag") in
  let J := fold_left (fun J i => match nb with O => J | _ => jset J (V "TSFC") (I "Fg_" i) (-3600 * wfuel / fn ^ 2) end) (ports nn) J in
  let J := fold_left (fun J i =>
      let J := jset J (V "TSFC") (I "Wfuel_" i) (3600 / fn) in
      jset J (V "PSFC") (I "Wfuel_" i) (3600 / power)) (ports nb) J in
  match nb with
  | O => J
  | _ => let J := jset J (V "TSFC") (V "ram_drag") (3600 * wfuel / fn ^ 2) in
         jset J (V "PSFC") (V "power") (-3600 * wfuel / power ^ 2)
  end.
(* performance.py:12-52 *)
Definition perf_fgs (nn : nat) := map (I "Fg_") (ports nn).
Definition perf_wfs (nb : nat) := map (I "Wfuel_") (ports nb).
Definition performance (nn nb : nat) : comp :=
  mkComp ([V "Pt2"; V "Pt3"; V "ram_drag"; V "power"] ++ perf_fgs nn ++ perf_wfs nb)
    ([V "OPR"; V "Fg"; V "Fn"] ++ match nb with O => [] | _ => [V "TSFC"; V "PSFC"; V "Wfuel"] end)
    (perf_compute nn nb)
    ([([V "OPR"], [V "Pt3"; V "Pt2"], 0); ([V "Fg"], perf_fgs nn, 1); ([V "Fn"], perf_fgs nn, 1);
      ([V "Fn"], [V "ram_drag"], -1)]
     ++ match nb with O => [] | _ =>
          [([V "TSFC"], perf_fgs nn ++ [V "ram_drag"] ++ perf_wfs nb, 0);
           ([V "PSFC"], V "power" :: perf_wfs nb, 0); ([V "Wfuel"], perf_wfs nb, 1)] end)
    (perf_partials nn nb).
