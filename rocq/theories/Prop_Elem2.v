(* Claims C37, C38: nozzle and turbine cooling. *)
From Verif Require Import Lib_R Lib_Loop Model_Nozzle Model_Cooling Proofs_Nozzle Proofs_Cooling.
Open Scope string_scope. Open Scope list_scope. Open Scope R_scope.

(* ---------- C37 ---------- *)
(* throat total pressure and exit static pressure; when the nozzle's balance has converged (residual 0 with the
   balance reading the computed Ps_calc) the pressure ratio state is throat pressure over ambient pressure *)
Theorem C37_pressures (e old eb ob : env) : let o := compute pressure_calcs e old in
  e (V "PR") <> 0 ->
  o (V "Pt_th") = e (V "Pt_in") * (1 - e (V "dPqP")) /\
  o (V "Ps_calc") * e (V "PR") = o (V "Pt_th") /\
  (eb (V "Ps_calc") = o (V "Ps_calc") -> eb (V "Ps_exhaust") <> 0 -> compute pr_bal eb ob (V "PR") = 0 ->
     eb (V "Ps_exhaust") = o (V "Ps_calc") /\ e (V "PR") = o (V "Pt_th") / eb (V "Ps_exhaust")).
Proof.
  cbn [pressure_calcs pr_bal compute]. unfold pc_compute, prb_resid. cbv zeta. vsimp. intros H.
  split; [auto|]. split; [field; auto|]. intros E Hz R0. split; [lra|].
  assert (E2 : eb (V "Ps_exhaust") = e (V "Pt_in") * (1 - e (V "dPqP")) / e (V "PR")) by lra.
  rewrite E2. rewrite E2 in Hz. assert (e (V "Pt_in") * (1 - e (V "dPqP")) <> 0). { intros K. apply Hz. rewrite K. unfold Rdiv. ring. }
  field. repeat split; auto; intros K; rewrite K in H0; apply H0; ring.
Qed.
(* gross thrust: momentum plus pressure thrust, scaled by the coefficients; with ideal coefficients and full expansion
   it is the ideal thrust, which is mass flow times velocity over g_c; the two loss models agree at a coefficient of one *)
Theorem C37_thrust (e old : env) :
  compute (nozzle_perf Cfg) e old (V "Fg_ideal") * g_c = e (V "W_in") * e (V "V_ideal") /\
  compute (nozzle_perf Cv) e old (V "Fg_ideal") = compute (nozzle_perf Cfg) e old (V "Fg_ideal") /\
  compute (nozzle_perf Cfg) e old (V "Fg") = e (V "Cfg") * compute (nozzle_perf Cfg) e old (V "Fg_ideal") /\
  g_c * (compute (nozzle_perf Cv) e old (V "Fg") - (e (V "Ps_actual") - e (V "Ps_calc")) * e (V "A_actual")) =
    e (V "Cv") * e (V "Cang") * e (V "CmixCorr") * (e (V "W_in") * e (V "V_actual")) /\
  (e (V "Cv") = 1 -> e (V "Cang") = 1 -> e (V "CmixCorr") = 1 -> e (V "V_actual") = e (V "V_ideal") ->
   e (V "Ps_actual") = e (V "Ps_calc") -> e (V "Cfg") = 1 ->
   compute (nozzle_perf Cv) e old (V "Fg") = compute (nozzle_perf Cfg) e old (V "Fg")).
Proof.
  assert (G := gc_nz). cbn [nozzle_perf compute]. unfold pf_compute. cbv zeta. vsimp.
  split; [field; auto|]. split; [auto|]. split; [ring|]. split; [field; auto|].
  intros -> -> -> -> -> ->. ring.
Qed.
Theorem C37_derivatives :
  comp_ok pr_bal (fun _ => True) /\ comp_ok pressure_calcs (fun e => e (V "PR") <> 0) /\
  (forall lc, comp_ok (nozzle_perf lc) (fun _ => True)).
Proof. split; [exact prb_ok|split; [exact pc_ok|exact perf_ok]]. Qed.
(* the 12 flow properties and entropy; choked means: the sonic static pressure exceeds the exhaust pressure *)
Definition nozzle_props := ["h"; "T"; "P"; "rho"; "gamma"; "Cp"; "Cv"; "V"; "Vsonic"; "MN"; "area"; "W"].
Theorem C37_mux_selects (nt : nozz) (fl p : string) (e old : env) : fl <> "Throat" -> In p nozzle_props ->
  let o := compute (mux nt fl) e old in
  let throat := B "Throat" ("stat:" ++ p) in let exit := B fl ("stat:" ++ p) in
  let choked := e (V "Ps_calc") < e (B "MN" "P") in
  (* convergent: throat and exit are the sonic state when choked, the expanded state otherwise *)
  (nt = CV -> (choked -> o throat = e (B "MN" p) /\ o exit = e (B "MN" p)) /\
              (~ choked -> o throat = e (B "Ps" p) /\ o exit = e (B "Ps" p))) /\
  (nt = CD -> o throat = e (B "MN" p) /\ o exit = e (B "Ps" p)) /\
  (nt = CD_CV -> o exit = e (B "Ps" p) /\ (choked -> o throat = e (B "MN" p)) /\ (~ choked -> o throat = e (B "Ps" p))) /\
  o (B "Throat" "stat:S") = e (V "S") /\ o (B fl "stat:S") = e (V "S").
Proof.
  intros Hf Hp. cbv zeta. cbn [mux compute]. fold (stat "Throat" p) (stat fl p).
  change (B "Throat" "stat:S") with (stat "Throat" "S"). change (B fl "stat:S") with (stat fl "S").
  rewrite mux_throat, mux_exit, mux_S1, mux_S2 by auto. unfold throat_pre, exit_pre, mux_prefix.
  destruct (Rlt_dec _ _) as [L|L]; repeat split; intros; subst; auto; tauto.
Qed.
(* derivatives exact unless sitting exactly on the choking boundary (a convergent-divergent nozzle has none) *)
Theorem C37_mux_derivatives (nt : nozz) (fl : string) : fl <> "Throat" ->
  jac_exact (mux nt fl) (fun e => nt = CD \/ e (V "Ps_calc") <> e (B "MN" "P")) /\ jac_declared (mux nt fl).
Proof. intros H. split; [exact (mux_jac nt fl H)|exact (mux_declared nt fl)]. Qed.
(* every flow output is written and depends on the inputs only *)
Theorem C37_mux_writes (nt : nozz) (fl : string) (e e' old old' : env) o : fl <> "Throat" ->
  In o (outs (mux nt fl)) -> o <> V "choked" -> (forall i, In i (ins (mux nt fl)) -> e i = e' i) ->
  compute (mux nt fl) e old o = compute (mux nt fl) e' old' o.
Proof.
  intros Hf Ho Hc He. cbn [mux outs ins compute] in *.
  assert (EP : mux_prefix e = mux_prefix e').
  { unfold mux_prefix. rewrite !He by (cbn [In app flow_out flat_map]; tauto). reflexivity. }
  assert (EB : forall x p, x = "Ps" \/ x = "MN" -> In p flow_out -> e (B x p) = e' (B x p)).
  { intros x p Hx Hp. apply He. right. right. apply in_flat_map. exists p. split; auto. cbn [In]. destruct Hx as [->| ->]; auto. }
  assert (P1 : mux_prefix e' = "Ps" \/ mux_prefix e' = "MN") by (unfold mux_prefix; destruct (Rlt_dec _ _); auto).
  inflat Ho; [congruence| | | |].
  - rewrite !mux_S1 by auto. apply He. cbn [In app]. auto.
  - rewrite !mux_S2 by auto. apply He. cbn [In app]. auto.
  - rewrite !mux_throat by auto. unfold throat_pre. rewrite EP. destruct nt; apply EB; auto.
  - rewrite !mux_exit by auto. unfold exit_pre. rewrite EP. destruct nt; apply EB; auto.
Qed.
(* the flag 'choked' is never written: it keeps whatever value it had *)
Theorem C37_choked_flag_refuted (nt : nozz) (fl : string) :
  In (V "choked") (outs (mux nt fl)) /\ (forall e old, compute (mux nt fl) e old (V "choked") = old (V "choked")) /\
  ~ writes_all (mux nt fl).
Proof.
  assert (H : forall e old, compute (mux nt fl) e old (V "choked") = old (V "choked")) by (intros; cbn [mux compute]; apply mux_choked).
  split; [cbn [mux outs app In]; auto|]. split; auto. intros W.
  assert (K := W (fun _ => 0) (fun _ => 0) (fun _ => 0) (fun _ => 1) (V "choked") ltac:(cbn [mux outs app In]; auto) ltac:(auto)).
  rewrite !H in K. lra.
Qed.
(* invalid options are rejected, valid ones are accepted and are all different *)
Theorem C37_option_validation (s : string) :
  (nozz_of s <> None <-> s = "CV" \/ s = "CD" \/ s = "CD_CV") /\ (loss_coef_of s <> None <-> s = "Cfg" \/ s = "Cv").
Proof.
  unfold nozz_of, loss_coef_of. split.
  - destruct (string_dec s "CV") as [->|]; [split; [tauto|discriminate]|].
    destruct (string_dec s "CD") as [->|]; [split; [tauto|discriminate]|].
    destruct (string_dec s "CD_CV") as [->|]; [split; [tauto|discriminate]|]. split; [congruence|tauto].
  - destruct (string_dec s "Cfg") as [->|]; [split; [tauto|discriminate]|].
    destruct (string_dec s "Cv") as [->|]; [split; [tauto|discriminate]|]. split; [congruence|tauto].
Qed.
Example C37_example : "Fl_O" <> "Throat" /\
  (let e := fun v => match v with B "MN" "P" => 10 | V "Ps_calc" => 5 | _ => 1 end in e (V "Ps_calc") < e (B "MN" "P")).
Proof. split; [discriminate|cbv beta iota zeta; lra]. Qed.

(* ---------- C38 ---------- *)
(* gas temperature used for a row: stators see the full total temperature, rotors 92% of it, plus the safety margin *)
Definition row_T_gas (r : row) (Tt : R) : R := (if Nat.even (i_row r) then Tt else 92 / 100 * Tt) + T_safety r.
Theorem C38_cooling_flow (r : row) (e old : env) : let o := compute (cooling_calcs r) e old in
  (row_T_gas r (e (V "Tt_primary")) < T_metal r -> o (V "W_cool") = 0) /\
  (T_metal r <= row_T_gas r (e (V "Tt_primary")) -> e (V "Tt_cool") < T_metal r -> 0 < e (V "x_factor") -> 0 < e (V "W_primary") ->
     0 < o (V "W_cool")).
Proof.
  cbv zeta. cbn [cooling_calcs compute]. rewrite W_eq.
  assert (E : row_T_gas r (e (V "Tt_primary")) = cool_T_gas r e).
  { unfold row_T_gas, cool_T_gas, is_stator. destruct (Nat.even (i_row r)); reflexivity. }
  rewrite E. split; [apply W_cold|]. intros; apply W_pos; auto.
Qed.
(* the amount, as a correlation in temperatures only: 0.022 (4/3) x W times the 1.25th power of the ratio of the required cooling (with a margin of
   30 % of the gas-to-coolant difference at the first row and 13 % at the others) to the available cooling *)
Definition row_margin (r : row) : R := if Nat.eqb (i_row r) 0 then 30 / 100 else 13 / 100.
Theorem C38_cooling_amount (r : row) (e old : env) : let Tg := row_T_gas r (e (V "Tt_primary")) in let Tc := e (V "Tt_cool") in Tc < T_metal r -> T_metal r <= Tg ->
  compute (cooling_calcs r) e old (V "W_cool") = 22 / 1000 * (4 / 3) * e (V "x_factor") * e (V "W_primary") * Rpower ((Tg - T_metal r + row_margin r * (Tg - Tc)) / (T_metal r - Tc)) (5 / 4).
Proof.
  cbv zeta. intros H1 H2. cbn [cooling_calcs compute]. rewrite W_eq.
  assert (E : row_T_gas r (e (V "Tt_primary")) = cool_T_gas r e).
  { unfold row_T_gas, cool_T_gas, is_stator. destruct (Nat.even (i_row r)); reflexivity. }
  rewrite E in *. rewrite W_hot by auto. unfold kW. rewrite rpow_pos by (apply qf_pos; auto). unfold qf, pf, profile_factor, row_margin.
  replace (125 / 100) with (5 / 4) by lra. destruct (i_row r); cbn [Nat.eqb]; [replace (30 / 100) with (3 / 10) by lra|]; reflexivity.
Qed.
(* hotter gas needs more coolant; colder coolant needs less *)
Theorem C38_cooling_flow_monotone (r : row) (e e' old : env) :
  e (V "x_factor") = e' (V "x_factor") -> e (V "W_primary") = e' (V "W_primary") -> 0 < e (V "x_factor") -> 0 < e (V "W_primary") ->
  e (V "Tt_primary") <= e' (V "Tt_primary") -> e (V "Tt_cool") <= e' (V "Tt_cool") -> e' (V "Tt_cool") < T_metal r ->
  compute (cooling_calcs r) e old (V "W_cool") <= compute (cooling_calcs r) e' old (V "W_cool").
Proof.
  intros Ex EW Hx HW HT HTc Hc. cbn [cooling_calcs compute]. rewrite !W_eq.
  assert (Hg : cool_T_gas r e <= cool_T_gas r e').
  { rewrite !T_gas_lin. unfold kT. destruct (is_stator r); lra. }
  destruct (Rlt_dec (cool_T_gas r e) (T_metal r)) as [C|C].
  { rewrite (W_cold r e C). apply W_nonneg; auto; lra. }
  rewrite (W_hot r e), (W_hot r e') by lra. rewrite <- Ex, <- EW.
  apply Rmult_le_compat_l. { unfold kW. repeat apply Rmult_le_pos; lra. }
  assert (Q1 : 0 < qf r (cool_T_gas r e) (e (V "Tt_cool"))) by (apply qf_pos; lra).
  assert (Q2 : 0 < qf r (cool_T_gas r e') (e' (V "Tt_cool"))) by (apply qf_pos; lra).
  assert (Q : qf r (cool_T_gas r e) (e (V "Tt_cool")) <= qf r (cool_T_gas r e') (e' (V "Tt_cool"))).
  { assert (P := pf_pos r). unfold qf. set (Tg := cool_T_gas r e) in *. set (Tg' := cool_T_gas r e') in *.
    set (c := e (V "Tt_cool")) in *. set (c' := e' (V "Tt_cool")) in *.
    replace ((Tg - T_metal r + pf r * (Tg - c)) / (T_metal r - c)) with ((1 + pf r) * ((Tg - T_metal r) / (T_metal r - c)) + pf r) by (field; lra).
    replace ((Tg' - T_metal r + pf r * (Tg' - c')) / (T_metal r - c')) with ((1 + pf r) * ((Tg' - T_metal r) / (T_metal r - c')) + pf r) by (field; lra).
    apply Rplus_le_compat_r. apply Rmult_le_compat_l; [lra|].
    unfold Rdiv. apply Rmult_le_compat; try lra. { apply Rlt_le, Rinv_0_lt_compat; lra. } apply Rinv_le_contravar; lra. }
  rewrite !rpow_pos by auto. apply Rle_Rpower_l; lra.
Qed.
(* energy leaving a row = energy entering - work; exactly: it balances for every stator, and for a rotor
   (which does turb_pwr / n_stages of work) if and only if it is uncooled or does no work.  The code divides the
   work by the primary flow instead of by the mixed flow. *)
Theorem C38_energy_partial (r : row) (e old : env) : let o := compute (cooling_calcs r) e old in
  (0 < n_stages r)%nat -> e (V "W_primary") <> 0 -> e (V "W_primary") + o (V "W_cool") <> 0 ->
  let E_in := e (V "W_primary") * e (V "ht_primary") + o (V "W_cool") * e (V "ht_cool") in
  let E_out := (e (V "W_primary") + o (V "W_cool")) * o (V "ht_out") in
  (Nat.even (i_row r) = true -> E_out = E_in) /\
  (Nat.even (i_row r) = false ->
     (E_out = E_in - e (V "turb_pwr") / INR (n_stages r) <-> o (V "W_cool") = 0 \/ e (V "turb_pwr") = 0)).
Proof.
  cbv zeta. cbn [cooling_calcs compute]. rewrite W_eq, ht_eq. intros Hn H1 H2. unfold hmix, cool_dh, is_stator.
  assert (HN : INR (n_stages r) <> 0) by (apply not_0_INR; lia).
  destruct (Nat.even (i_row r)); split; try discriminate; intros _.
  - field; auto.
  - set (w := cool_W r e) in *. set (W := e (V "W_primary")) in *. set (p := e (V "turb_pwr")) in *. set (N := INR (n_stages r)) in *.
    assert (E : (W + w) * ((W * e (V "ht_primary") + w * e (V "ht_cool")) / (W + w) - p / N / W) =
       W * e (V "ht_primary") + w * e (V "ht_cool") - p / N - (w * p) / (N * W)) by (field; auto).
    rewrite E. split.
    + intros K. assert (Z : w * p / (N * W) = 0) by lra.
      assert (Z2 : w * p = 0). { replace (w * p) with (w * p / (N * W) * (N * W)) by (field; auto). rewrite Z. ring. }
      apply Rmult_integral in Z2. exact Z2.
    + intros [K|K]; rewrite K; field; auto.
Qed.
Theorem C38_derivatives (r : row) :
  comp_ok (cooling_calcs r) (fun e => (0 < n_stages r)%nat /\ 0 < e (V "W_primary") /\ 0 <= e (V "x_factor") /\
    e (V "Tt_cool") < T_metal r /\ row_T_gas r (e (V "Tt_primary")) <> T_metal r).
Proof.
  assert (E : forall e, row_T_gas r (e (V "Tt_primary")) = cool_T_gas r e).
  { intros. unfold row_T_gas, cool_T_gas, is_stator. destruct (Nat.even (i_row r)); reflexivity. }
  destruct (cool_ok r) as [K1 [K2 K3]]. split; [|split; auto].
  intros hist e old o i Hd Ho Hi. rewrite E in Hd. apply K1; auto.
Qed.
(* at the temperature where cooling switches on the flow jumps: no derivative can exist there *)
Theorem C38_switch_on_is_a_jump_refuted (r : row) (e old : env) :
  row_T_gas r (e (V "Tt_primary")) = T_metal r -> e (V "Tt_cool") < T_metal r -> 0 < e (V "x_factor") -> 0 < e (V "W_primary") ->
  ~ continuity_pt (fun t => compute (cooling_calcs r) (upd e (V "Tt_primary") t) old (V "W_cool")) (e (V "Tt_primary")).
Proof.
  intros Hg Hc Hx HW K. cbn [cooling_calcs compute] in K.
  set (f := fun t => cool_compute r (upd e (V "Tt_primary") t) old (V "W_cool")) in *.
  assert (E : forall e', row_T_gas r (e' (V "Tt_primary")) = cool_T_gas r e').
  { intros. unfold row_T_gas, cool_T_gas, is_stator. destruct (Nat.even (i_row r)); reflexivity. }
  assert (P : 0 < f (e (V "Tt_primary"))).
  { unfold f. rewrite W_eq. apply W_pos; vsimp; auto. rewrite <- E, upd_eq. lra. }
  destruct (K (f (e (V "Tt_primary"))) P) as [d [Hd H]].
  set (t := e (V "Tt_primary") - d / 2).
  assert (Z : f t = 0).
  { unfold f. rewrite W_eq. apply W_cold. rewrite <- E, upd_eq. unfold row_T_gas, t in *.
    destruct (Nat.even (i_row r)); lra. }
  assert (D : Rabs (t - e (V "Tt_primary")) < d) by (unfold t; apply Rabs_def1; lra).
  assert (H' := H t). cbn in H'. unfold R_dist, D_x, no_cond in H'. assert (Ne : e (V "Tt_primary") <> t) by (unfold t; intros Q; lra).
  specialize (H' (conj (conj Logic.I Ne) D)).
  fold (f t) in H'. change (Rabs (f t - f (e (V "Tt_primary"))) < f (e (V "Tt_primary"))) in H'.
  rewrite Z in H'. rewrite Rminus_0_l, Rabs_Ropp in H'. rewrite Rabs_pos_eq in H' by lra. lra.
Qed.
(* the total pressure assigned to a row: rows of the last stage get the turbine INLET pressure and every earlier
   row gets the turbine EXIT pressure, so along a multi-stage turbine the pressure rises instead of falling *)
Theorem C38_row_pressure (r : row) (e old : env) : (0 < n_stages r)%nat -> (i_row r < 2 * n_stages r)%nat ->
  compute (cooling_calcs r) e old (V "Pt_stage") =
    if Nat.leb (2 * (n_stages r - 1)) (i_row r) then e (V "Pt_in") else e (V "Pt_out").
Proof.
  intros Hn Hi. cbn [cooling_calcs compute]. rewrite Pt_eq. unfold cool_i_stage.
  assert (D := Nat.div_mod (i_row r) 2 ltac:(lia)). assert (M := Nat.mod_upper_bound (i_row r) 2 ltac:(lia)).
  destruct (Nat.leb_spec (2 * (n_stages r - 1)) (i_row r)).
  - replace ((i_row r / 2 + 1)%nat) with (n_stages r) by lia. rewrite Nat.div_same by lia. cbn [INR]. ring.
  - rewrite Nat.div_small by lia. cbn [INR]. ring.
Qed.
Theorem C38_row_pressure_order_refuted : exists r1 r2 : row, n_stages r1 = n_stages r2 /\ (i_row r1 < i_row r2 < 2 * n_stages r2)%nat /\
  forall e old, e (V "Pt_out") < e (V "Pt_in") ->
    compute (cooling_calcs r1) e old (V "Pt_stage") < compute (cooling_calcs r2) e old (V "Pt_stage").
Proof.
  exists (mkRow 2 0 150 2460), (mkRow 2 2 150 2460). cbn [n_stages i_row]. split; auto. split; [lia|].
  intros e old H. rewrite !C38_row_pressure by (cbn [n_stages i_row]; lia). cbn. auto.
Qed.
(* total coolant is the sum over the rows, for any number of rows *)
Theorem C38_combined_flow (n : nat) (e old : env) :
  compute (combine_cooling n) e old (V "W_cool") = lsum (fun i => e (I "W_" i)) (seq 1 n) /\
  comp_ok (combine_cooling n) (fun _ => True).
Proof. split; [cbn [combine_cooling compute]; apply cc_sum|apply cc_ok]. Qed.
Example C38_example : let r := mkRow 2 1 150 2460 in
  let e := fun v => match v with V "Tt_primary" => 3000 | V "Tt_cool" => 1500 | _ => 1 end in
  (0 < n_stages r)%nat /\ 0 < e (V "W_primary") /\ 0 <= e (V "x_factor") /\ e (V "Tt_cool") < T_metal r /\
  T_metal r < row_T_gas r (e (V "Tt_primary")).
Proof. cbn. unfold row_T_gas. cbn. repeat split; try lia; lra. Qed.
