(* Claims C29-C31: compressor, turbine and their map scaling. *)
From Verif Require Import Lib_Loop Model_Turbo Proofs_Turbo Proofs_TurboLoop.
Open Scope string_scope. Open Scope list_scope. Open Scope R_scope.

(* ---------- C29 ---------- *)
(* For any bleed list and any inputs: what enters equals what leaves, shaft power (hp) is
   the enthalpy flow in minus the enthalpy flows out, torque times speed is that power. *)
Theorem C29_compressor_balance (bs : list string) (e old : env) : let o := compute (bleeds_and_power bs) e old in
  o (V "W_out") + lsum (fun b => o (B b "stat:W")) bs = e (V "W_in") /\
  o (V "power") = BTU_s2HP * (e (V "W_in") * e (V "ht_in")
     - (o (V "W_out") * e (V "ht_out") + lsum (fun b => o (B b "stat:W") * o (B b "ht")) bs)) /\
  (e (V "Nmech") <> 0 -> o (V "trq") * e (V "Nmech") = HP_per_RPM_to_FT_LBF * o (V "power")) /\
  (forall b, In b bs -> o (B b "stat:W") = e (B b "frac_W") * e (V "W_in")).
Proof.
  cbn [bleeds_and_power compute].
  assert (HS : forall f, lsum (fun b => bp_compute bs e old (B b "stat:W") * f b) bs = lsum (fun b => e (V "W_in") * e (B b "frac_W") * f b) bs).
  { intros f. apply lsum_ext. intros b Hb. rewrite bp_stat by auto. auto. }
  split; [|split; [|split]].
  - rewrite bp_W_out, lsum_opp. rewrite (lsum_ext (fun b => bp_compute bs e old (B b "stat:W")) (fun b => e (V "W_in") * e (B b "frac_W"))); [ring|].
    intros b Hb. apply bp_stat; auto.
  - rewrite HS, bp_power, bp_W_out.
    rewrite (lsum_ext (fun b => e (V "W_in") * e (B b "frac_W") * bp_compute bs e old (B b "ht"))
      (fun b => e (V "W_in") * e (B b "frac_W") * (e (V "ht_in") + e (B b "frac_work") * (e (V "ht_out") - e (V "ht_in"))))).
    2: { intros b Hb. rewrite bp_ht by auto. auto. }
    clear HS. induction bs as [|b r IH]; cbn [lsum]; [ring|]. nra.
  - intros HN. rewrite bp_trq_power. field. auto.
  - intros b Hb. rewrite bp_stat by auto. ring.
Qed.
(* each bleed leaves between the inlet and the exit state *)
Theorem C29_bleed_states (bs : list string) (e old : env) b : let o := compute (bleeds_and_power bs) e old in
  In b bs ->
  o (B b "Pt") - e (V "Pt_in") = e (B b "frac_P") * (e (V "Pt_out") - e (V "Pt_in")) /\
  o (B b "ht") - e (V "ht_in") = e (B b "frac_work") * (e (V "ht_out") - e (V "ht_in")) /\
  (0 <= e (B b "frac_P") <= 1 -> e (V "Pt_in") <= e (V "Pt_out") -> e (V "Pt_in") <= o (B b "Pt") <= e (V "Pt_out")) /\
  (0 <= e (B b "frac_work") <= 1 -> e (V "ht_in") <= e (V "ht_out") -> e (V "ht_in") <= o (B b "ht") <= e (V "ht_out")).
Proof.
  cbn [bleeds_and_power compute]. intros Hb. rewrite bp_Pt, bp_ht by auto. repeat split; try ring; nra.
Qed.
(* turbine: main flow and every bleed enter, one flow leaves *)
Theorem C29_turbine_balance (bs : list string) (e old : env) : let o := compute (enthalpy_and_power bs) e old in
  e (V "W_out") <> 0 ->
  o (V "power") = BTU_s2HP * (e (V "W_in") * e (V "ht_in") + lsum (fun b => e (B b "W") * e (B b "ht")) bs
     - e (V "W_out") * o (V "ht_out")) /\
  (e (V "Nmech") <> 0 -> o (V "trq") * e (V "Nmech") = HP_per_RPM_to_FT_LBF * o (V "power")) /\
  e (V "ht_in") - o (V "ht_out_b4bld") = e (V "eff") * (e (V "ht_in") - e (V "ht_out_ideal")).
Proof.
  cbn [enthalpy_and_power compute]. intros HW. split; [|split].
  - rewrite ep_power, ep_ht_out.
    rewrite (lsum_ext (fun b => e (B b "W") / e (V "W_out") * (e (B b "ht") * (1 - e (V "eff")) + e (B b "ht_ideal") * e (V "eff")))
      (fun b => e (B b "W") * (e (B b "ht") * (1 - e (V "eff")) + e (B b "ht_ideal") * e (V "eff")) / e (V "W_out"))) by (intros; field; auto).
    rewrite lsum_div. rewrite Rmult_plus_distr_l.
    replace (e (V "W_out") * (e (V "W_in") / e (V "W_out") * (e (V "ht_in") * (1 - e (V "eff")) + e (V "ht_out_ideal") * e (V "eff"))))
      with (e (V "W_in") * (e (V "ht_in") * (1 - e (V "eff")) + e (V "ht_out_ideal") * e (V "eff"))) by (field; auto).
    match goal with |- context [e (V "W_out") * (?x / e (V "W_out"))] => replace (e (V "W_out") * (x / e (V "W_out"))) with x by (field; auto) end.
    induction bs as [|b r IH]; cbn [lsum]; [ring|]. nra.
  - intros HN. rewrite ep_trq_power. field. auto.
  - rewrite ep_b4bld. ring.
Qed.
(* with an isentropic turbine and no bleeds the exit enthalpy is the ideal one; a lossless
   compressor follows the ideal enthalpy *)
Theorem C29_unit_efficiency (e old : env) :
  (e (V "eff") = 1 -> compute enthalpy_rise e old (V "ht_out") = e (V "ideal_ht")) /\
  (e (V "eff") = 1 -> e (V "W_in") = e (V "W_out") -> e (V "W_out") <> 0 ->
    compute (enthalpy_and_power []) e old (V "ht_out") = e (V "ht_out_ideal")) /\
  (e (V "eff") <> 0 -> e (V "eff") * (compute enthalpy_rise e old (V "ht_out") - e (V "inlet_ht")) = e (V "ideal_ht") - e (V "inlet_ht")) /\
  e (V "ht_in") - compute enthalpy_drop e old (V "ht_out") = e (V "eff") * (e (V "ht_in") - e (V "ht_out_ideal")).
Proof.
  cbn [enthalpy_rise enthalpy_and_power enthalpy_drop compute]. rewrite ep_ht_out. unfold er_compute, ed_compute. cbv zeta. vsimp. cbn [lsum].
  repeat split.
  - intros ->. field.
  - intros -> -> H. field. auto.
  - intros H. field. auto.
  - ring.
Qed.
Theorem C29_pressure (e old : env) :
  compute pressure_rise e old (V "Pt_out") = e (V "PR") * e (V "Pt_in") /\
  (e (V "PR") <> 0 -> e (V "PR") * compute pressure_drop e old (V "Pt_out") = e (V "Pt_in")).
Proof. cbn [pressure_rise pressure_drop compute]. unfold pr_compute, pd_compute. vsimp. split; [auto|]. intros. field. auto. Qed.
Example C29_example : let e := fun v => match v with V "W_out" => 2 | V "Nmech" => 1000 | _ => 1 end in
  e (V "W_out") <> 0 /\ e (V "Nmech") <> 0 /\ In "cool" ["cool"; "cust"].
Proof. cbv zeta. cbn [In]. repeat split; try lra. auto. Qed.

(* ---------- C30 ---------- *)
Theorem C30_compressor_derivatives (bs : list string) : NoDup bs ->
  comp_ok c_corrected_inputs (fun e => 0 < e (V "Tt") /\ 0 < e (V "Pt")) /\
  comp_ok c_eff_poly (fun e => 0 < e (V "PR") /\ e (V "Rt") * ln (e (V "PR")) + e (V "S_out") - e (V "S_in") <> 0) /\
  comp_ok power_comp (fun e => e (V "Nmech") <> 0) /\
  comp_ok (bleeds_and_power bs) (fun e => e (V "Nmech") <> 0) /\
  comp_ok enthalpy_rise (fun e => e (V "eff") <> 0) /\
  comp_ok pressure_rise (fun _ => True).
Proof.
  intros H. split; [exact cci_ok|split; [exact cep_ok|split; [exact power_ok|split; [exact (bp_ok bs H)|
    split; [exact enthalpy_rise_ok|exact pressure_rise_ok]]]]].
Qed.
Theorem C30_turbine_derivatives (bs : list string) : NoDup bs ->
  comp_ok t_corrected_inputs (fun e => 0 < e (V "Tt") /\ 0 < e (V "Pt")) /\
  comp_ok t_eff_poly (fun e => 0 < e (V "PR") /\ ln (1 / e (V "PR")) <> 0 /\ e (V "Rt") <> 0) /\
  comp_ok pressure_drop (fun e => e (V "PR") <> 0) /\
  comp_ok enthalpy_drop (fun _ => True) /\
  comp_ok (bleed_pressure bs) (fun _ => True) /\
  comp_ok (enthalpy_and_power bs) (fun e => e (V "Nmech") <> 0 /\ e (V "W_out") <> 0).
Proof.
  intros H. split; [exact tci_ok|split; [exact tep_ok|split; [exact pd_ok|split; [exact ed_ok|
    split; [exact (blp_ok bs)|exact (ep_ok bs H)]]]]].
Qed.
Theorem C30_map_derivatives :
  comp_ok stall_calcs (fun e => e (V "PR_actual") <> 0 /\ e (V "PR_SMN") <> 0 /\ e (V "Wc_SMN") <> 0) /\
  comp_ok c_map_scalars (fun e => e (V "NcMap") <> 0 /\ e (V "PRmap") - 1 <> 0 /\ e (V "effMap") <> 0 /\ e (V "WcMap") <> 0) /\
  comp_ok c_scaled_map (fun _ => True) /\
  comp_ok t_map_scalars (fun e => e (V "NpMap") <> 0 /\ e (V "PRmap") - 1 <> 0 /\ e (V "effMap") <> 0 /\ e (V "WpMap") <> 0) /\
  comp_ok t_scaled_map (fun _ => True).
Proof.
  split; [exact stall_ok|split; [exact cms_ok|split; [exact csm_ok|split; [exact tms_ok|exact tsm_ok]]]].
Qed.
Example C30_domain_example : let e := fun v => match v with V "PR" => 2 | V "S_in" => 0 | _ => 1 end in
  0 < e (V "PR") /\ e (V "Rt") * ln (e (V "PR")) + e (V "S_out") - e (V "S_in") <> 0 /\ ln (1 / e (V "PR")) <> 0.
Proof.
  cbv zeta. assert (0 < ln 2) by (rewrite <- ln_1; apply ln_increasing; lra).
  repeat split; try lra. unfold Rdiv. rewrite Rmult_1_l, ln_Rinv by lra. lra.
Qed.

(* ---------- C31 ---------- *)
(* e: the design point; e': an off-design point reading the same map values, with the scale
   factors the design point computed (connected by default_des_od_conns) *)
Theorem C31_compressor_round_trip (e e' old old' : env) :
  let s := compute c_map_scalars e old in
  let o := compute c_scaled_map e' old' in
  e (V "NcMap") <> 0 -> e (V "PRmap") <> 1 -> e (V "effMap") <> 0 -> e (V "WcMap") <> 0 ->
  (forall v, In v [V "NcMap"; V "PRmap"; V "effMap"; V "WcMap"] -> e' v = e v) ->
  (forall v, In v [V "s_Nc"; V "s_PR"; V "s_eff"; V "s_Wc"] -> e' v = s v) ->
  forall v, In v [V "Nc"; V "PR"; V "eff"; V "Wc"] -> o v = e v.
Proof.
  cbv zeta. cbn [c_map_scalars c_scaled_map compute]. intros H1 H2 H3 H4 Hm Hs v Hv.
  assert (H2' : e (V "PRmap") - 1 <> 0) by lra. unfold csm_compute.
  inlist Hv; cbv zeta; vsimp; rewrite (Hm (V _)) by (cbn [In]; tauto); rewrite Hs by (cbn [In]; tauto);
  unfold cms_compute; cbv zeta; vsimp; field; auto.
Qed.
Theorem C31_turbine_round_trip (e e' old old' : env) :
  let s := compute t_map_scalars e old in
  let o := compute t_scaled_map e' old' in
  e (V "NpMap") <> 0 -> e (V "PRmap") <> 1 -> e (V "effMap") <> 0 -> e (V "WpMap") <> 0 ->
  (forall v, In v [V "NpMap"; V "PRmap"; V "effMap"; V "WpMap"] -> e' v = e v) ->
  (forall v, In v [V "s_Np"; V "s_PR"; V "s_eff"; V "s_Wp"] -> e' v = s v) ->
  forall v, In v [V "Np"; V "PR"; V "eff"; V "Wp"] -> o v = e v.
Proof.
  cbv zeta. cbn [t_map_scalars t_scaled_map compute]. intros H1 H2 H3 H4 Hm Hs v Hv.
  assert (H2' : e (V "PRmap") - 1 <> 0) by lra. unfold tsm_compute.
  inlist Hv; cbv zeta; vsimp; rewrite (Hm (V _)) by (cbn [In]; tauto); rewrite Hs by (cbn [In]; tauto);
  unfold tms_compute; cbv zeta; vsimp; field; auto.
Qed.
(* conversely the scale factors are the only ones that do so *)
Theorem C31_scalars_unique (e e' old old' : env) :
  let s := compute c_map_scalars e old in
  let o := compute c_scaled_map e' old' in
  e (V "NcMap") <> 0 -> e (V "PRmap") <> 1 -> e (V "effMap") <> 0 -> e (V "WcMap") <> 0 ->
  (forall v, In v [V "NcMap"; V "PRmap"; V "effMap"; V "WcMap"] -> e' v = e v) ->
  (forall v, In v [V "Nc"; V "PR"; V "eff"; V "Wc"] -> o v = e v) ->
  forall v, In v [V "s_Nc"; V "s_PR"; V "s_eff"; V "s_Wc"] -> e' v = s v.
Proof.
  cbv zeta. cbn [c_map_scalars c_scaled_map compute]. intros H1 H2 H3 H4 Hm Ho v Hv.
  assert (H2' : e (V "PRmap") - 1 <> 0) by lra.
  assert (O1 := Ho (V "Nc") ltac:(cbn [In]; tauto)). assert (O2 := Ho (V "PR") ltac:(cbn [In]; tauto)).
  assert (O3 := Ho (V "eff") ltac:(cbn [In]; tauto)). assert (O4 := Ho (V "Wc") ltac:(cbn [In]; tauto)).
  revert O1 O2 O3 O4. unfold csm_compute. cbv zeta. vsimp.
  rewrite (Hm (V "NcMap")), (Hm (V "PRmap")), (Hm (V "effMap")), (Hm (V "WcMap")) by (cbn [In]; tauto). intros O1 O2 O3 O4.
  unfold cms_compute. cbv zeta. inlist Hv; vsimp.
  - rewrite <- O1. field; auto. - rewrite <- O2. field; auto. - rewrite <- O3. field; auto. - rewrite <- O4. field; auto.
Qed.
Example C31_example : let e := fun v => match v with V "PRmap" => 3 | _ => 2 end in
  e (V "NcMap") <> 0 /\ e (V "PRmap") <> 1 /\ e (V "effMap") <> 0 /\ e (V "WcMap") <> 0.
Proof. cbv zeta. lra. Qed.
