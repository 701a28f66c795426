(* Converged nozzle, mixer, compressor and turbine: the hypotheses of the C48 theorems are met. *)
From Coq Require Import FunctionalExtensionality Ascii Lia.
From Verif Require Import Lib_R Lib_Loop Spec_Wire Model_Thermo Proofs_Wire Prop_Static Prop_Thermo Model_Nozzle Prop_Elem2 Model_Elem1 Model_Elem2 Proofs_Elem Proofs_Elem2 Proofs_ElemEx Proofs_ElemEx2 Prop_Station Prop_Station5 Prop_Station7 Prop_Station8.
Open Scope string_scope. Open Scope list_scope. Open Scope R_scope.

(* ---------- a choked convergent nozzle: 450 K, 10 bar, pressure loss 1 - (99/100)^5, exhausting at Mach 7/3 if fully expanded ---------- *)
Definition nP0 : R := 1000000.
Definition nr5 : R := (99 / 100) ^ 5.
Definition nPth : R := nP0 * nr5.
Definition nS : R := 450 ^ 5 / nPth.
Definition nPson : R := 400 ^ 5 / nS.
Definition nTf : R := 32400 / 121.
Definition nPf : R := nTf ^ 5 / nS.
Definition nTi : R := nTf * (99 / 100).
Definition nVi : R := sqrt (2 * (720000 - 1600 * nTi)).
Definition nai : R := sqrt (400 * nTi).
Definition nA (T P V : R) : R := 1 / (P / (320 * T) * V).
Definition n_sonic := gstat 400 nPson 400 400 (nA 400 nPson 400) 1.
Definition n_full := gstat nTf nPf (8400 / 11) (3600 / 11) (nA nTf nPf (8400 / 11)) 1.
Definition n_ideal := gstat nTi nPf nVi nai (nA nTi nPf nVi) 1.
Definition n_Fg : R := 1 / ufac "lbm/s" / g_c * (nVi / ufac "ft/s") * ufac "lbf".
Definition ex_nozzle : state := est3
  [("mach_choked.MN", 400 / 400); ("Fl_I:stat:W", 1); ("PR", nPth / nPf); ("dPqP", 1 - nr5); ("Ps_exhaust", nPf); ("Ps_calc", nPf); ("press_calcs.Pt_th", nPth);
   ("staticMN.S", nS); ("staticMN.guess:Pt", nPth); ("staticMN.guess:gamt", 5 / 4); ("staticPs.S", nS); ("mux.S", nS); ("Throat:stat:S", nS); ("Fl_O:stat:S", nS); ("Cfg", 99 / 100);
   ("perf_calcs.V_ideal", nVi); ("perf_calcs.Fg_ideal", n_Fg); ("Fg", 99 / 100 * n_Fg)]
  [("Fl_I:tot:", gtot 450 nP0); ("Fl_O:tot:", gtot 450 nPth); ("throat_total.", gtot 450 nPth); ("staticMN.", n_sonic); ("staticPs.", n_full); ("ideal_flow.", n_ideal);
   ("mux.MN:", n_sonic); ("mux.Ps:", n_full); ("Throat:stat:", n_sonic); ("Fl_O:stat:", n_sonic)].
Lemma nr5_pos : 0 < nr5. Proof. unfold nr5. lra. Qed.
Lemma nPth_pos : 0 < nPth. Proof. pose proof nr5_pos. unfold nPth, nP0. lra. Qed.
Lemma nS_pos : 0 < nS. Proof. pose proof nPth_pos. unfold nS. apply Rdiv_lt_0_compat; lra. Qed.
Lemma nPson_pos : 0 < nPson. Proof. pose proof nS_pos. unfold nPson. apply Rdiv_lt_0_compat; lra. Qed.
Lemma nPf_pos : 0 < nPf. Proof. pose proof nS_pos. unfold nPf, nTf. apply Rdiv_lt_0_compat; lra. Qed.
Lemma n_choked : nPf < nPson.
Proof. pose proof nS_pos. unfold nPf, nPson, nTf, Rdiv. apply Rmult_lt_compat_r; [apply Rinv_0_lt_compat; lra|lra]. Qed.
Lemma nS_son : 400 ^ 5 / nPson = nS. Proof. pose proof nS_pos. unfold nPson. field. lra. Qed.
Lemma nS_full : nTf ^ 5 / nPf = nS. Proof. pose proof nS_pos. unfold nPf, nTf. field. lra. Qed.
Lemma nS_ideal : nTi ^ 5 / nPf = 450 ^ 5 / nP0.
Proof. pose proof nr5_pos. unfold nTi, nPf, nS, nPth, nP0. rewrite Rpow_mult_distr. fold nr5. unfold nTf. field. lra. Qed.
Lemma nA_ok T P V : 0 < T -> 0 < P -> 0 < V -> 1 = P / (320 * T) * V * nA T P V.
Proof. intros. unfold nA. field. lra. Qed.
Lemma nA_pos T P V : 0 < T -> 0 < P -> 0 < V -> 0 < nA T P V.
Proof. intros. unfold nA. apply Rdiv_lt_0_compat; [lra|]. apply Rmult_lt_0_compat; [apply Rdiv_lt_0_compat; lra|lra]. Qed.
Lemma nVi_sq : nVi * nVi = 2 * (720000 - 1600 * nTi). Proof. unfold nVi. apply sqrt_sqrt. unfold nTi, nTf. lra. Qed.
Lemma nai_sq : nai * nai = 400 * nTi. Proof. unfold nai. apply sqrt_sqrt. unfold nTi, nTf. lra. Qed.
Lemma nVi_pos : 0 < nVi. Proof. unfold nVi. apply sqrt_lt_R0. unfold nTi, nTf. lra. Qed.
Lemma nai_pos : 0 < nai. Proof. unfold nai. apply sqrt_lt_R0. unfold nTi, nTf. lra. Qed.
Lemma nMi : / 1000 <= nVi / nai.
Proof.
  pose proof nVi_pos. pose proof nai_pos. assert (L : nai <= nVi) by (unfold nai, nVi; apply sqrt_le_1_alt; unfold nTi, nTf; lra).
  apply Rle_trans with 1; [lra|]. apply (Rmult_le_reg_r nai); [lra|]. replace (nVi / nai * nai) with nVi by (field; lra). lra.
Qed.
Ltac gs_tac := first [intros ?; exact nS_son | intros ?; exact nS_full | intros ?; exact nS_ideal | exact nS_son | exact nS_full | exact nS_ideal | symmetry; exact nS_son | symmetry; exact nS_full].
Example C48_nozzle_ex : solves (nozzle gas2 TABULAR CV Cfg) ex_nozzle /\ val ex_nozzle "Ps_exhaust" < val ex_nozzle "staticMN.flow:P".
Proof.
  split; [|exact n_choked]. split; [|ex_conns]. intros s Hs. unfold nozzle in Hs. cbn [subs app map] in Hs. repeat destruct Hs as [<-|Hs]; try contradiction.
  - change (400 / 400 / 1 = 1). field.
  - exact Logic.I.
  - intros o Ho. inlist Ho. change (nPf / ufac "lbf/inch**2" - nPf / ufac "lbf/inch**2" = 0). ring.
  - intros o Ho. assert (N := ufac_n0 "lbf/inch**2"). inlist Ho.
    + change (nPth / ufac "lbf/inch**2" = nP0 / ufac "lbf/inch**2" * (1 - (1 - nr5) / 1)). unfold nPth. field. exact N.
    + change (nPf / ufac "lbf/inch**2" = nP0 / ufac "lbf/inch**2" * (1 - (1 - nr5) / 1) / (nPth / nPf / 1)). pose proof nPf_pos. pose proof nr5_pos. unfold nPth, nP0. field. repeat split; try exact N; lra.
  - gx_tot 450 nPth fail.
  - gx_stat 400 nPson 400 400 (nA 400 nPson 400) 1 (1600 * 450) ltac:(first [exact nPson_pos | apply nA_pos; try lra; exact nPson_pos | apply nA_ok; try lra; exact nPson_pos | lra]) gs_tac.
  - assert (pT : 0 < nTf) by (unfold nTf; lra).
    gx_stat nTf nPf (8400 / 11) (3600 / 11) (nA nTf nPf (8400 / 11)) 1 (1600 * 450) ltac:(first [exact nPf_pos | apply nA_pos; try lra; exact nPf_pos | apply nA_ok; try lra; exact nPf_pos | unfold nTf; lra]) gs_tac.
  - assert (pT : 0 < nTi) by (unfold nTi, nTf; lra). assert (Q := nVi_sq).
    gx_stat nTi nPf nVi nai (nA nTi nPf nVi) 1 (1600 * 450) ltac:(first [exact pT | exact nPf_pos | exact nVi_pos | exact nai_pos | exact nai_sq | exact nMi | apply nA_pos; [lra|exact nPf_pos|exact nVi_pos] | apply nA_ok; [lra|exact nPf_pos|exact nVi_pos] | lra]) gs_tac.
  - cbn [mux_sub srel]. intros o Ho Hc. match goal with |- vget ?lo o = compute (mux CV "Fl_O") ?ee _ o => set (e := ee); set (l := lo) end.
    assert (Ch : e (V "Ps_calc") < e (B "MN" "P")).
    { change (nPf / ufac "lbf/inch**2" < nPson / ufac "lbf/inch**2"). unfold Rdiv. apply Rmult_lt_compat_r; [apply Rinv_0_lt_compat, ufac_pos|exact n_choked]. }
    assert (M : forall p, In p nozzle_props -> compute (mux CV "Fl_O") e (fun _ => 0) (stat "Throat" p) = e (B "MN" p) /\ compute (mux CV "Fl_O") e (fun _ => 0) (stat "Fl_O" p) = e (B "MN" p))
      by (intros p Hp; destruct (C37_mux_selects CV "Fl_O" p e (fun _ => 0) ltac:(discriminate) Hp) as (M1 & _); destruct (M1 eq_refl) as [M2 _]; exact (M2 Ch)).
    destruct (C37_mux_selects CV "Fl_O" "h" e (fun _ => 0) ltac:(discriminate) ltac:(inp)) as (_ & _ & _ & S1 & S2).
    assert (L : forall p, In p nozzle_props -> vget l (stat "Throat" p) = e (B "MN" p) /\ vget l (stat "Fl_O" p) = e (B "MN" p)).
    { intros p Hp. cbn in Hp. repeat destruct Hp as [<-|Hp]; try contradiction; split; reflexivity. }
    cbn [mux outs] in Ho. inflat Ho; [congruence| | | |].
    + etransitivity; [|symmetry; exact S1]. reflexivity.
    + etransitivity; [|symmetry; exact S2]. reflexivity.
    + rewrite (proj1 (M _ ltac:(eassumption))). apply L. assumption.
    + rewrite (proj2 (M _ ltac:(eassumption))). apply L. assumption.
  - intros o Ho. assert (N1 := ufac_n0 "lbm/s"). assert (N2 := ufac_n0 "ft/s"). assert (N3 := ufac_n0 "lbf"). assert (N4 : g_c <> 0) by (unfold g_c; lra). inlist Ho.
    + change (n_Fg / ufac "lbf" = 1 / ufac "lbm/s" / g_c * (nVi / ufac "ft/s")). unfold n_Fg. field. auto.
    + change (99 / 100 * n_Fg / ufac "lbf" = 1 / ufac "lbm/s" / g_c * (nVi / ufac "ft/s") * (99 / 100 / 1)). unfold n_Fg. field. auto.
Qed.

(* ---------- a mixer in design: 50 kg/s at 400 K, 200 m/s and 50 kg/s at 800 K, 400 m/s, both at 32000 Pa and on 1 m^2 ---------- *)
Definition mV : R := (940 - sqrt 156400) * 5 / 9.
Definition mh : R := 1010000.
Definition mT : R := (mh - mV * mV / 2) / 1600.
Definition mP : R := 16000 * mT / mV.
Definition ma : R := sqrt (400 * mT).
Definition mS : R := mT ^ 5 / mP.
Definition mTt : R := mh / 1600.
Definition mPt : R := mTt ^ 5 / mS.
Definition m_1 := gstat 400 32000 200 400 1 50.
Definition m_2 := gstat 800 32000 400 (sqrt 320000) 1 50.
Definition m_o := gstat mT mP mV ma 2 100.
Definition mS1 : R := 400 ^ 5 / 32000.
Definition mPt1 : R := (825 / 2) ^ 5 / mS1.
Definition ex_mixer : state := est3
  [("Fl_I1:tot:S", mS1); ("Fl_I1:tot:h", 660000); ("Fl_I2:tot:h", 1360000); ("area", 2); ("Fl_I1_stat_calc.base_thermo.S", mS1); ("ER", mPt1 / (900 ^ 5));
   ("flow_add.Wout", 100); ("flow_add.mass_avg_h", mh); ("out_tot.h", mh); ("Fl_O:tot:h", mh); ("out_stat.ht", mh); ("out_tot.base_thermo.h", mh); ("out_stat.W", 100);
   ("Fl_O:tot:S", mS); ("out_stat.S", mS); ("out_tot.S", mS); ("out_stat.guess:Pt", mPt); ("out_stat.guess:gamt", 5 / 4);
   ("impulse_mix.impulse_mix", 94000); ("imp_out.impulse", 94000); ("balance.lhs:P_tot", 94000); ("balance.rhs:P_tot", 94000); ("balance.P_tot", mPt);
   ("area_calc.Fl_I1:stat:area", 1)]
  [("Fl_I1:tot:", gtot (825 / 2) mPt1); ("Fl_I2:tot:", gtot 900 (900 ^ 5)); ("Fl_I1:stat:", m_1); ("Fl_I1_calc:stat:", m_1); ("Fl_I1_stat_calc.", m_1); ("Fl_I2:stat:", m_2);
   ("Fl_O:tot:", gtot mTt mPt); ("out_tot.", gtot mTt mPt); ("Fl_O:stat:", m_o); ("out_stat.", m_o); ("imp_out.", m_o)].
Lemma m_root : 395 < sqrt 156400 < 396.
Proof.
  assert (H : sqrt 156400 * sqrt 156400 = 156400) by (apply sqrt_sqrt; lra). assert (P := sqrt_pos 156400).
  split; apply Rnot_le_lt; intros K; [assert (sqrt 156400 * sqrt 156400 <= 395 * 395) by (apply Rmult_le_compat; lra)|assert (396 * 396 <= sqrt 156400 * sqrt 156400) by (apply Rmult_le_compat; lra)]; lra.
Qed.
Lemma mV_bounds : 300 < mV < 304. Proof. destruct m_root. unfold mV. lra. Qed.
Lemma mV_eq : 9 * (mV * mV) - 9400 * mV + 2020000 = 0.
Proof. assert (H : sqrt 156400 * sqrt 156400 = 156400) by (apply sqrt_sqrt; lra). unfold mV. nra. Qed.
Lemma mT_bounds : 400 < mT < 1000.
Proof. destruct mV_bounds. assert (0 < mV * mV < 304 * 304) by (split; nra). unfold mT, mh. lra. Qed.
Lemma mP_pos : 0 < mP. Proof. destruct mV_bounds, mT_bounds. unfold mP. apply Rdiv_lt_0_compat; lra. Qed.
Lemma m_impulse : mP * 2 + 100 * mV = 94000.
Proof.
  destruct mV_bounds. pose proof mV_eq. unfold mP, mT, mh.
  replace (16000 * ((1010000 - mV * mV / 2) / 1600) / mV * 2 + 100 * mV) with ((20 * (1010000 - mV * mV / 2) + 100 * (mV * mV)) / mV) by (field; lra).
  replace (20 * (1010000 - mV * mV / 2) + 100 * (mV * mV)) with (94000 * mV) by lra. field. lra.
Qed.
Lemma mS_pos : 0 < mS. Proof. destruct mT_bounds. pose proof mP_pos. unfold mS. apply Rdiv_lt_0_compat; [apply pow_lt; lra|lra]. Qed.
Lemma mS_tot : mTt ^ 5 / mPt = mS.
Proof. pose proof mS_pos. unfold mPt, mTt, mh. field. lra. Qed.
Lemma ma_sq : ma * ma = 400 * mT. Proof. destruct mT_bounds. unfold ma. apply sqrt_sqrt. lra. Qed.
Lemma ma_pos : 0 < ma. Proof. destruct mT_bounds. unfold ma. apply sqrt_lt_R0. lra. Qed.
Lemma ma_M : / 1000 <= mV / ma.
Proof.
  destruct mV_bounds, mT_bounds. pose proof ma_pos. assert (L : ma <= 1000) by (unfold ma; replace 1000 with (sqrt (1000 * 1000)) by (apply sqrt_square; lra); apply sqrt_le_1_alt; lra).
  apply (Rmult_le_reg_r ma); [lra|]. replace (mV / ma * ma) with mV by (field; lra). lra.
Qed.
Ltac ms_tac := first [reflexivity | intros ?; exact mS_tot | exact mS_tot | intros ?; change (1600 * mTt = mh); unfold mTt; field | change (1600 * mTt = mh); unfold mTt; field | intros ?; symmetry; exact mS_tot | symmetry; exact mS_tot | intros ?; change (mh = 1600 * mTt); unfold mTt; field | change (mh = 1600 * mTt); unfold mTt; field].
Definition ex_madd : tab_adder := mkTabAdder 1 None ["mix"] [0].
Example C48_mixer_ex : flow_adder (ATab ex_madd) ["mix"] /\ solves (mixer gas2 TABULAR (ATab ex_madd) true true) ex_mixer.
Proof.
  split; [exists (mkTab None TFlow ["mix"]); repeat split; reflexivity|].
  split; [|ex_conns]. intros s Hs. unfold mixer in Hs. cbn [subs app map] in Hs. repeat destruct Hs as [<-|Hs]; try contradiction.
  - exact Logic.I.
  - exact Logic.I.
  - gx_stat 400 32000 200 400 1 50 660000 ltac:(lra) ltac:(ms_tac).
  - intros o Ho. inlist Ho. change (2 / 1 = 1 / 1 + 1 / 1). field.
  - change (mPt1 / (900 ^ 5) / 1 = mPt1 / 1 / (900 ^ 5 / 1)). unfold Rdiv. rewrite Rinv_1. ring_simplify. rewrite Rmult_1_r. reflexivity.
  - cbn [add_sub srel]. intros o Ho. pose proof (ufac_pos "lbm/s"). pose proof (ufac_pos "Btu/lbm"). set (u := ufac "lbm/s") in *. set (v := ufac "Btu/lbm") in *.
    cbn in Ho. repeat destruct Ho as [<-|Ho]; try contradiction.
    + change (mh / v = (50 / u * (660000 / v) + 50 / u * (1360000 / v)) / (0 + 50 / u + 50 / u)). unfold mh. field. lra.
    + change (100 / u = 0 + 50 / u + 50 / u). field. lra.
    + change (0 / 1 = ((0 + 50 / u / (1 + (0 / 1 + 0)) * (0 / 1)) + 50 / u / (1 + (0 / 1 + 0)) * (0 / 1)) / (50 / u / (1 + (0 / 1 + 0)) + 50 / u / (1 + (0 / 1 + 0)))). field. lra.
  - intros o Ho. inlist Ho. change (94000 / 1 = (32000 / 1 * (1 / 1) + 50 / 1 * (200 / 1)) + (32000 / 1 * (1 / 1) + 50 / 1 * (400 / 1))). field.
  - apply (group_make _ _ _ _ _ ex_mixer); [|allx|allx]. split; [|ex_conns]. intros s Hs. unfold mix_conv in Hs. cbn [subs] in Hs. repeat destruct Hs as [<-|Hs]; try contradiction.
    + gx_tot mTt mPt ltac:(ms_tac).
    + destruct mV_bounds, mT_bounds. gx_stat mT mP mV ma 2 100 mh ltac:(first [exact mP_pos | exact ma_pos | exact ma_sq | exact ma_M | unfold mP; field; lra | unfold mT; field | lra]) ltac:(ms_tac).
    + intros o Ho. inlist Ho. change (94000 / 1 = mP / 1 * (2 / 1) + 100 / 1 * (mV / 1)). rewrite <- m_impulse. field.
    + intros b Hb. cbn in Hb. repeat destruct Hb as [<-|Hb]; try contradiction; reflexivity.
Qed.

(* ---------- a compressor in design: pressure ratio 32 at efficiency 1/2, from 137.5 K, half of the flow bled at the exit ---------- *)
Definition cmap (a n r : R) (x : string) (v : R) : Prop := v = lookup 0 [("effMap", 1 / 4); ("PRmap", 1 + n + r); ("WcMap", n + r)] x.
Definition cNc : R := 1000 * rpow (275 / 2 / ufac "degR" / T_STDeng) (- (1 / 2)).
Definition cWc : R := 2 * exW / ufac "lbm/s" * rpow (275 / 2 / ufac "degR" / T_STDeng) (1 / 2) / (exPt / 32 / ufac "psi" / P_STDeng).
Definition c_Sin : R := (275 / 2) ^ 5 / (exPt / 32).
Definition c_Sout : R := (825 / 2) ^ 5 / exPt.
Definition cpoly (u : R) : R := 320 / u * ln 32 / (320 / u * ln 32 + c_Sout / u - c_Sin / u).
Definition cpow : R := 2 * exW / ufac "lbm/s" * (220000 / ufac "Btu/lbm" - 660000 / ufac "Btu/lbm") * BTU_s2HP.
Definition c_in := gtot (275 / 2) (exPt / 32).
Definition c_id := gtot 275 exPt.
Definition c_out := gtot (825 / 2) exPt.
Definition c_st := gstat 400 exPs 200 400 1 exW.
(* the map of the compressor at NcMap = 1 rpm, RlineMap = 2, stalling at RlineMap = 1 *)
Definition ex_cmap : state := fun x _ => lookup 0
  [("alphaMap", 0); ("NcMap", ufac "rpm"); ("RlineMap", 2); ("effMap", 1 / 4); ("PRmap", 4); ("WcMap", 3 * ufac "lbm/s");
   ("Nc", cNc * ufac "rpm"); ("Wc", cWc * ufac "lbm/s"); ("PR", 32); ("eff", 1 / 2);
   ("s_Nc", cNc); ("s_PR", 31 / 3); ("s_eff", 2); ("s_Wc", cWc / 3); ("stall_R.RlineStall", 1); ("SMN_map.RlineMap", 1); ("SMW_map.RlineMap", 1);
   ("SMN_map.effMap", 1 / 4); ("SMN_map.PRmap", 3); ("SMN_map.WcMap", 2 * ufac "lbm/s"); ("SMW_bal.NcMap", 2 * ufac "rpm"); ("SMW_map.NcMap", 2 * ufac "rpm");
   ("SMW_map.effMap", 1 / 4); ("SMW_map.PRmap", 4); ("SMW_map.WcMap", 3 * ufac "lbm/s"); ("SMW_bal.lhs:NcMap", 3 * ufac "lbm/s"); ("SMW_bal.rhs:NcMap", 3 * ufac "lbm/s");
   ("stall_margins.PR_SMN", 3); ("stall_margins.PR_SMW", 4); ("stall_margins.Wc_SMN", 2 * ufac "lbm/s"); ("SMN", 25 / 2); ("SMW", 0)] x.

Definition strip4 (x : string) : string := match x with String _ (String _ (String _ (String _ y))) => y | _ => x end.
Definition ex_comp : state := fun x k =>
  if prefix "map." x then ex_cmap (strip4 x) k else
  est3
  [("Nmech", 1000 * ufac "rpm"); ("Nc", cNc * ufac "rpm"); ("Wc", cWc * ufac "lbm/s"); ("PR", 32); ("eff", 1 / 2); ("s_Nc", cNc); ("s_PR", 31 / 3); ("s_eff", 2); ("s_Wc", cWc / 3); ("SMN", 25 / 2); ("SMW", 0);
   ("press_rise.Pt_out", exPt); ("enth_rise.ideal_ht", 440000); ("enth_rise.ht_out", 660000); ("blds_pwr.ht_out", 660000); ("real_flow.h", 660000); ("ideal_flow.h", 440000);
   ("Fl_I:tot:h", 220000); ("Fl_O:tot:h", 660000); ("real_flow.base_thermo.h", 660000); ("b1_flow.base_thermo.h", 660000); ("ideal_flow.base_thermo.S", c_Sin); ("Fl_I:tot:S", c_Sin); ("ideal_flow.flow:S", c_Sin);
   ("Fl_O:tot:S", c_Sout); ("eff_poly", cpoly (ufac "Btu/(lbm*degR)"));
   ("Fl_I:stat:W", 2 * exW); ("W_out", exW); ("power", cpow * ufac "hp"); ("trq", HP_per_RPM_to_FT_LBF * cpow / 1000 * ufac "ft*lbf");
   ("b1:frac_W", 1 / 2); ("b1:frac_P", 1); ("b1:frac_work", 1); ("b1:stat:W", exW); ("b1:Pt", exPt); ("b1:ht", 660000); ("b1_flow.h", 660000); ("b1:tot:h", 660000);
   ("MN", 200 / 400); ("out_stat.ht", 660000); ("out_stat.S", c_Sout); ("out_stat.guess:Pt", exPt); ("out_stat.guess:gamt", 5 / 4); ("out_stat.W", exW)]
  [("Fl_I:tot:", c_in); ("Fl_O:tot:", c_out); ("real_flow.", c_out); ("ideal_flow.", c_id); ("b1:tot:", c_out); ("b1_flow.", c_out); ("Fl_O:stat:", c_st); ("out_stat.", c_st)] x k.
Lemma exPt_pos : 0 < exPt. Proof. pose proof exPs_pos. unfold exPt, exS. repeat apply Rdiv_lt_0_compat; try lra. Qed.
Lemma exW_pos2 : 0 < exW. Proof. pose proof exrho_pos. unfold exW. lra. Qed.
Lemma cS_id : 275 ^ 5 / exPt = c_Sin. Proof. pose proof exPt_pos. unfold c_Sin. field. lra. Qed.
Lemma cS_st : 400 ^ 5 / exPs = c_Sout. Proof. pose proof exPs_pos. unfold c_Sout, exPt, exS. field. lra. Qed.
Ltac cs_tac := first [reflexivity | intros ?; exact cS_id | exact cS_id | symmetry; exact cS_id | intros ?; exact cS_st | exact cS_st | symmetry; exact cS_st
  | intros ?; change (1600 * 275 = 440000); field | intros ?; change (440000 = 1600 * 275); field | change (1600 * 275 = 440000); field | change (440000 = 1600 * 275); field
  | intros ?; change (660000 = 1600 * (825 / 2)); field | intros ?; change (1600 * (825 / 2) = 660000); field | change (660000 = 1600 * (825 / 2)); field | change (1600 * (825 / 2) = 660000); field].
Ltac ez := intros; repeat apply ufac_n0; try lra.
Example C48_compressor_map_ex : solves (compressor_map cmap 1 true) ex_cmap.
Proof.
  assert (Nl := ufac_n0 "lbm/s"). assert (Nr := ufac_n0 "rpm").
  split; [|ex_conns]. intros s Hs. unfold compressor_map in Hs. cbn [subs app map] in Hs. repeat destruct Hs as [<-|Hs]; try contradiction.
  - intros x Hx. inlist Hx; unfold cmap; match goal with |- _ = ?r => change r with r end.
    + change (1 / 4 / 1 = 1 / 4). field.
    + change (4 / 1 = 1 + ufac "rpm" / ufac "rpm" + 2 / 1). field. exact Nr.
    + change (3 * ufac "lbm/s" / ufac "lbm/s" = ufac "rpm" / ufac "rpm" + 2 / 1). field. auto.
  - intros o Ho. inlist Ho.
    + change (cNc / 1 = cNc * ufac "rpm" / ufac "rpm" / (ufac "rpm" / ufac "rpm")). field. exact Nr.
    + change (31 / 3 / 1 = (32 / 1 - 1) / (4 / 1 - 1)). field.
    + change (2 / 1 = 1 / 2 / 1 / (1 / 4 / 1)). field.
    + change (cWc / 3 / 1 = cWc * ufac "lbm/s" / ufac "lbm/s" / (3 * ufac "lbm/s" / ufac "lbm/s")). field. exact Nl.
  - change (1 / 1 = 1). field.
  - intros x Hx. inlist Hx; unfold cmap.
    + change (1 / 4 / 1 = 1 / 4). field.
    + change (3 / 1 = 1 + ufac "rpm" / ufac "rpm" + 1 / 1). field. exact Nr.
    + change (2 * ufac "lbm/s" / ufac "lbm/s" = ufac "rpm" / ufac "rpm" + 1 / 1). field. auto.
  - intros x Hx. inlist Hx; unfold cmap.
    + change (1 / 4 / 1 = 1 / 4). field.
    + change (4 / 1 = 1 + 2 * ufac "rpm" / ufac "rpm" + 1 / 1). field. exact Nr.
    + change (3 * ufac "lbm/s" / ufac "lbm/s" = 2 * ufac "rpm" / ufac "rpm" + 1 / 1). field. auto.
  - intros b Hb. cbn in Hb. repeat destruct Hb as [<-|Hb]; try contradiction; reflexivity.
  - intros o Ho. inlist Ho.
    + change (25 / 2 / 1 = (3 * ufac "lbm/s" / ufac "lbm/s" / (2 * ufac "lbm/s" / ufac "lbm/s") / (4 / 1 / (3 / 1)) - 1) * 100). field. exact Nl.
    + change (0 / 1 = (4 / 1 - 4 / 1) / (4 / 1) * 100). field.
Qed.
Example C48_compressor_ex : (forall b, In b ["b1"] -> ok_name (b ++ ":tot")) /\ solves (compressor gas2 TABULAR cmap 1 ["b1"] true true) ex_comp.
Proof.
  split; [intros b Hb; inlist Hb; okx|].
  assert (Nl := ufac_n0 "lbm/s"). assert (Nr := ufac_n0 "rpm"). assert (Np := ufac_n0 "psi"). assert (Ni := ufac_n0 "lbf/inch**2"). assert (Nb := ufac_n0 "Btu/lbm"). assert (PW := exW_pos2). assert (PP := exPt_pos).
  split; [|ex_conns]. intros s Hs. unfold compressor in Hs. cbn [subs app map] in Hs. repeat destruct Hs as [<-|Hs]; try contradiction; cbv beta iota delta [stat_mode].
  - exact Logic.I.
  - intros o Ho. inlist Ho.
    + change (cWc * ufac "lbm/s" / ufac "lbm/s" = cWc). field. exact Nl.
    + change (cNc * ufac "rpm" / ufac "rpm" = 1000 * ufac "rpm" / ufac "rpm" * rpow (275 / 2 / ufac "degR" / T_STDeng) (- (1 / 2))). replace (1000 * ufac "rpm" / ufac "rpm") with 1000 by (field; exact Nr). unfold cNc. field. exact Nr.
  - apply (group_make _ _ _ _ _ ex_cmap C48_compressor_map_ex); allx.
  - intros o Ho. inlist Ho. change (exPt / ufac "lbf/inch**2" = 32 / 1 * (exPt / 32 / ufac "lbf/inch**2")). field. exact Ni.
  - gx_tot 275 exPt ltac:(cs_tac).
  - intros o Ho. inlist Ho. change (660000 / ufac "Btu/lbm" = (440000 / ufac "Btu/lbm" - 220000 / ufac "Btu/lbm") / (1 / 2 / 1) + 220000 / ufac "Btu/lbm"). field. exact Nb.
  - gx_tot (825 / 2) exPt ltac:(cs_tac).
  - intros o Ho. inlist Ho. change (cpoly (ufac "Btu/(lbm*degR)") / 1 = 320 / ufac "Btu/(lbm*degR)" * ln (32 / 1) / (320 / ufac "Btu/(lbm*degR)" * ln (32 / 1) + c_Sout / ufac "Btu/(lbm*degR)" - c_Sin / ufac "Btu/(lbm*degR)")).
    replace (32 / 1) with 32 by field. change (cpoly (ufac "Btu/(lbm*degR)") / 1 = cpoly (ufac "Btu/(lbm*degR)")). unfold Rdiv. rewrite Rinv_1. ring.
  - intros o Ho. inlist Ho.
    + change (exW / ufac "lbm/s" = 2 * exW / ufac "lbm/s" - 2 * exW / ufac "lbm/s" * (1 / 2 / 1)). field. exact Nl.
    + change (cpow * ufac "hp" / ufac "hp" = 2 * exW / ufac "lbm/s" * (220000 / ufac "Btu/lbm" - 660000 / ufac "Btu/lbm") * BTU_s2HP -
        2 * exW / ufac "lbm/s" * (1 / 2 / 1) * (220000 / ufac "Btu/lbm" + 1 / 1 * (660000 / ufac "Btu/lbm" - 220000 / ufac "Btu/lbm") - 660000 / ufac "Btu/lbm") * BTU_s2HP).
      assert (Nh := ufac_n0 "hp"). unfold cpow. field. auto.
    + change (HP_per_RPM_to_FT_LBF * cpow / 1000 * ufac "ft*lbf" / ufac "ft*lbf" = HP_per_RPM_to_FT_LBF * (2 * exW / ufac "lbm/s" * (220000 / ufac "Btu/lbm" - 660000 / ufac "Btu/lbm") * BTU_s2HP -
        2 * exW / ufac "lbm/s" * (1 / 2 / 1) * (220000 / ufac "Btu/lbm" + 1 / 1 * (660000 / ufac "Btu/lbm" - 220000 / ufac "Btu/lbm") - 660000 / ufac "Btu/lbm") * BTU_s2HP) / (1000 * ufac "rpm" / ufac "rpm")).
      assert (Nf := ufac_n0 "ft*lbf"). unfold cpow. field. auto.
    + change (exW / ufac "lbm/s" = 2 * exW / ufac "lbm/s" * (1 / 2 / 1)). field. exact Nl.
    + change (exPt / ufac "psi" = exPt / 32 / ufac "psi" + 1 / 1 * (exPt / ufac "psi" - exPt / 32 / ufac "psi")). field. exact Np.
    + change (660000 / ufac "Btu/lbm" = 220000 / ufac "Btu/lbm" + 1 / 1 * (660000 / ufac "Btu/lbm" - 220000 / ufac "Btu/lbm")). field. exact Nb.
  - gx_tot (825 / 2) exPt ltac:(cs_tac).
  - gx_stat 400 exPs 200 400 1 exW 660000 ltac:(first [exact exPs_pos | unfold exW, exrho; field | lra]) ltac:(cs_tac).
Qed.

(* ---------- a turbine in design: pressure ratio 32 at efficiency 1/2, from 825 K, with an equal cooling flow at 275 K and inlet pressure ---------- *)
Definition tmap (a n r : R) (x : string) (v : R) : Prop := v = lookup 0 [("effMap", 1 / 4); ("WpMap", n + r)] x.
Definition tNp : R := 1000 * rpow (825 / ufac "degR") (- (1 / 2)).
Definition tWp : R := exW / 2 / ufac "lbm/s" * rpow (825 / ufac "degR") (1 / 2) / (32 * exPt / ufac "psi").
Definition tSin : R := 825 ^ 5 / (32 * exPt).
Definition tSb4 : R := (2475 / 4) ^ 5 / exPt.
Definition tSbl : R := 275 ^ 5 / (32 * exPt).
Definition tpoly (u : R) : R := 1 + (tSb4 / u - tSin / u) / (320 / u * ln (1 / 32)).
Definition tpow : R := (exW / 2) / ufac "lbm/s" * (1 / 2) * (1320000 / ufac "Btu/lbm" - 660000 / ufac "Btu/lbm") * BTU_s2HP + (exW / 2) / ufac "lbm/s" * (1 / 2) * (440000 / ufac "Btu/lbm" - 220000 / ufac "Btu/lbm") * BTU_s2HP.
Definition ex_tmap : state := fun x _ => lookup 0
  [("alphaMap", 0); ("NpMap", ufac "rpm"); ("PRmap", 2); ("effMap", 1 / 4); ("WpMap", 3 * ufac "lbm/s"); ("Np", tNp * ufac "rpm"); ("Wp", tWp * ufac "lbm/s"); ("PR", 32); ("eff", 1 / 2);
   ("s_Np", tNp); ("s_PR", 31); ("s_eff", 2); ("s_Wp", tWp / 3)] x.
Definition ex_turb : state := fun x k =>
  if prefix "map." x then ex_tmap (strip4 x) k else
  est3
  [("Nmech", 1000 * ufac "rpm"); ("Np", tNp * ufac "rpm"); ("Wp", tWp * ufac "lbm/s"); ("PR", 32); ("eff", 1 / 2); ("s_Np", tNp); ("s_PR", 31); ("s_eff", 2); ("s_Wp", tWp / 3);
   ("press_drop.Pt_out", exPt); ("blds.Pt_out", exPt); ("blds.b1:Pt", 32 * exPt); ("b1:frac_P", 1); ("Fl_I:stat:W", exW / 2); ("b1:stat:W", exW / 2); ("W_out", exW); ("out_stat.W", exW);
   ("Fl_I:tot:h", 1320000); ("b1:tot:h", 440000); ("b1_inflow.base_thermo.h", 440000); ("pwr_turb.ht_out_ideal", 660000); ("b1_ideal.h", 220000); ("ideal_flow.h", 660000); ("b1_inflow.flow:h", 440000);
   ("ht_out_b4bld", 990000); ("real_flow_b4bld.h", 990000); ("real_flow_b4bld.Fl_O_b4bld:tot:h", 990000); ("real_flow_b4bld.base_thermo.h", 990000);
   ("pwr_turb.ht_out", 660000); ("real_flow.h", 660000); ("real_flow.base_thermo.h", 660000); ("Fl_O:tot:h", 660000); ("out_stat.ht", 660000);
   ("Fl_I:tot:S", tSin); ("ideal_flow.base_thermo.S", tSin); ("ideal_flow.flow:S", tSin); ("b1_inflow.flow:S", tSbl); ("b1_inflow.S", tSbl); ("b1_ideal.S", tSbl); ("b1_ideal.flow:S", tSbl); ("b1_ideal.base_thermo.S", tSbl);
   ("real_flow_b4bld.Fl_O_b4bld:tot:S", tSb4); ("eff_poly_calc.S_out", tSb4); ("eff_poly", tpoly (ufac "Btu/(lbm*degR)"));
   ("Fl_O:tot:S", c_Sout); ("out_stat.S", c_Sout); ("out_stat.guess:Pt", exPt); ("out_stat.guess:gamt", 5 / 4); ("MN", 200 / 400);
   ("power", tpow * ufac "hp"); ("trq", HP_per_RPM_to_FT_LBF * tpow / 1000 * ufac "ft*lbf")]
  [("Fl_I:tot:", gtot 825 (32 * exPt)); ("ideal_flow.", gtot (825 / 2) exPt); ("b1_inflow.", gtot 275 (32 * exPt)); ("b1_ideal.", gtot (275 / 2) exPt);
   ("real_flow_b4bld.", gtot (2475 / 4) exPt); ("Fl_O:tot:", c_out); ("real_flow.", c_out); ("Fl_O:stat:", c_st); ("out_stat.", c_st)] x k.
Lemma tS_id : (825 / 2) ^ 5 / exPt = tSin. Proof. pose proof exPt_pos. unfold tSin. field. lra. Qed.
Lemma tS_bl : (275 / 2) ^ 5 / exPt = tSbl. Proof. pose proof exPt_pos. unfold tSbl. field. lra. Qed.
Ltac ts_tac := first [cs_tac | intros ?; exact tS_id | exact tS_id | symmetry; exact tS_id | intros ?; exact tS_bl | exact tS_bl | symmetry; exact tS_bl
  | intros ?; change (1600 * 275 = 440000); field | change (440000 = 1600 * 275); field | change (1600 * (275 / 2) = 220000); field | change (220000 = 1600 * (275 / 2)); field
  | intros ?; change (1600 * (275 / 2) = 220000); field | intros ?; change (220000 = 1600 * (275 / 2)); field
  | intros ?; change (1600 * (2475 / 4) = 990000); field | intros ?; change (990000 = 1600 * (2475 / 4)); field | change (1600 * (2475 / 4) = 990000); field | change (990000 = 1600 * (2475 / 4)); field].
Definition ex_tadd : tab_adder := mkTabAdder 1 None ["b1"] [0].
Example C48_turbine_ex : (forall b, In b ["b1"] -> contains ":" b = false) /\ flow_adder (ATab ex_tadd) ["b1"] /\ solves (turbine gas2 TABULAR tmap (ATab ex_tadd) ["b1"] true true) ex_turb.
Proof.
  split; [intros b Hb; inlist Hb; reflexivity|]. split; [exists (mkTab None TFlow ["b1"]); repeat split; reflexivity|].
  assert (Nl := ufac_n0 "lbm/s"). assert (Nr := ufac_n0 "rpm"). assert (Np := ufac_n0 "psi"). assert (Nb := ufac_n0 "Btu/lbm"). assert (PW := exW_pos2). assert (PP := exPt_pos).
  split; [|ex_conns]. intros s Hs. unfold turbine in Hs. cbn [subs app map flat_map] in Hs. repeat destruct Hs as [<-|Hs]; try contradiction; cbv beta iota delta [stat_mode].
  - exact Logic.I.
  - intros o Ho. inlist Ho.
    + change (tWp * ufac "lbm/s" / ufac "lbm/s" = tWp). field. exact Nl.
    + change (tNp * ufac "rpm" / ufac "rpm" = 1000 * ufac "rpm" / ufac "rpm" * rpow (825 / ufac "degR") (- (1 / 2))). replace (1000 * ufac "rpm" / ufac "rpm") with 1000 by (field; exact Nr). unfold tNp. field. exact Nr.
  - apply (group_make _ _ _ _ _ ex_tmap); [|allx|allx]. split; [|ex_conns]. intros s Hs. unfold turbine_map in Hs. cbn [subs app map] in Hs. repeat destruct Hs as [<-|Hs]; try contradiction.
    + intros x Hx. inlist Hx; unfold tmap.
      * change (1 / 4 / 1 = 1 / 4). field.
      * change (3 * ufac "lbm/s" / ufac "lbm/s" = ufac "rpm" / ufac "rpm" + 2 / 1). field. auto.
    + intros o Ho. inlist Ho.
      * change (2 / 1 = 1 / 2 / 1 / (1 / 4 / 1)). field.
      * change (tNp / 1 = tNp * ufac "rpm" / ufac "rpm" / (ufac "rpm" / ufac "rpm")). field. exact Nr.
      * change (31 / 1 = (32 / 1 - 1) / (2 / 1 - 1)). field.
      * change (tWp / 3 / 1 = tWp * ufac "lbm/s" / ufac "lbm/s" / (3 * ufac "lbm/s" / ufac "lbm/s")). field. exact Nl.
  - intros o Ho. inlist Ho. change (exPt / ufac "psi" = 32 * exPt / ufac "psi" / (32 / 1)). field. exact Np.
  - gx_tot (825 / 2) exPt ltac:(ts_tac).
  - exact Logic.I.
  - cbn [add_sub srel]. intros o Ho. pose proof (ufac_pos "lbm/s"). pose proof (ufac_pos "Btu/lbm"). set (u := ufac "lbm/s") in *. set (v := ufac "Btu/lbm") in *.
    cbn in Ho. repeat destruct Ho as [<-|Ho]; try contradiction.
    + change (0 / v = (exW / 2 / u * (0 / v) + exW / 2 / u * (0 / v)) / (0 + exW / 2 / u + exW / 2 / u)). field. lra.
    + change (exW / u = 0 + exW / 2 / u + exW / 2 / u). field. lra.
    + change (0 / 1 = ((0 + exW / 2 / u / (1 + (0 / 1 + 0)) * (0 / 1)) + exW / 2 / u / (1 + (0 / 1 + 0)) * (0 / 1)) / (exW / 2 / u / (1 + (0 / 1 + 0)) + exW / 2 / u / (1 + (0 / 1 + 0)))). field. lra.
  - intros o Ho. inlist Ho. change (32 * exPt / ufac "psi" = exPt / ufac "psi" + 1 / 1 * (32 * exPt / ufac "psi" - exPt / ufac "psi")). field. exact Np.
  - gx_tot 275 (32 * exPt) ltac:(ts_tac).
  - gx_tot (275 / 2) exPt ltac:(ts_tac).
  - assert (Nh := ufac_n0 "hp"). assert (Nf := ufac_n0 "ft*lbf"). assert (NW : exW <> 0) by lra. intros o Ho. inlist Ho.
    + change (990000 / ufac "Btu/lbm" = 1320000 / ufac "Btu/lbm" * (1 - 1 / 2 / 1) + 660000 / ufac "Btu/lbm" * (1 / 2 / 1)). field. exact Nb.
    + change (660000 / ufac "Btu/lbm" = exW / 2 / ufac "lbm/s" / (exW / ufac "lbm/s") * (1320000 / ufac "Btu/lbm" * (1 - 1 / 2 / 1) + 660000 / ufac "Btu/lbm" * (1 / 2 / 1)) +
        exW / 2 / ufac "lbm/s" / (exW / ufac "lbm/s") * (440000 / ufac "Btu/lbm" * (1 - 1 / 2 / 1) + 220000 / ufac "Btu/lbm" * (1 / 2 / 1))). field. auto.
    + change (tpow * ufac "hp" / ufac "hp" = exW / 2 / ufac "lbm/s" * (1 / 2 / 1) * (1320000 / ufac "Btu/lbm" - 660000 / ufac "Btu/lbm") * BTU_s2HP +
        exW / 2 / ufac "lbm/s" * (1 / 2 / 1) * (440000 / ufac "Btu/lbm" - 220000 / ufac "Btu/lbm") * BTU_s2HP). unfold tpow. field. auto.
    + change (HP_per_RPM_to_FT_LBF * tpow / 1000 * ufac "ft*lbf" / ufac "ft*lbf" = (exW / 2 / ufac "lbm/s" * (1 / 2 / 1) * (1320000 / ufac "Btu/lbm" - 660000 / ufac "Btu/lbm") * BTU_s2HP +
        exW / 2 / ufac "lbm/s" * (1 / 2 / 1) * (440000 / ufac "Btu/lbm" - 220000 / ufac "Btu/lbm") * BTU_s2HP) / (1000 * ufac "rpm" / ufac "rpm") * HP_per_RPM_to_FT_LBF). unfold tpow. field. auto.
  - gx_tot (2475 / 4) exPt ltac:(ts_tac).
  - intros o Ho. inlist Ho. change (tpoly (ufac "Btu/(lbm*degR)") / 1 = 1 + (tSb4 / ufac "Btu/(lbm*degR)" - tSin / ufac "Btu/(lbm*degR)") / (320 / ufac "Btu/(lbm*degR)" * ln (1 / (32 / 1)))).
    replace (32 / 1) with 32 by field. change (tpoly (ufac "Btu/(lbm*degR)") / 1 = tpoly (ufac "Btu/(lbm*degR)")). unfold Rdiv. rewrite Rinv_1. ring.
  - gx_tot (825 / 2) exPt ltac:(ts_tac).
  - gx_stat 400 exPs 200 400 1 exW 660000 ltac:(first [exact exPs_pos | unfold exW, exrho; field | lra]) ltac:(ts_tac).
Qed.
