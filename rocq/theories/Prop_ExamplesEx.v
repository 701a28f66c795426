(* C67: the propulsor of electric_propulsor.py converged at a design point; its hypotheses are met. *)
From Coq Require Import FunctionalExtensionality Ascii Lia.
From Verif Require Import Lib_R Lib_Loop Spec_Wire Model_Thermo Proofs_Wire Prop_Static Prop_Atm Prop_Thermo Model_Nozzle Prop_Elem2 Model_Elem1 Model_Elem2 Proofs_Elem Proofs_Elem2 Proofs_ElemEx Proofs_ElemEx2.
From Verif Require Import Prop_Station Prop_Station2 Prop_Station3 Prop_Station5 Prop_Station7 Prop_Station8 Prop_StationEx Prop_StationEx2 Model_Cycle Prop_Cycle Prop_Cycle2 Model_Examples Data_Examples Prop_Examples Prop_Examples2 Prop_Examples3.
Open Scope string_scope. Open Scope list_scope. Open Scope R_scope.

(* the inlet of Prop_Cycle2, with static calculation *)
Lemma pr_inlet_ok : solves (inlet gas2 TABULAR true true) cy_inlet.
Proof.
  split; [|ex_conns]. intros s Hs. insplit Hs.
  - exact Logic.I.
  - intros o Ho. inlist Ho.
    + change (exPt / ufac "lbf/inch**2" = exPt / ufac "lbf/inch**2" * (1 / 1)). field. apply ufac_n0.
    + change ((exW / ufac "lbm/s") * (200 / ufac "ft/s") / g_c * ufac "lbf" / ufac "lbf" = (exW / ufac "lbm/s") * (200 / ufac "ft/s") / g_c). field. repeat split; try apply ufac_n0. unfold g_c. lra.
  - ex_sub.
  - ex_sub.
Qed.
(* the fan: pressure ratio 32 at efficiency 1/2 from 825/2 K, so 2475/2 K at the exit; Mach 1/2 there, 1200 K *)
Definition pNc : R := 1000 * rpow (825 / 2 / ufac "degR" / T_STDeng) (- (1 / 2)).
Definition pWc : R := exW / ufac "lbm/s" * rpow (825 / 2 / ufac "degR" / T_STDeng) (1 / 2) / (exPt / ufac "psi" / P_STDeng).
Definition pSout : R := (2475 / 2) ^ 5 / (32 * exPt).
Definition pSst : R := 1200 ^ 5 / (32 * exPs).
Definition ppoly (u : R) : R := 320 / u * ln 32 / (320 / u * ln 32 + pSout / u - exS / u).
Definition ppow : R := exW / ufac "lbm/s" * (1600 * (825 / 2) / ufac "Btu/lbm" - 1980000 / ufac "Btu/lbm") * BTU_s2HP.
Definition p_out := gtot (2475 / 2) (32 * exPt).
Definition pV : R := sqrt 120000.
Definition pa : R := sqrt 480000.
Definition pA : R := exW / (32 * exPs / (320 * 1200) * pV).
Definition p_st := gstat 1200 (32 * exPs) pV pa pA exW.
Definition pr_map : state := fun x k => if String.eqb x "Nc" then pNc * ufac "rpm" else if String.eqb x "s_Nc" then pNc else if String.eqb x "Wc" then pWc * ufac "lbm/s" else if String.eqb x "s_Wc" then pWc / 3 else ex_cmap x k.
Definition pr_fan : state := fun x k =>
  if prefix "map." x then pr_map (strip4 x) k else if prefix "Fl_I:" x then est [] x k else
  est3
  [("Nmech", 1000 * ufac "rpm"); ("Nc", pNc * ufac "rpm"); ("Wc", pWc * ufac "lbm/s"); ("PR", 32); ("eff", 1 / 2); ("s_Nc", pNc); ("s_PR", 31 / 3); ("s_eff", 2); ("s_Wc", pWc / 3); ("SMN", 25 / 2); ("SMW", 0);
   ("press_rise.Pt_out", 32 * exPt); ("enth_rise.ideal_ht", 1320000); ("enth_rise.ht_out", 1980000); ("blds_pwr.ht_out", 1980000); ("real_flow.h", 1980000); ("ideal_flow.h", 1320000);
   ("Fl_O:tot:h", 1980000); ("real_flow.base_thermo.h", 1980000); ("ideal_flow.base_thermo.S", exS); ("ideal_flow.flow:S", exS);
   ("Fl_O:tot:S", pSout); ("eff_poly", ppoly (ufac "Btu/(lbm*degR)"));
   ("W_out", exW); ("power", ppow * ufac "hp"); ("trq", HP_per_RPM_to_FT_LBF * ppow / 1000 * ufac "ft*lbf");
   ("MN", pV / pa); ("out_stat.ht", 1980000); ("out_stat.S", pSout); ("Fl_O:stat:S", pSst); ("out_stat.guess:Pt", 32 * exPt); ("out_stat.guess:gamt", 5 / 4); ("out_stat.W", exW)]
  [("Fl_O:tot:", p_out); ("real_flow.", p_out); ("ideal_flow.", gtot 825 (32 * exPt)); ("Fl_O:stat:", p_st); ("out_stat.", p_st)] x k.
Lemma pS_id : 825 ^ 5 / (32 * exPt) = exS. Proof. pose proof exPs_pos. unfold exPt, exS. field. lra. Qed.
Lemma pS_st : 1200 ^ 5 / (32 * exPs) = pSout. Proof. pose proof exPs_pos. unfold pSout, exPt, exS. field. lra. Qed.
Lemma pV_sq : pV * pV = 120000. Proof. unfold pV. apply sqrt_sqrt. lra. Qed.
Lemma pa_sq : pa * pa = 400 * 1200. Proof. unfold pa. replace (400 * 1200) with 480000 by lra. apply sqrt_sqrt. lra. Qed.
Lemma pV_pos : 0 < pV. Proof. apply sqrt_lt_R0. lra. Qed.
Lemma pa_pos : 0 < pa. Proof. apply sqrt_lt_R0. lra. Qed.
Lemma pM : / 1000 <= pV / pa.
Proof.
  pose proof pV_pos. pose proof pa_pos. assert (L : pa <= 1000 * pV). { apply Rsqr_incr_0; unfold Rsqr; [|lra|lra]. rewrite pa_sq. replace (1000 * pV * (1000 * pV)) with (1000000 * (pV * pV)) by ring. rewrite pV_sq. lra. }
  apply (Rmult_le_reg_r pa); [lra|]. replace (pV / pa * pa) with pV by (field; lra). lra.
Qed.
Lemma pA_pos : 0 < pA. Proof. pose proof pV_pos. pose proof exPs_pos. pose proof exW_pos. unfold pA. apply Rdiv_lt_0_compat; [lra|]. apply Rmult_lt_0_compat; [|lra]. apply Rdiv_lt_0_compat; lra. Qed.
Lemma pA_ok : exW = 32 * exPs / (320 * 1200) * pV * pA. Proof. pose proof pV_pos. pose proof exPs_pos. unfold pA. field. lra. Qed.
Ltac ps_tac := first [reflexivity | intros ?; exact pS_id | exact pS_id | symmetry; exact pS_id | intros ?; exact pS_st | exact pS_st | symmetry; exact pS_st | intros ?; symmetry; exact pS_st | intros ?; symmetry; exact pS_id
  | intros ?; change (1600 * 825 = 1320000); field | intros ?; change (1320000 = 1600 * 825); field | change (1600 * 825 = 1320000); field | change (1320000 = 1600 * 825); field
  | intros ?; change (1980000 = 1600 * (2475 / 2)); field | intros ?; change (1600 * (2475 / 2) = 1980000); field | change (1980000 = 1600 * (2475 / 2)); field | change (1600 * (2475 / 2) = 1980000); field].
Lemma pr_map_ok : solves (compressor_map cmap 1 true) pr_map.
Proof.
  assert (Nl := ufac_n0 "lbm/s"). assert (Nr := ufac_n0 "rpm").
  split; [|ex_conns]. intros s Hs. unfold compressor_map in Hs. cbn [subs app map] in Hs. repeat destruct Hs as [<-|Hs]; try contradiction.
  - intros x Hx. inlist Hx; unfold cmap; match goal with |- _ = ?r => change r with r end.
    + change (1 / 4 / 1 = 1 / 4). field.
    + change (4 / 1 = 1 + ufac "rpm" / ufac "rpm" + 2 / 1). field. exact Nr.
    + change (3 * ufac "lbm/s" / ufac "lbm/s" = ufac "rpm" / ufac "rpm" + 2 / 1). field. auto.
  - intros o Ho. inlist Ho.
    + change (pNc / 1 = pNc * ufac "rpm" / ufac "rpm" / (ufac "rpm" / ufac "rpm")). field. exact Nr.
    + change (31 / 3 / 1 = (32 / 1 - 1) / (4 / 1 - 1)). field.
    + change (2 / 1 = 1 / 2 / 1 / (1 / 4 / 1)). field.
    + change (pWc / 3 / 1 = pWc * ufac "lbm/s" / ufac "lbm/s" / (3 * ufac "lbm/s" / ufac "lbm/s")). field. exact Nl.
  - change (1 / 1 = 1). field.
  - intros x Hx. inlist Hx; unfold cmap.
    + change (1 / 4 / 1 = 1 / 4). field.
    + change (3 / 1 = 1 + ufac "rpm" / ufac "rpm" + 1 / 1). field. exact Nr.
    + change (2 * ufac "lbm/s" / ufac "lbm/s" = ufac "rpm" / ufac "rpm" + 1 / 1). field. auto.
  - intros x Hx. inlist Hx; unfold cmap.
    + change (1 / 4 / 1 = 1 / 4). field.
    + change (4 / 1 = 1 + 2 * ufac "rpm" / ufac "rpm" + 1 / 1). field. exact Nr.
    + change (3 * ufac "lbm/s" / ufac "lbm/s" = 2 * ufac "rpm" / ufac "rpm" + 1 / 1). field. auto.
  - intros b Hb. cbn in Hb. repeat destruct Hb as [<-|Hb]; try contradiction; reflexivity.
  - intros o Ho. inlist Ho.
    + change (25 / 2 / 1 = (3 * ufac "lbm/s" / ufac "lbm/s" / (2 * ufac "lbm/s" / ufac "lbm/s") / (4 / 1 / (3 / 1)) - 1) * 100). field. exact Nl.
    + change (0 / 1 = (4 / 1 - 4 / 1) / (4 / 1) * 100). field.
Qed.
Lemma pr_fan_ok : solves (compressor gas2 TABULAR cmap 1 nil true true) pr_fan.
Proof.
  assert (Nl := ufac_n0 "lbm/s"). assert (Nr := ufac_n0 "rpm"). assert (Np := ufac_n0 "psi"). assert (Ni := ufac_n0 "lbf/inch**2"). assert (Nb := ufac_n0 "Btu/lbm"). assert (PW := exW_pos2). assert (PP := exPt_pos). assert (PS := exPs_pos).
  split; [|ex_conns]. intros s Hs. unfold compressor in Hs. cbn [subs app map] in Hs. repeat destruct Hs as [<-|Hs]; try contradiction; cbv beta iota delta [stat_mode].
  - exact Logic.I.
  - intros o Ho. inlist Ho.
    + change (pWc * ufac "lbm/s" / ufac "lbm/s" = pWc). field. exact Nl.
    + change (pNc * ufac "rpm" / ufac "rpm" = 1000 * ufac "rpm" / ufac "rpm" * rpow (825 / 2 / ufac "degR" / T_STDeng) (- (1 / 2))). replace (1000 * ufac "rpm" / ufac "rpm") with 1000 by (field; exact Nr). unfold pNc. field. exact Nr.
  - apply (group_make _ _ _ _ _ pr_map pr_map_ok); allx.
  - intros o Ho. inlist Ho. change (32 * exPt / ufac "lbf/inch**2" = 32 / 1 * (exPt / ufac "lbf/inch**2")). field. exact Ni.
  - gx_tot 825 (32 * exPt) ltac:(ps_tac).
  - intros o Ho. inlist Ho. change (1980000 / ufac "Btu/lbm" = (1320000 / ufac "Btu/lbm" - 1600 * (825 / 2) / ufac "Btu/lbm") / (1 / 2 / 1) + 1600 * (825 / 2) / ufac "Btu/lbm"). field. exact Nb.
  - gx_tot (2475 / 2) (32 * exPt) ltac:(ps_tac).
  - intros o Ho. inlist Ho. change (ppoly (ufac "Btu/(lbm*degR)") / 1 = 320 / ufac "Btu/(lbm*degR)" * ln (32 / 1) / (320 / ufac "Btu/(lbm*degR)" * ln (32 / 1) + pSout / ufac "Btu/(lbm*degR)" - exS / ufac "Btu/(lbm*degR)")).
    replace (32 / 1) with 32 by field. change (ppoly (ufac "Btu/(lbm*degR)") / 1 = ppoly (ufac "Btu/(lbm*degR)")). unfold Rdiv. rewrite Rinv_1. ring.
  - intros o Ho. inlist Ho.
    + change (exW / ufac "lbm/s" = exW / ufac "lbm/s"). reflexivity.
    + change (ppow * ufac "hp" / ufac "hp" = exW / ufac "lbm/s" * (1600 * (825 / 2) / ufac "Btu/lbm" - 1980000 / ufac "Btu/lbm") * BTU_s2HP).
      assert (Nh := ufac_n0 "hp"). unfold ppow. field. auto.
    + change (HP_per_RPM_to_FT_LBF * ppow / 1000 * ufac "ft*lbf" / ufac "ft*lbf" = HP_per_RPM_to_FT_LBF * (exW / ufac "lbm/s" * (1600 * (825 / 2) / ufac "Btu/lbm" - 1980000 / ufac "Btu/lbm") * BTU_s2HP) / (1000 * ufac "rpm" / ufac "rpm")).
      assert (Nf := ufac_n0 "ft*lbf"). unfold ppow. field. auto.
  - gx_stat 1200 (32 * exPs) pV pa pA exW 1980000 ltac:(first [exact pV_pos | exact pa_pos | exact pA_pos | exact pa_sq | exact pA_ok | exact pM | rewrite pV_sq; lra | lra]) ltac:(ps_tac).
Qed.

(* the nozzle: choked, expanding to the ambient pressure without losses (600 K if fully expanded) *)
Definition zV : R := sqrt 440000.
Definition zPson : R := 1100 ^ 5 / pSout.
Definition zVf : R := sqrt 2040000.
Definition zaf : R := sqrt 240000.
Definition zA (T P V : R) : R := exW / (P / (320 * T) * V).
Definition z_son := gstat 1100 zPson zV zV (zA 1100 zPson zV) exW.
Definition z_full := gstat 600 exPs zVf zaf (zA 600 exPs zVf) exW.
Definition z_Fg : R := exW / ufac "lbm/s" / g_c * (zVf / ufac "ft/s").
Definition z_F : R := exW / ufac "lbm/s" / g_c * (zV / ufac "ft/s") * (1 / 1) * (1 / 1) * (1 / 1) + (zPson / ufac "lbf/inch**2" - exPs / ufac "lbf/inch**2") * (zA 1100 zPson zV / ufac "inch**2").
Definition pr_nozz : state := est3
  [("mach_choked.MN", 1); ("staticMN.MN", 1); ("staticMN.flow:MN", 1); ("mux.MN:MN", 1); ("Throat:stat:MN", 1); ("Fl_O:stat:MN", 1); ("Fl_I:stat:W", exW); ("PR", 32 * exPt / exPs); ("dPqP", 0); ("Ps_exhaust", exPs); ("Ps_calc", exPs); ("press_calcs.Pt_th", 32 * exPt);
   ("Fl_I:tot:h", 1980000); ("Fl_O:tot:h", 1980000); ("throat_total.base_thermo.h", 1980000); ("Fl_I:tot:S", pSout); ("Fl_I:stat:S", pSst); ("staticMN.S", pSout); ("staticMN.guess:Pt", 32 * exPt); ("staticMN.guess:gamt", 5 / 4); ("staticPs.S", pSout); ("mux.S", pSout); ("Throat:stat:S", pSout); ("Fl_O:stat:S", pSout);
   ("Cv", 1); ("perf_calcs.Cang", 1); ("perf_calcs.CmixCorr", 1);
   ("perf_calcs.V_ideal", zVf); ("perf_calcs.V_actual", zV); ("perf_calcs.A_actual", zA 1100 zPson zV); ("perf_calcs.Ps_actual", zPson); ("perf_calcs.Fg_ideal", z_Fg * ufac "lbf"); ("Fg", z_F * ufac "lbf")]
  [("Fl_I:tot:", p_out); ("Fl_I:stat:", p_st); ("Fl_O:tot:", p_out); ("throat_total.", p_out); ("staticMN.", z_son); ("staticPs.", z_full); ("ideal_flow.", z_full);
   ("mux.MN:", z_son); ("mux.Ps:", z_full); ("Throat:stat:", z_son); ("Fl_O:stat:", z_son)].
Lemma pSout_pos : 0 < pSout. Proof. pose proof exPt_pos. unfold pSout. apply Rdiv_lt_0_compat; lra. Qed.
Lemma zPson_pos : 0 < zPson. Proof. pose proof pSout_pos. unfold zPson. apply Rdiv_lt_0_compat; lra. Qed.
Lemma zS_son : 1100 ^ 5 / zPson = pSout. Proof. pose proof pSout_pos. unfold zPson. field. lra. Qed.
Lemma zS_full : 600 ^ 5 / exPs = pSout. Proof. pose proof exPs_pos. unfold pSout, exPt, exS. field. lra. Qed.
Lemma z_choked : exPs < zPson.
Proof.
  assert (E := zS_full). pose proof pSout_pos. pose proof exPs_pos. replace exPs with (600 ^ 5 / pSout) by (rewrite <- E; field; lra).
  unfold zPson, Rdiv. apply Rmult_lt_compat_r; [apply Rinv_0_lt_compat; lra|lra].
Qed.
Lemma zA_ok T P V : 0 < T -> 0 < P -> 0 < V -> exW = P / (320 * T) * V * zA T P V.
Proof. intros. unfold zA. field. lra. Qed.
Lemma zA_pos T P V : 0 < T -> 0 < P -> 0 < V -> 0 < zA T P V.
Proof. intros. pose proof exW_pos. unfold zA. apply Rdiv_lt_0_compat; [lra|]. apply Rmult_lt_0_compat; [apply Rdiv_lt_0_compat; lra|lra]. Qed.
Lemma zV_sq : zV * zV = 440000. Proof. apply sqrt_sqrt. lra. Qed.
Lemma zVf_sq : zVf * zVf = 2040000. Proof. apply sqrt_sqrt. lra. Qed.
Lemma zaf_sq : zaf * zaf = 240000. Proof. apply sqrt_sqrt. lra. Qed.
Lemma zV_pos : 0 < zV. Proof. apply sqrt_lt_R0. lra. Qed.
Lemma zVf_pos : 0 < zVf. Proof. apply sqrt_lt_R0. lra. Qed.
Lemma zaf_pos : 0 < zaf. Proof. apply sqrt_lt_R0. lra. Qed.
Lemma zMf : / 1000 <= zVf / zaf.
Proof.
  pose proof zVf_pos. pose proof zaf_pos. assert (L : zaf <= zVf) by (apply sqrt_le_1_alt; lra). apply (Rmult_le_reg_r zaf); [lra|]. replace (zVf / zaf * zaf) with zVf by (field; lra). lra.
Qed.
Lemma zM1 : zV / zV = 1. Proof. pose proof zV_pos. field. lra. Qed.
Ltac zs_tac := first [ps_tac | exact zM1 | symmetry; exact zM1 | intros ?; exact zM1 | intros ?; symmetry; exact zM1 | intros ?; exact zS_son | intros ?; exact zS_full | exact zS_son | exact zS_full | symmetry; exact zS_son | symmetry; exact zS_full | intros ?; symmetry; exact zS_full| intros ?; symmetry; exact zS_son].
Ltac znum := first [exact exPs_pos | exact zPson_pos | exact zV_pos | exact zVf_pos | exact zaf_pos | exact zMf | apply zA_pos; first [lra|exact exPs_pos|exact zPson_pos|exact zV_pos|exact zVf_pos] | apply zA_ok; first [lra|exact exPs_pos|exact zPson_pos|exact zV_pos|exact zVf_pos]
  | rewrite zV_sq; lra | rewrite zVf_sq; lra | rewrite zaf_sq; lra | rewrite zM1; lra | lra].
Lemma pr_nozz_ok : solves (nozzle gas2 TABULAR CV Cv) pr_nozz.
Proof.
  split; [|ex_conns]. intros s Hs. unfold nozzle in Hs. cbn [subs app map] in Hs. repeat destruct Hs as [<-|Hs]; try contradiction.
  - change (1 / 1 = 1). field.
  - exact Logic.I.
  - intros o Ho. inlist Ho. change (exPs / ufac "lbf/inch**2" - exPs / ufac "lbf/inch**2" = 0). ring.
  - intros o Ho. assert (N := ufac_n0 "lbf/inch**2"). pose proof exPs_pos. pose proof exPt_pos. inlist Ho.
    + change (32 * exPt / ufac "lbf/inch**2" = 32 * exPt / ufac "lbf/inch**2" * (1 - 0 / 1)). field. exact N.
    + change (exPs / ufac "lbf/inch**2" = 32 * exPt / ufac "lbf/inch**2" * (1 - 0 / 1) / (32 * exPt / exPs / 1)). field. repeat split; try exact N; lra.
  - gx_tot (2475 / 2) (32 * exPt) ltac:(zs_tac).
  - gx_stat 1100 zPson zV zV (zA 1100 zPson zV) exW 1980000 ltac:(znum) ltac:(zs_tac).
  - gx_stat 600 exPs zVf zaf (zA 600 exPs zVf) exW 1980000 ltac:(znum) ltac:(zs_tac).
  - gx_stat 600 exPs zVf zaf (zA 600 exPs zVf) exW 1980000 ltac:(znum) ltac:(zs_tac).
  - cbn [mux_sub srel]. intros o Ho Hc. match goal with |- vget ?lo o = compute (mux CV "Fl_O") ?ee _ o => set (e := ee); set (l := lo) end.
    assert (Ch : e (V "Ps_calc") < e (B "MN" "P")).
    { change (exPs / ufac "lbf/inch**2" < zPson / ufac "lbf/inch**2"). unfold Rdiv. apply Rmult_lt_compat_r; [apply Rinv_0_lt_compat, ufac_pos|exact z_choked]. }
    assert (M : forall p, In p nozzle_props -> compute (mux CV "Fl_O") e (fun _ => 0) (stat "Throat" p) = e (B "MN" p) /\ compute (mux CV "Fl_O") e (fun _ => 0) (stat "Fl_O" p) = e (B "MN" p))
      by (intros p Hp; destruct (C37_mux_selects CV "Fl_O" p e (fun _ => 0) ltac:(discriminate) Hp) as (M1 & _); destruct (M1 eq_refl) as [M2 _]; exact (M2 Ch)).
    destruct (C37_mux_selects CV "Fl_O" "h" e (fun _ => 0) ltac:(discriminate) ltac:(inp)) as (_ & _ & _ & S1 & S2).
    assert (L : forall p, In p nozzle_props -> vget l (stat "Throat" p) = e (B "MN" p) /\ vget l (stat "Fl_O" p) = e (B "MN" p)).
    { intros p Hp. cbn in Hp. repeat destruct Hp as [<-|Hp]; try contradiction; split; reflexivity. }
    cbn [mux outs] in Ho. inflat Ho; [congruence| | | |].
    + etransitivity; [|symmetry; exact S1]. reflexivity.
    + etransitivity; [|symmetry; exact S2]. reflexivity.
    + rewrite (proj1 (M _ ltac:(eassumption))). apply L. assumption.
    + rewrite (proj2 (M _ ltac:(eassumption))). apply L. assumption.
  - intros o Ho. assert (N3 := ufac_n0 "lbf"). inlist Ho.
    + change (z_Fg * ufac "lbf" / ufac "lbf" = z_Fg). field. auto.
    + change (z_F * ufac "lbf" / ufac "lbf" = z_F). field. auto.
Qed.

(* the whole propulsor *)
Definition pr_Fram : R := (exW / ufac "lbm/s") * (200 / ufac "ft/s") / g_c.
Definition pr_perf : state := fun x _ => lookup 0
  [("Pt2", exPt); ("Pt3", 32 * exPt); ("ram_drag", pr_Fram * ufac "lbf"); ("Fg_0", z_F * ufac "lbf"); ("OPR", 32); ("Fg", z_F * ufac "lbf"); ("Fn", (z_F - pr_Fram) * ufac "lbf")] x.
Definition pr_state : state := fun x k =>
  if String.eqb x "pwr_target" then ppow * ufac "hp" else
  join [("fc", ex_flight); ("inlet", cy_inlet); ("fan", pr_fan); ("nozz", pr_nozz); ("perf", pr_perf);
        ("shaft", fun y _ => lookup 0 [("Nmech", 1000 * ufac "rpm")] y); ("balance", fun y _ => lookup 0 [("W", exW); ("lhs:W", ppow * ufac "hp"); ("rhs:W", ppow * ufac "hp")] y)] x k.
Definition pr_els : list (string * ekind) := [("fc", EFlight None); ("inlet", EInlet true); ("fan", ECompressor cmap 1 nil true); ("nozz", ENozzle CV Cv)].
Theorem C67_nonvacuous : In (mkEngine x_Propulsor [("nozz", "Fl_O")] [] ["nozz"]) engines /\ one_enthalpy gas2 /\ at_point gas2 x_Propulsor pr_els pr_state /\
  mass_flow pr_state ("nozz", "Fl_O") = exW /\ 0 < exW /\ val pr_state "pwr_target" < 0.
Proof.
  match goal with |- _ /\ _ => split end; [cbn; tauto|].
  match goal with |- _ /\ _ => split end; [intros T P c p q Hp Hq; rewrite (Hp "h"), (Hq "h") by (cbn; tauto); reflexivity|].
  pose proof exW_pos. match goal with |- _ /\ _ => split end.
  - unfold at_point. match goal with |- _ /\ _ => split end.
    { repeat constructor; cbn; eauto. }
    match goal with |- _ /\ _ => split end; [intros nk Hk; cbn in Hk; repeat destruct Hk as [<-|Hk]; try contradiction; exact Logic.I|].
    match goal with |- _ /\ _ => split end; [|intros nk Hk; cbn in Hk; repeat destruct Hk as [<-|Hk]; try contradiction; exact Logic.I].
    constructor.
    + split.
      * intros n k Hk. cbn in Hk. repeat destruct Hk as [Hk|Hk]; try contradiction; injection Hk as <- <-; [exact (proj2 C48_flight_conditions_ex)|exact pr_inlet_ok|exact pr_fan_ok|exact pr_nozz_ok].
      * intros l Hl. cbn in Hl. destruct Hl as [<-|[<-|[<-|[]]]]; link_tac; reflexivity.
    + intros a b Hc i. cbn in Hc. repeat destruct Hc as [Hc|Hc]; try contradiction; injection Hc as <- <-; reflexivity.
    + intros n v a Hc i. cbn in Hc. repeat destruct Hc as [Hc|Hc]; try contradiction; injection Hc as <- <- <-; reflexivity.
    + intros n k [].
    + intros n [].
    + intros n i j Hp. cbn in Hp. destruct Hp as [Hp|[]]. injection Hp as <- <- <-. assert (Nl := ufac_n0 "lbf"). assert (Np := ufac_n0 "lbf/inch**2"). pose proof exPt_pos. intros o Ho. cbn in Ho. repeat destruct Ho as [<-|Ho]; try contradiction.
      * change (32 / 1 = 32 * exPt / ufac "lbf/inch**2" / (exPt / ufac "lbf/inch**2")). field. split; [exact Np|lra].
      * change (z_F * ufac "lbf" / ufac "lbf" = 0 + z_F * ufac "lbf" / ufac "lbf"). ring.
      * change ((z_F - pr_Fram) * ufac "lbf" / ufac "lbf" = 0 + z_F * ufac "lbf" / ufac "lbf" - pr_Fram * ufac "lbf" / ufac "lbf"). field. exact Nl.
    + intros b [<-|[]]. cbn [xb_mult]. change (1 * (ppow * ufac "hp") = ppow * ufac "hp"). ring.
    + intros v u d [].
  - match goal with |- _ /\ _ => split end; [reflexivity|]. match goal with |- _ /\ _ => split end; [assumption|].
    change (ppow * ufac "hp" < 0). assert (Pl := ufac_pos "lbm/s"). assert (Pb := ufac_pos "Btu/lbm"). assert (Ph := ufac_pos "hp").
    assert (Q : 0 < - ppow).
    { unfold ppow. replace (- (exW / ufac "lbm/s" * (1600 * (825 / 2) / ufac "Btu/lbm" - 1980000 / ufac "Btu/lbm") * BTU_s2HP)) with (exW / ufac "lbm/s" * (1320000 / ufac "Btu/lbm") * BTU_s2HP) by (field; lra).
      assert (0 < exW / ufac "lbm/s") by (apply Rdiv_lt_0_compat; lra). assert (0 < 1320000 / ufac "Btu/lbm") by (apply Rdiv_lt_0_compat; lra). assert (0 < BTU_s2HP) by (unfold BTU_s2HP; lra). apply Rmult_lt_0_compat; [apply Rmult_lt_0_compat; assumption|assumption]. }
    assert (0 < - ppow * ufac "hp") by (apply Rmult_lt_0_compat; lra). lra.
Qed.
