(* Claim C72: a converged compressor closed by the core size and its efficiency balance, with an arbitrary flow and with the flow that closes it. *)
From Coq Require Import FunctionalExtensionality Ascii ZArith QArith Qabs Qreals Lia Psatz.
From Verif Require Import Lib_R Lib_Loop Spec_Wire Model_Thermo Proofs_Wire Prop_Static Prop_Thermo Model_Turbo Model_Elem1 Model_Elem2 Proofs_Elem Proofs_Elem2 Proofs_Elem3
  Prop_Station Prop_Station3 Prop_Station4 Prop_Map Proofs_ElemEx Proofs_ElemEx2 Prop_StationEx Prop_StationEx2 Prop_Viewers Proofs_Atm Prop_Atm Model_CoreEff Prop_CoreEff Prop_CoreEff2 Prop_CoreEff3.
Open Scope string_scope. Open Scope list_scope. Open Scope R_scope.
Section k.
Variable kA : R.
Hypothesis kA_pos : 0 < kA.
Definition kW : R := kA * exW.
Lemma kW_pos : 0 < kW. Proof. pose proof exW_pos2. unfold kW. apply Rmult_lt_0_compat; assumption. Qed.
(* ---------- a compressor in design: pressure ratio 32 at efficiency 1/2, from 137.5 K, half of the flow bled at the exit (the example of Prop_StationEx2, with the flow kA times as large) ---------- *)
Definition k_cWc : R := 2 * kW / ufac "lbm/s" * rpow (275 / 2 / ufac "degR" / T_STDeng) (1 / 2) / (exPt / 32 / ufac "psi" / P_STDeng).
Definition k_cpow : R := 2 * kW / ufac "lbm/s" * (220000 / ufac "Btu/lbm" - 660000 / ufac "Btu/lbm") * BTU_s2HP.
Definition k_c_st := gstat 400 exPs 200 400 kA kW.
(* the map of the compressor at NcMap = 1 rpm, RlineMap = 2, stalling at RlineMap = 1 *)
Definition k_ex_cmap : state := fun x _ => lookup 0
  [("alphaMap", 0); ("NcMap", ufac "rpm"); ("RlineMap", 2); ("effMap", 1 / 4); ("PRmap", 4); ("WcMap", 3 * ufac "lbm/s");
   ("Nc", cNc * ufac "rpm"); ("Wc", k_cWc * ufac "lbm/s"); ("PR", 32); ("eff", 1 / 2);
   ("s_Nc", cNc); ("s_PR", 31 / 3); ("s_eff", 2); ("s_Wc", k_cWc / 3); ("stall_R.RlineStall", 1); ("SMN_map.RlineMap", 1); ("SMW_map.RlineMap", 1);
   ("SMN_map.effMap", 1 / 4); ("SMN_map.PRmap", 3); ("SMN_map.WcMap", 2 * ufac "lbm/s"); ("SMW_bal.NcMap", 2 * ufac "rpm"); ("SMW_map.NcMap", 2 * ufac "rpm");
   ("SMW_map.effMap", 1 / 4); ("SMW_map.PRmap", 4); ("SMW_map.WcMap", 3 * ufac "lbm/s"); ("SMW_bal.lhs:NcMap", 3 * ufac "lbm/s"); ("SMW_bal.rhs:NcMap", 3 * ufac "lbm/s");
   ("stall_margins.PR_SMN", 3); ("stall_margins.PR_SMW", 4); ("stall_margins.Wc_SMN", 2 * ufac "lbm/s"); ("SMN", 25 / 2); ("SMW", 0)] x.

Definition k_ex_comp : state := fun x k =>
  if prefix "map." x then k_ex_cmap (strip4 x) k else
  est3
  [("Nmech", 1000 * ufac "rpm"); ("Nc", cNc * ufac "rpm"); ("Wc", k_cWc * ufac "lbm/s"); ("PR", 32); ("eff", 1 / 2); ("s_Nc", cNc); ("s_PR", 31 / 3); ("s_eff", 2); ("s_Wc", k_cWc / 3); ("SMN", 25 / 2); ("SMW", 0);
   ("press_rise.Pt_out", exPt); ("enth_rise.ideal_ht", 440000); ("enth_rise.ht_out", 660000); ("blds_pwr.ht_out", 660000); ("real_flow.h", 660000); ("ideal_flow.h", 440000);
   ("Fl_I:tot:h", 220000); ("Fl_O:tot:h", 660000); ("real_flow.base_thermo.h", 660000); ("b1_flow.base_thermo.h", 660000); ("ideal_flow.base_thermo.S", c_Sin); ("Fl_I:tot:S", c_Sin); ("ideal_flow.flow:S", c_Sin);
   ("Fl_O:tot:S", c_Sout); ("eff_poly", cpoly (ufac "Btu/(lbm*degR)"));
   ("Fl_I:stat:W", 2 * kW); ("W_out", kW); ("power", k_cpow * ufac "hp"); ("trq", HP_per_RPM_to_FT_LBF * k_cpow / 1000 * ufac "ft*lbf");
   ("b1:frac_W", 1 / 2); ("b1:frac_P", 1); ("b1:frac_work", 1); ("b1:stat:W", kW); ("b1:Pt", exPt); ("b1:ht", 660000); ("b1_flow.h", 660000); ("b1:tot:h", 660000);
   ("MN", 200 / 400); ("out_stat.ht", 660000); ("out_stat.S", c_Sout); ("out_stat.guess:Pt", exPt); ("out_stat.guess:gamt", 5 / 4); ("out_stat.W", kW)]
  [("Fl_I:tot:", c_in); ("Fl_O:tot:", c_out); ("real_flow.", c_out); ("ideal_flow.", c_id); ("b1:tot:", c_out); ("b1_flow.", c_out); ("Fl_O:stat:", k_c_st); ("out_stat.", k_c_st)] x k.
Lemma k_C48_compressor_map_ex : solves (compressor_map cmap 1 true) k_ex_cmap.
Proof.
  assert (Nl := ufac_n0 "lbm/s"). assert (Nr := ufac_n0 "rpm").
  split; [|ex_conns]. intros s Hs. unfold compressor_map in Hs. cbn [subs app map] in Hs. repeat destruct Hs as [<-|Hs]; try contradiction.
  - intros x Hx. inlist Hx; unfold cmap; match goal with |- _ = ?r => change r with r end.
    + change (1 / 4 / 1 = 1 / 4). field.
    + change (4 / 1 = 1 + ufac "rpm" / ufac "rpm" + 2 / 1). field. exact Nr.
    + change (3 * ufac "lbm/s" / ufac "lbm/s" = ufac "rpm" / ufac "rpm" + 2 / 1). field. auto.
  - intros o Ho. inlist Ho.
    + change (cNc / 1 = cNc * ufac "rpm" / ufac "rpm" / (ufac "rpm" / ufac "rpm")). field. exact Nr.
    + change (31 / 3 / 1 = (32 / 1 - 1) / (4 / 1 - 1)). field.
    + change (2 / 1 = 1 / 2 / 1 / (1 / 4 / 1)). field.
    + change (k_cWc / 3 / 1 = k_cWc * ufac "lbm/s" / ufac "lbm/s" / (3 * ufac "lbm/s" / ufac "lbm/s")). field. exact Nl.
  - change (1 / 1 = 1). field.
  - intros x Hx. inlist Hx; unfold cmap.
    + change (1 / 4 / 1 = 1 / 4). field.
    + change (3 / 1 = 1 + ufac "rpm" / ufac "rpm" + 1 / 1). field. exact Nr.
    + change (2 * ufac "lbm/s" / ufac "lbm/s" = ufac "rpm" / ufac "rpm" + 1 / 1). field. auto.
  - intros x Hx. inlist Hx; unfold cmap.
    + change (1 / 4 / 1 = 1 / 4). field.
    + change (4 / 1 = 1 + 2 * ufac "rpm" / ufac "rpm" + 1 / 1). field. exact Nr.
    + change (3 * ufac "lbm/s" / ufac "lbm/s" = 2 * ufac "rpm" / ufac "rpm" + 1 / 1). field. auto.
  - intros b Hb. cbn in Hb. repeat destruct Hb as [<-|Hb]; try contradiction; reflexivity.
  - intros o Ho. inlist Ho.
    + change (25 / 2 / 1 = (3 * ufac "lbm/s" / ufac "lbm/s" / (2 * ufac "lbm/s" / ufac "lbm/s") / (4 / 1 / (3 / 1)) - 1) * 100). field. exact Nl.
    + change (0 / 1 = (4 / 1 - 4 / 1) / (4 / 1) * 100). field.
Qed.
Lemma k_C48_compressor_ex : (forall b, In b ["b1"] -> ok_name (b ++ ":tot")) /\ solves (compressor gas2 TABULAR cmap 1 ["b1"] true true) k_ex_comp.
Proof.
  split; [intros b Hb; inlist Hb; okx|].
  assert (Nl := ufac_n0 "lbm/s"). assert (Nr := ufac_n0 "rpm"). assert (Np := ufac_n0 "psi"). assert (Ni := ufac_n0 "lbf/inch**2"). assert (Nb := ufac_n0 "Btu/lbm"). assert (PW := kW_pos). assert (PP := exPt_pos).
  split; [|ex_conns]. intros s Hs. unfold compressor in Hs. cbn [subs app map] in Hs. repeat destruct Hs as [<-|Hs]; try contradiction; cbv beta iota delta [stat_mode].
  - exact Logic.I.
  - intros o Ho. inlist Ho.
    + change (k_cWc * ufac "lbm/s" / ufac "lbm/s" = k_cWc). field. exact Nl.
    + change (cNc * ufac "rpm" / ufac "rpm" = 1000 * ufac "rpm" / ufac "rpm" * rpow (275 / 2 / ufac "degR" / T_STDeng) (- (1 / 2))). replace (1000 * ufac "rpm" / ufac "rpm") with 1000 by (field; exact Nr). unfold cNc. field. exact Nr.
  - apply (group_make _ _ _ _ _ k_ex_cmap k_C48_compressor_map_ex); allx.
  - intros o Ho. inlist Ho. change (exPt / ufac "lbf/inch**2" = 32 / 1 * (exPt / 32 / ufac "lbf/inch**2")). field. exact Ni.
  - gx_tot 275 exPt ltac:(cs_tac).
  - intros o Ho. inlist Ho. change (660000 / ufac "Btu/lbm" = (440000 / ufac "Btu/lbm" - 220000 / ufac "Btu/lbm") / (1 / 2 / 1) + 220000 / ufac "Btu/lbm"). field. exact Nb.
  - gx_tot (825 / 2) exPt ltac:(cs_tac).
  - intros o Ho. inlist Ho. change (cpoly (ufac "Btu/(lbm*degR)") / 1 = 320 / ufac "Btu/(lbm*degR)" * ln (32 / 1) / (320 / ufac "Btu/(lbm*degR)" * ln (32 / 1) + c_Sout / ufac "Btu/(lbm*degR)" - c_Sin / ufac "Btu/(lbm*degR)")).
    replace (32 / 1) with 32 by field. change (cpoly (ufac "Btu/(lbm*degR)") / 1 = cpoly (ufac "Btu/(lbm*degR)")). unfold Rdiv. rewrite Rinv_1. ring.
  - intros o Ho. inlist Ho.
    + change (kW / ufac "lbm/s" = 2 * kW / ufac "lbm/s" - 2 * kW / ufac "lbm/s" * (1 / 2 / 1)). field. exact Nl.
    + change (k_cpow * ufac "hp" / ufac "hp" = 2 * kW / ufac "lbm/s" * (220000 / ufac "Btu/lbm" - 660000 / ufac "Btu/lbm") * BTU_s2HP -
        2 * kW / ufac "lbm/s" * (1 / 2 / 1) * (220000 / ufac "Btu/lbm" + 1 / 1 * (660000 / ufac "Btu/lbm" - 220000 / ufac "Btu/lbm") - 660000 / ufac "Btu/lbm") * BTU_s2HP).
      assert (Nh := ufac_n0 "hp"). unfold k_cpow. field. auto.
    + change (HP_per_RPM_to_FT_LBF * k_cpow / 1000 * ufac "ft*lbf" / ufac "ft*lbf" = HP_per_RPM_to_FT_LBF * (2 * kW / ufac "lbm/s" * (220000 / ufac "Btu/lbm" - 660000 / ufac "Btu/lbm") * BTU_s2HP -
        2 * kW / ufac "lbm/s" * (1 / 2 / 1) * (220000 / ufac "Btu/lbm" + 1 / 1 * (660000 / ufac "Btu/lbm" - 220000 / ufac "Btu/lbm") - 660000 / ufac "Btu/lbm") * BTU_s2HP) / (1000 * ufac "rpm" / ufac "rpm")).
      assert (Nf := ufac_n0 "ft*lbf"). unfold k_cpow. field. auto.
    + change (kW / ufac "lbm/s" = 2 * kW / ufac "lbm/s" * (1 / 2 / 1)). field. exact Nl.
    + change (exPt / ufac "psi" = exPt / 32 / ufac "psi" + 1 / 1 * (exPt / ufac "psi" - exPt / 32 / ufac "psi")). field. exact Np.
    + change (660000 / ufac "Btu/lbm" = 220000 / ufac "Btu/lbm" + 1 / 1 * (660000 / ufac "Btu/lbm" - 220000 / ufac "Btu/lbm")). field. exact Nb.
  - gx_tot (825 / 2) exPt ltac:(cs_tac).
  - gx_stat 400 exPs 200 400 kA kW 660000 ltac:(first [exact exPs_pos | exact kA_pos | unfold kW, exW, exrho; field | lra]) ltac:(cs_tac).
Qed.

Lemma k_eff : val k_ex_comp "eff_poly" = cpoly (ufac "Btu/(lbm*degR)"). Proof. reflexivity. Qed.
End k.

Lemma dS_eq : c_Sout - c_Sin = exS * (211 / 243).
Proof. pose proof exPs_pos. pose proof exPt_pos. unfold c_Sout, c_Sin, exPt, exS. field. lra. Qed.
Lemma exS_big : 10 ^ 7 < exS.
Proof. unfold exS. pose proof exPs_pos as P. assert (Q : exPs < 10 ^ 6) by (unfold exPs, ufac, units, lookup; cbn [String.eqb Ascii.eqb Bool.eqb]; unfold u_lbf, u_lbm, u_inch; lra).
  apply (Rmult_lt_reg_r exPs); [exact P|]. unfold Rdiv. rewrite Rmult_assoc, Rinv_l by lra. lra. Qed.
Lemma ln32 : 0 < ln 32 < 32.
Proof. split; [rewrite <- ln_1; apply ln_increasing; lra|]. pose proof (exp_ineq1 32 ltac:(lra)) as E. apply exp_lt_inv. rewrite exp_ln; lra. Qed.
Lemma cpoly_range u : 0 < u -> 0 < cpoly u < 1 / 2.
Proof.
  intros U. pose proof ln32. pose proof exS_big. pose proof dS_eq.
  assert (E : cpoly u = 320 * ln 32 / (320 * ln 32 + (c_Sout - c_Sin))) by (unfold cpoly; field; repeat split; lra).
  rewrite E. split; [apply Rdiv_lt_0_compat; lra|]. apply (Rmult_lt_reg_r (320 * ln 32 + (c_Sout - c_Sin))); [lra|]. unfold Rdiv. rewrite Rmult_assoc, Rinv_l by lra. lra.
Qed.
(* the curve of the small engines takes every value up to a half below a core size of 0.2 *)
Lemma small_takes v : 0 < v < 1 / 2 -> exists x, 0 < x < 1 / 5 /\ small_curve 0 x = v.
Proof.
  intros Hv. assert (K : exists a b r, skipn 0 (small_q 0) = a :: b :: r /\ Q2R (qx a) = 0 /\ 1 / 5 < Q2R (qx b) /\ cub (coeffs (kR a) (kR b)) 0 = 0 /\ 1 / 2 < cub (coeffs (kR a) (kR b)) (1 / 5)).
  { eexists; eexists; eexists; split; [vm_compute; reflexivity|]; unfold cub, coeffs, kR, kx, ky, km, qx, qy, qm, Q2R; cbn; lra. }
  destruct K as (a & b & r & S & E0 & E1 & E2 & E3).
  assert (C : continuity (fun x => cub (coeffs (kR a) (kR b)) x - v)) by (generalize (coeffs (kR a) (kR b)); intros q; unfold cub; reg).
  destruct (IVT _ 0 (1 / 5) C ltac:(lra) ltac:(cbv beta; lra) ltac:(cbv beta; lra)) as (z & Hz & Ez). cbv beta in Ez.
  assert (Z0 : z <> 0) by (intros ->; lra). assert (Z1 : z <> 1 / 5) by (intros ->; lra).
  exists z. split; [lra|]. rewrite (piece_val 0 0 a b r z S ltac:(lra)), E0. replace (z - 0) with z by ring. lra.
Qed.
(* a converged compressor and its converged balance exist together, and meet every hypothesis of C72_core and C72_core_exit *)
Theorem C72_core_nonvacuous : exists w CS, (forall b, In b ["b1"] -> ok_name (b ++ ":tot")) /\ solves (compressor gas2 TABULAR cmap 1 ["b1"] true true) w /\ val w "Fl_I:tot:P" <> 0 /\
  val w "Fl_I:tot:R" * ln (val w "Fl_O:tot:P" / val w "Fl_I:tot:P") + val w "Fl_O:tot:S" - val w "Fl_I:tot:S" <> 0 /\ core_closed small 0 w CS /\ 0 < CS < 1 / 5 /\
  (forall b, In b ["b1"] -> 0 <= val w (b ++ ":frac_W")) /\ 0 <= val w "Fl_I:stat:W" /\ 0 < val w "Fl_O:tot:T" /\ 0 < val w "Fl_O:tot:P" /\ poly_eff w (small_curve 0 CS).
Proof.
  destruct (small_takes (cpoly (ufac "Btu/(lbm*degR)")) (cpoly_range _ (ufac_pos _))) as (CS & HC & EC).
  set (c0 := core_size (2 * exW / ufac "lbm/s") (825 / 2 / ufac "degR") (exPt / ufac "psi")).
  assert (PW := exW_pos2). assert (PP := exPt_pos). assert (Ul := ufac_pos "lbm/s"). assert (Ud := ufac_pos "degR"). assert (Up := ufac_pos "psi").
  assert (P0 : 0 < c0).
  { assert (A1 : 0 < 825 / 2 / ufac "degR") by (apply Rdiv_lt_0_compat; [lra|assumption]). assert (A2 : 0 < exPt / ufac "psi") by (apply Rdiv_lt_0_compat; assumption).
    assert (A3 : 0 < 2 * exW / ufac "lbm/s") by (apply Rdiv_lt_0_compat; [lra|assumption]).
    unfold c0, core_size. set (t := 825 / 2 / ufac "degR") in *. set (p := exPt / ufac "psi") in *. set (m := 2 * exW / ufac "lbm/s") in *.
    apply Rmult_lt_0_compat; [exact A3|]. apply Rdiv_lt_0_compat; [apply rpow_gt0; lra|lra]. }
  set (kA := CS / c0). assert (PA' : 0 < kA) by (apply Rdiv_lt_0_compat; lra). exists (k_ex_comp kA), CS.
  destruct (k_C48_compressor_ex kA PA') as [B1 B2].
  assert (N : val (k_ex_comp kA) "Fl_I:tot:R" * ln (val (k_ex_comp kA) "Fl_O:tot:P" / val (k_ex_comp kA) "Fl_I:tot:P") + val (k_ex_comp kA) "Fl_O:tot:S" - val (k_ex_comp kA) "Fl_I:tot:S" <> 0).
  { change (320 * ln (exPt / (exPt / 32)) + c_Sout - c_Sin <> 0). replace (exPt / (exPt / 32)) with 32 by (field; lra). pose proof ln32. pose proof exS_big. pose proof dS_eq. lra. }
  assert (NP : val (k_ex_comp kA) "Fl_I:tot:P" <> 0) by (change (exPt / 32 <> 0); lra).
  assert (CL : core_closed small 0 (k_ex_comp kA) CS).
  { split.
    - change (CS = core_size (2 * (kA * exW) / ufac "lbm/s") (825 / 2 / ufac "degR") (exPt / ufac "psi")).
      transitivity (kA * c0); [unfold kA; field; lra|]. unfold c0, core_size. set (q := rpow _ _ / _). field. lra.
    - exists (fun x => if var_eq_dec x (Spec_Comp.V "CS") then CS else if var_eq_dec x (Spec_Comp.V "eta_p") then cpoly (ufac "Btu/(lbm*degR)") else 1 / 2), (fun _ => 0).
      split; [reflexivity|]. split; [reflexivity|]. split; [reflexivity|]. rewrite core_res. cbn [core_curve].
      destruct (var_eq_dec (Spec_Comp.V "CS") (Spec_Comp.V "CS")); [|congruence]. destruct (var_eq_dec (Spec_Comp.V "eta_p") (Spec_Comp.V "CS")); [discriminate|].
      destruct (var_eq_dec (Spec_Comp.V "eta_p") (Spec_Comp.V "eta_p")); [|congruence]. rewrite EC. ring. }
  split; [exact B1|]. split; [exact B2|]. split; [exact NP|]. split; [exact N|]. split; [exact CL|]. split; [exact HC|].
  split; [intros b [<-|[]]; change (0 <= 1 / 2); lra|]. split; [change (0 <= 2 * (kA * exW)); apply Rmult_le_pos; [lra|apply Rmult_le_pos; lra]|].
  split; [change (0 < 825 / 2); lra|]. split; [exact PP|].
  exact (C72_core gas2 TABULAR cmap 1 ["b1"] true true small 0 (k_ex_comp kA) CS B1 B2 NP N CL).
Qed.
