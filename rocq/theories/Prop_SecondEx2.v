(* C76: a turbine that meets its hypotheses, with a cooling stream, for the monatomic gas. *)
From Coq Require Import Lia FunctionalExtensionality.
From Verif Require Import Lib_R Lib_Loop Spec_Wire Model_Thermo Proofs_Wire Prop_Static Prop_Thermo Model_Equil Proofs_Equil Proofs_Props Proofs_Thermo Prop_Equil Model_Cea Proofs_Cea Proofs_Stable Prop_Cea Prop_Second Prop_Second2 Prop_ShippedEx Prop_SecondEx.
From Verif Require Import Model_Turbo Model_Species Model_ThermoAdd Model_Elem1 Model_Elem2 Proofs_Elem Proofs_Elem2 Proofs_ElemEx Proofs_ElemEx2 Prop_Station Prop_Station2 Prop_Station5 Prop_StationEx Prop_Cycle2 Prop_Cea2 Prop_StationEx2.
Open Scope string_scope. Open Scope list_scope. Open Scope R_scope.

(* in design: pressure ratio 32 at efficiency 1/2, from 800 K, with an equal cooling flow at 400 K and inlet pressure *)
Definition tP : R := 32 * exPt / 32.
Definition u_in := mq (4 * 200) (32 * exPt).
Definition u_id := mq 200 tP.
Definition u_bl := mq (4 * 100) (32 * exPt).
Definition u_bi := mq 100 tP.
Definition u_b4 := mq 500 tP.
Definition u_out := mq 375 tP.
Definition uNp : R := 1000 * rpow (4 * 200 / ufac "degR") (- (1 / 2)).
Definition uWp : R := exW / 2 / ufac "lbm/s" * rpow (4 * 200 / ufac "degR") (1 / 2) / (32 * exPt / ufac "psi").
Definition upow : R := (exW / 2) / ufac "lbm/s" * (1 / 2) * (u_in "h" / ufac "Btu/lbm" - u_id "h" / ufac "Btu/lbm") * BTU_s2HP + (exW / 2) / ufac "lbm/s" * (1 / 2) * (u_bl "h" / ufac "Btu/lbm" - u_bi "h" / ufac "Btu/lbm") * BTU_s2HP.
Definition upoly : R := 1 + (u_b4 "S" / ufac "Btu/(lbm*degR)" - u_in "S" / ufac "Btu/(lbm*degR)") / (u_in "R" / ufac "Btu/(lbm*degR)" * ln (1 / 32)).
Definition m_tmap : state := fun x _ => lookup 0
  [("alphaMap", 0); ("NpMap", ufac "rpm"); ("PRmap", 2); ("effMap", 1 / 4); ("WpMap", 3 * ufac "lbm/s"); ("Np", uNp * ufac "rpm"); ("Wp", uWp * ufac "lbm/s"); ("PR", 32); ("eff", 1 / 2);
   ("s_Np", uNp); ("s_PR", 31); ("s_eff", 2); ("s_Wp", uWp / 3)] x.
Definition m_turb : state := fun x k =>
  if prefix "map." x then m_tmap (strip4 x) k else
  est4
  [("Nmech", 1000 * ufac "rpm"); ("Np", uNp * ufac "rpm"); ("Wp", uWp * ufac "lbm/s"); ("PR", 32); ("eff", 1 / 2); ("s_Np", uNp); ("s_PR", 31); ("s_eff", 2); ("s_Wp", uWp / 3);
   ("press_drop.Pt_out", tP); ("blds.Pt_out", tP); ("bld_add.composition_out", 1); ("blds.b1:Pt", 32 * exPt); ("b1:frac_P", 1); ("Fl_I:stat:W", exW / 2); ("b1:stat:W", exW / 2); ("W_out", exW); ("Fl_O:stat:W", exW);
   ("Fl_I:tot:S", u_id "S"); ("b1_inflow.flow:S", u_bi "S"); ("pwr_turb.ht_out_ideal", u_id "h");
   ("ht_out_b4bld", u_b4 "h"); ("pwr_turb.ht_out", u_out "h"); ("eff_poly_calc.S_out", u_b4 "S"); ("eff_poly", upoly);
   ("power", upow * ufac "hp"); ("trq", HP_per_RPM_to_FT_LBF * upow / 1000 * ufac "ft*lbf")]
  [("Fl_I:tot:", u_in); ("ideal_flow.", u_id); ("b1_inflow.", u_bl); ("b1:tot:", u_bl); ("b1_ideal.", u_bi); ("real_flow_b4bld.", u_b4); ("Fl_O:tot:", u_out); ("real_flow.", u_out)] x k.
Lemma u_S : u_id "S" = u_in "S". Proof. unfold u_id, u_in, tP. symmetry. pose proof exPt_pos. apply mq_S; lra. Qed.
Lemma u_Sb : u_bi "S" = u_bl "S". Proof. unfold u_bi, u_bl, tP. symmetry. pose proof exPt_pos. apply mq_S; lra. Qed.
Ltac ueach := let x := fresh in let H := fresh in let k := fresh in intros x H; cbn in H; repeat destruct H as [<-|H]; try contradiction; first [reflexivity | exact u_S | exact u_Sb | intros k; first [reflexivity | exact u_S | symmetry; exact u_S | exact u_Sb | symmetry; exact u_Sb]].
Example C76_turbine_ex : (forall b, In b ["b1"] -> contains ":" b = false) /\ flow_adder (ATab ex_tadd) ["b1"] /\ solves (turbine (cea_tp gm) CEA tmap (ATab ex_tadd) ["b1"] false true) m_turb /\
  total_in gm 100 2000 m_turb "Fl_I:tot" /\ val m_turb "ideal_flow.flow:T" = 200 /\ val m_turb "real_flow_b4bld.Fl_O_b4bld:tot:T" = 500 /\ val m_turb "b1_inflow.flow:T" = 400 /\ val m_turb "b1_ideal.flow:T" = 100 /\
  val m_turb "eff" = 1 / 2 /\ val m_turb "PR" = 32 /\ 0 < val m_turb "b1:stat:W" /\ val m_turb "b1:frac_P" = 1 /\ 0 < val m_turb "Fl_I:stat:W" /\ val m_turb "Fl_O:stat:W" <> 0.
Proof.
  assert (Nl := ufac_n0 "lbm/s"). assert (Nr := ufac_n0 "rpm"). assert (Np := ufac_n0 "psi"). assert (Nb := ufac_n0 "Btu/lbm"). assert (PW := exW_pos2). assert (PP := exPt_pos). assert (TP : 0 < tP) by (unfold tP; lra).
  split; [intros b Hb; inlist Hb; reflexivity|]. split; [exists (mkTab None TFlow ["b1"]); repeat split; reflexivity|].
  split; [|split; [apply (total_gm m_turb "Fl_I:tot" (4 * 200) (32 * exPt)); [lra|reflexivity|ueach|lra]|]].
  2:{ split; [reflexivity|]. split; [reflexivity|]. split; [change (4 * 100 = 400); ring|]. split; [reflexivity|]. split; [reflexivity|]. split; [reflexivity|].
      change (0 < exW / 2 /\ 1 = 1 /\ 0 < exW / 2 /\ exW <> 0). lra. }
  split; [|ex_conns]. intros s Hs. unfold turbine in Hs. cbn [subs app map flat_map] in Hs. repeat destruct Hs as [<-|Hs]; try contradiction; cbv beta iota delta [stat_mode].
  - exact Logic.I.
  - intros o Ho. inlist Ho.
    + change (uWp * ufac "lbm/s" / ufac "lbm/s" = uWp). field. exact Nl.
    + change (uNp * ufac "rpm" / ufac "rpm" = 1000 * ufac "rpm" / ufac "rpm" * rpow (4 * 200 / ufac "degR") (- (1 / 2))). replace (1000 * ufac "rpm" / ufac "rpm") with 1000 by (field; exact Nr). unfold uNp. field. exact Nr.
  - apply (group_make _ _ _ _ _ m_tmap); [|allx|allx]. split; [|ex_conns]. intros s Hs. unfold turbine_map in Hs. cbn [subs app map] in Hs. repeat destruct Hs as [<-|Hs]; try contradiction.
    + intros x Hx. inlist Hx; unfold tmap.
      * change (1 / 4 / 1 = 1 / 4). field.
      * change (3 * ufac "lbm/s" / ufac "lbm/s" = ufac "rpm" / ufac "rpm" + 2 / 1). field. auto.
    + intros o Ho. inlist Ho.
      * change (2 / 1 = 1 / 2 / 1 / (1 / 4 / 1)). field.
      * change (uNp / 1 = uNp * ufac "rpm" / ufac "rpm" / (ufac "rpm" / ufac "rpm")). field. exact Nr.
      * change (31 / 1 = (32 / 1 - 1) / (2 / 1 - 1)). field.
      * change (uWp / 3 / 1 = uWp * ufac "lbm/s" / ufac "lbm/s" / (3 * ufac "lbm/s" / ufac "lbm/s")). field. exact Nl.
  - intros o Ho. inlist Ho. change (tP / ufac "psi" = 32 * exPt / ufac "psi" / (32 / 1)). unfold tP. field. exact Np.
  - apply (mex_SP 200 tP "ideal_flow" "flow" "ideal_flow.flow" [PA "S" "Fl_I:tot:S"; PA "composition" "Fl_I:tot:composition"] [] m_turb ltac:(okx) ltac:(shx) TP eq_refl); [ueach|ueach|ueach|reflexivity].
  - exact Logic.I.
  - cbn [add_sub srel]. intros o Ho. pose proof (ufac_pos "lbm/s"). pose proof (ufac_pos "Btu/lbm"). 
    cbn in Ho. repeat destruct Ho as [<-|Ho]; try contradiction.
    + change (0 / ufac "Btu/lbm" = (exW / 2 / ufac "lbm/s" * (0 / ufac "Btu/lbm") + exW / 2 / ufac "lbm/s" * (0 / ufac "Btu/lbm")) / (0 + exW / 2 / ufac "lbm/s" + exW / 2 / ufac "lbm/s")). field. lra.
    + change (exW / ufac "lbm/s" = 0 + exW / 2 / ufac "lbm/s" + exW / 2 / ufac "lbm/s"). field. lra.
    + change (1 / 1 = ((0 + exW / 2 / ufac "lbm/s" / (1 + (1 / 1 + 0)) * (1 / 1)) + exW / 2 / ufac "lbm/s" / (1 + (1 / 1 + 0)) * (1 / 1)) / (exW / 2 / ufac "lbm/s" / (1 + (1 / 1 + 0)) + exW / 2 / ufac "lbm/s" / (1 + (1 / 1 + 0)))). field. lra.
  - intros o Ho. inlist Ho. change (32 * exPt / ufac "psi" = tP / ufac "psi" + 1 / 1 * (32 * exPt / ufac "psi" - tP / ufac "psi")). field. exact Np.
  - apply (mex_hP (4 * 100) (32 * exPt) "b1_inflow" "flow" "b1_inflow.flow" [PA "composition" "b1:tot:composition"; PA "h" "b1:tot:h"] [] m_turb ltac:(okx) ltac:(shx) ltac:(lra) eq_refl); [ueach|ueach|ueach|reflexivity].
  - apply (mex_SP 100 tP "b1_ideal" "flow" "b1_ideal.flow" [PA "composition" "b1:tot:composition"] [] m_turb ltac:(okx) ltac:(shx) TP eq_refl); [ueach|ueach|ueach|reflexivity].
  - assert (Nh := ufac_n0 "hp"). assert (Nf := ufac_n0 "ft*lbf"). assert (NW : exW <> 0) by lra. intros o Ho. inlist Ho.
    + change (u_b4 "h" / ufac "Btu/lbm" = u_in "h" / ufac "Btu/lbm" * (1 - 1 / 2 / 1) + u_id "h" / ufac "Btu/lbm" * (1 / 2 / 1)). unfold u_b4, u_in, u_id. rewrite !mq_h. field. exact Nb.
    + change (u_out "h" / ufac "Btu/lbm" = exW / 2 / ufac "lbm/s" / (exW / ufac "lbm/s") * (u_in "h" / ufac "Btu/lbm" * (1 - 1 / 2 / 1) + u_id "h" / ufac "Btu/lbm" * (1 / 2 / 1)) +
        exW / 2 / ufac "lbm/s" / (exW / ufac "lbm/s") * (u_bl "h" / ufac "Btu/lbm" * (1 - 1 / 2 / 1) + u_bi "h" / ufac "Btu/lbm" * (1 / 2 / 1))). unfold u_out, u_in, u_id, u_bl, u_bi. rewrite !mq_h. field. auto.
    + change (upow * ufac "hp" / ufac "hp" = exW / 2 / ufac "lbm/s" * (1 / 2 / 1) * (u_in "h" / ufac "Btu/lbm" - u_id "h" / ufac "Btu/lbm") * BTU_s2HP +
        exW / 2 / ufac "lbm/s" * (1 / 2 / 1) * (u_bl "h" / ufac "Btu/lbm" - u_bi "h" / ufac "Btu/lbm") * BTU_s2HP). unfold upow. field. auto.
    + change (HP_per_RPM_to_FT_LBF * upow / 1000 * ufac "ft*lbf" / ufac "ft*lbf" = (exW / 2 / ufac "lbm/s" * (1 / 2 / 1) * (u_in "h" / ufac "Btu/lbm" - u_id "h" / ufac "Btu/lbm") * BTU_s2HP +
        exW / 2 / ufac "lbm/s" * (1 / 2 / 1) * (u_bl "h" / ufac "Btu/lbm" - u_bi "h" / ufac "Btu/lbm") * BTU_s2HP) / (1000 * ufac "rpm" / ufac "rpm") * HP_per_RPM_to_FT_LBF). unfold upow. field. auto.
  - apply (mex_hP 500 tP "real_flow_b4bld" "Fl_O_b4bld:tot" "real_flow_b4bld.Fl_O_b4bld:tot" [PA "composition" "Fl_I:tot:composition"] [] m_turb ltac:(okx) ltac:(shx) TP eq_refl); [ueach|ueach|ueach|reflexivity].
  - intros o Ho. inlist Ho. change (upoly / 1 = 1 + (u_b4 "S" / ufac "Btu/(lbm*degR)" - u_id "S" / ufac "Btu/(lbm*degR)") / (u_in "R" / ufac "Btu/(lbm*degR)" * ln (1 / (32 / 1)))).
    replace (32 / 1) with 32 by field. rewrite u_S. change (upoly / 1 = upoly). unfold Rdiv at 1. rewrite Rinv_1. ring.
  - apply (mex_hP 375 tP "real_flow" "Fl_O:tot" "Fl_O:tot" [] [PG "Fl_O:tot:"] m_turb ltac:(okx) ltac:(shx) TP eq_refl); [ueach|ueach|ueach|reflexivity].
  - cbn. intros x Hx. inlist Hx. reflexivity.
Qed.
Print Assumptions C76_turbine_ex.
