(* Converged elements: the hypotheses of the C48 theorems are met. *)
From Coq Require Import FunctionalExtensionality Ascii Lia.
From Verif Require Import Lib_R Spec_Wire Model_Thermo Proofs_Wire Prop_Static Prop_Atm Prop_Thermo Model_Elem1 Proofs_Elem Proofs_Elem2 Proofs_ElemEx Prop_Station Prop_Station2 Prop_Station3.
Open Scope string_scope. Open Scope list_scope. Open Scope R_scope.
Ltac insplit Hs := unfold inlet, duct, splitter, flow_start, bleed_out, combustor, cfd_start, flight_conditions, fc_conv in Hs; cbn [subs app map] in Hs; repeat destruct Hs as [<-|Hs]; try contradiction.

(* an inlet with ram recovery 1/2, design *)
Definition ex_inlet : state := est [("Fl_I:tot:P", 2 * exPt); ("ram_recovery", / 2);
  ("F_ram", (exW / ufac "lbm/s") * (200 / ufac "ft/s") / g_c * ufac "lbf"); ("calcs_inlet.Pt_out", exPt); ("real_flow.P", exPt)].
Example C48_inlet_ex : solves (inlet gas2 TABULAR true true) ex_inlet.
Proof.
  split; [|ex_conns]. intros s Hs. insplit Hs.
  - exact Logic.I.
  - intros o Ho. inlist Ho.
    + change (exPt / ufac "lbf/inch**2" = 2 * exPt / ufac "lbf/inch**2" * (/ 2 / 1)). field. apply ufac_n0.
    + change ((exW / ufac "lbm/s") * (200 / ufac "ft/s") / g_c * ufac "lbf" / ufac "lbf" = (exW / ufac "lbm/s") * (200 / ufac "ft/s") / g_c). field. repeat split; try apply ufac_n0. unfold g_c. lra.
  - ex_sub.
  - ex_sub.
Qed.
(* a duct with a pressure loss of 1/2 and 1000 W of heat, off-design, Mach dependent loss *)
Definition ex_duct : state := est [("Fl_I:tot:P", 2 * exPt); ("Fl_I:stat:MN", / 2); ("s_dPqP", 2); ("dPqP", / 2); ("Q_dot", 1000); ("Fl_I:tot:h", 1600 * (825 / 2) - 1000 / exW);
  ("q_calc.ht_out", 1600 * (825 / 2)); ("p_loss.Pt_out", exPt); ("Fl_I:stat:W", exW)].
Lemma exW_pos : 0 < exW. Proof. pose proof exrho_pos. unfold exW. lra. Qed.
Lemma btu_lbm : ufac "Btu/s" / ufac "lbm/s" = ufac "Btu/lbm". Proof. reflexivity. Qed.
Example C48_duct_ex : solves (duct gas2 TABULAR true false true 2) ex_duct.
Proof.
  split; [|ex_conns]. intros s Hs. insplit Hs.
  - exact Logic.I.
  - intros o Ho. inlist Ho. change (/ 2 / 1 = 2 / 1 * rpow (/ 2 / 1) 2). rewrite rpow_pos by lra. replace (/ 2 / 1) with (/ 2) by field. replace 2 with (INR 2) at 4 by (cbn; ring).
    rewrite Rpower_pow by lra. lra.
  - intros o Ho. inlist Ho. change (exPt / ufac "lbf/inch**2" = 2 * exPt / ufac "lbf/inch**2" * (1 - / 2 / 1)). field. apply ufac_n0.
  - intros o Ho. inlist Ho. change (1600 * (825 / 2) / ufac "Btu/lbm" = (1600 * (825 / 2) - 1000 / exW) / ufac "Btu/lbm" + 1000 / ufac "Btu/s" / (exW / ufac "lbm/s")).
    rewrite <- btu_lbm. pose proof exW_pos. field. repeat split; try apply ufac_n0. lra.
  - ex_sub.
  - ex_sub.
Qed.
(* a splitter with bypass ratio 1, off-design *)
Definition ex_split : state := est [("Fl_I:stat:W", 2 * exW); ("BPR", 1); ("split_calc.W1", exW); ("split_calc.W2", exW); ("area1", 1); ("area2", 1)].
Example C48_splitter_ex : solves (splitter gas2 TABULAR true false) ex_split.
Proof.
  split; [|ex_conns]. intros s Hs. insplit Hs.
  - exact Logic.I.
  - intros o Ho. inlist Ho.
    + change (exW / ufac "lbm/s" = 2 * exW / ufac "lbm/s" / (1 / 1 + 1)). field. apply ufac_n0.
    + change (exW / ufac "lbm/s" = 2 * exW / ufac "lbm/s" - (2 * exW / ufac "lbm/s" / (1 / 1 + 1))). field. apply ufac_n0.
  - ex_sub.
  - ex_sub.
  - ex_sub.
  - ex_sub.
Qed.
(* flow start *)
Definition ex_start : state := est [].
Example C48_flow_start_ex : solves (flow_start gas2 TABULAR None) ex_start.
Proof. split; [|ex_conns]. intros s Hs. insplit Hs; ex_sub. Qed.
(* CFD start *)
Definition ex_cfd : state := est [("Ps", exPs); ("V", 200); ("balance.Ps_computed", exPs); ("balance.V_computed", 200); ("balance.area_computed", 1); ("fs.exit_static.Pt", exPt)].
Example C48_cfd_start_ex : solves (cfd_start gas2 TABULAR) ex_cfd.
Proof.
  split; [|ex_conns]. intros s Hs. insplit Hs.
  - apply (group_make "fs" _ [PN "W"] [PG "Fl_O:"] ex_cfd ex_start C48_flow_start_ex); allx.
  - intros b Hb. cbn in Hb. repeat destruct Hb as [<-|Hb]; try contradiction; reflexivity.
Qed.
(* flight conditions at sea level on a hot day (400 K) *)
Definition ex_dTs : R := 400 - IZR 518670 / 10 ^ 3 * ufac "degR".
Definition ex_conv : state := est [("balance.Tt", 825 / 2); ("balance.Pt", exPt); ("balance.lhs:Tt", 400); ("balance.rhs:Tt", 400); ("balance.lhs:Pt", exPs); ("balance.rhs:Pt", exPs)].
Lemma ex_drho : { r : R | r = compute usatm (fun _ => 0) (fun _ => 0) (V "drhos_dalt") }.
Proof. exists (compute usatm (fun _ => 0) (fun _ => 0) (V "drhos_dalt")). reflexivity. Qed.
Definition ex_amb : state := fun x _ => lookup 0 [("alt", 0); ("dTs", ex_dTs); ("readAtmTable.Ts", IZR 518670 / 10 ^ 3 * ufac "degR"); ("dTs.Ts_in", IZR 518670 / 10 ^ 3 * ufac "degR"); ("Ts", 400);
  ("Ps", exPs); ("rhos", IZR 237717000 / 10 ^ 11 * ufac "slug/ft**3"); ("readAtmTable.drhos_dalt", proj1_sig ex_drho * ufac "slug/ft**4")] x.
Definition ex_flight : state := fun x k => if prefix "ambient." x then ex_amb (substring 8 (String.length x) x) k else if orb (String.eqb x "alt") (String.eqb x "dTs") then ex_amb x k else ex_conv x k.
Example C48_ambient_ex : solves ambient ex_amb.
Proof.
  split; [|ex_conns]. intros s Hs. unfold ambient in Hs. cbn [subs] in Hs. repeat destruct Hs as [<-|Hs]; try contradiction.
  - cbn [srel]. match goal with |- expl_rel usatm (lin ?s ?w) _ => set (e := vget (lin s w)) end.
    assert (E : e (V "alt") = IZR 0) by (change (0 / ufac "ft" = 0); field; apply ufac_n0).
    destruct (C40_table 1 0 518670 146959000 237717000 eq_refl eq_refl eq_refl eq_refl e (fun _ => 0) E) as (H1 & H2 & H3).
    intros o Ho. fold e. inlist Ho.
    + rewrite H1. change (IZR 518670 / 10 ^ 3 * ufac "degR" / ufac "degR" = IZR 518670 / 10 ^ 3). field. apply ufac_n0.
    + rewrite H2. change (IZR 146959000 / 10 ^ 7 * ufac "psi" / ufac "psi" = IZR 146959000 / 10 ^ 7). field. apply ufac_n0.
    + rewrite H3. change (IZR 237717000 / 10 ^ 11 * ufac "slug/ft**3" / ufac "slug/ft**3" = IZR 237717000 / 10 ^ 11). field. apply ufac_n0.
    + rewrite drhos_val, E, <- (drhos_val (fun _ => 0) (fun _ => 0)).
      rewrite <- (proj2_sig ex_drho). change (proj1_sig ex_drho * ufac "slug/ft**4" / ufac "slug/ft**4" = proj1_sig ex_drho). field. apply ufac_n0.
  - intros o Ho. inlist Ho. change (400 / ufac "degR" = IZR 518670 / 10 ^ 3 * ufac "degR" / ufac "degR" + ex_dTs / ufac "degR"). unfold ex_dTs. field. apply ufac_n0.
Qed.
Example C48_flight_conditions_ex : start_ok None /\ solves (flight_conditions gas2 TABULAR None) ex_flight.
Proof.
  split; [exact Logic.I|]. split; [|ex_conns]. intros s Hs. unfold flight_conditions in Hs. cbn [subs] in Hs. repeat destruct Hs as [<-|Hs]; try contradiction.
  - apply (group_make _ _ _ _ _ ex_amb C48_ambient_ex); allx.
  - apply (group_make _ _ _ _ _ ex_conv); [|allx|allx]. split; [|ex_conns]. intros s Hs. unfold fc_conv in Hs. cbn [subs] in Hs. repeat destruct Hs as [<-|Hs]; try contradiction.
    + apply (group_make "fs" _ _ [PG "Fl_O:"] ex_conv ex_start C48_flow_start_ex); allx.
    + intros b Hb. cbn in Hb. repeat destruct Hb as [<-|Hb]; try contradiction; reflexivity.
Qed.
(* two bleeds of a quarter each *)
Definition ex_bleed : state := est [("Fl_I:stat:W", 2 * exW); ("W_out", exW); ("b1:frac_W", / 4); ("b2:frac_W", / 4); ("b1:stat:W", exW / 2); ("b2:stat:W", exW / 2)].
Example C48_bleed_out_ex : (forall b, In b ["b1"; "b2"] -> ok_name (b ++ ":tot")) /\ solves (bleed_out gas2 TABULAR ["b1"; "b2"] true true) ex_bleed.
Proof.
  split; [intros b Hb; inlist Hb; okx|]. split; [|ex_conns]. intros s Hs. insplit Hs; try ex_sub.
  - exact Logic.I.
  - intros o Ho. inlist Ho.
    + change (exW / ufac "lbm/s" = 2 * exW / ufac "lbm/s" - 2 * exW / ufac "lbm/s" * (/ 4 / 1) - 2 * exW / ufac "lbm/s" * (/ 4 / 1)). field. apply ufac_n0.
    + change (exW / 2 / ufac "lbm/s" = 2 * exW / ufac "lbm/s" * (/ 4 / 1)). field. apply ufac_n0.
    + change (exW / 2 / ufac "lbm/s" = 2 * exW / ufac "lbm/s" * (/ 4 / 1)). field. apply ufac_n0.
Qed.
(* a combustor burning 2 % fuel with the tabular gas model *)
Definition ex_adder : tab_adder := mkTabAdder 1 (Some 0%nat) ["mix"] [0].
Definition ex_hin : R := (51 / 50) * (1600 * (825 / 2)) - 1000 / 50.
Definition ex_comb : state := est [("Fl_I:stat:W", exW * 50 / 51); ("Fl_I:FAR", / 50); ("Fl_I:tot:composition", 0); ("Fl_I:tot:h", ex_hin); ("mix_fuel.mix:h", 1000); ("Wfuel", exW / 51); ("Wout", exW);
  ("mix_fuel.mass_avg_h", 1600 * (825 / 2)); ("mix_fuel.composition_out", / 50); ("vitiated_flow.composition", / 50); ("Fl_O:tot:composition", / 50);
  ("out_stat.composition", / 50); ("Fl_I:tot:P", 2 * exPt); ("dPqP", / 2); ("p_loss.Pt_out", exPt)].
Example C48_combustor_ex : fuel_adder (ATab ex_adder) /\ solves (combustor gas2 TABULAR (ATab ex_adder) true true) ex_comb.
Proof.
  split; [exists (mkTab None (TReactant "FAR") ["mix"]), "FAR"; repeat split; reflexivity|].
  split; [|ex_conns]. intros s Hs. insplit Hs; try ex_sub.
  - exact Logic.I.
  - cbn [add_sub srel]. intros o Ho. pose proof exW_pos. pose proof (ufac_pos "lbm/s"). pose proof (ufac_pos "Btu/lbm").
    set (u := ufac "lbm/s") in *. set (v := ufac "Btu/lbm") in *.
    cbn in Ho. repeat destruct Ho as [<-|Ho]; try contradiction.
    + change (1600 * (825 / 2) / v = (exW * 50 / 51 / u * (ex_hin / v) + exW * 50 / 51 / u / (1 + (0 / 1 + 0)) * (/ 50 / 1) * (1000 / v)) / (0 + exW * 50 / 51 / u + exW * 50 / 51 / u / (1 + (0 / 1 + 0)) * (/ 50 / 1))).
      unfold ex_hin. field. repeat split; lra.
    + change (exW / u = 0 + exW * 50 / 51 / u + exW * 50 / 51 / u / (1 + (0 / 1 + 0)) * (/ 50 / 1)). field. lra.
    + change (/ 50 / 1 = (0 + exW * 50 / 51 / u / (1 + (0 / 1 + 0)) * (0 / 1) + exW * 50 / 51 / u / (1 + (0 / 1 + 0)) * (/ 50 / 1)) / (exW * 50 / 51 / u / (1 + (0 / 1 + 0)))). field. lra.
    + change (exW / 51 / u = exW * 50 / 51 / u / (1 + (0 / 1 + 0)) * (/ 50 / 1)). field. lra.
  - intros o Ho. inlist Ho. change (exPt / ufac "lbf/inch**2" = 2 * exPt / ufac "lbf/inch**2" * (1 - / 2 / 1)). field. apply ufac_n0.
Qed.
