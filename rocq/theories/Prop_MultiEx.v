(* C68: the converged propulsor of Prop_ExamplesEx meets the hypotheses. *)
From Coq Require Import FunctionalExtensionality Ascii Lia.
From Verif Require Import Lib_R Lib_Loop Spec_Wire Model_Thermo Proofs_Wire Prop_Static Prop_Atm Prop_Thermo Model_Nozzle Prop_Elem2 Model_Elem1 Model_Elem2 Proofs_Elem Proofs_Elem2 Proofs_ElemEx Proofs_ElemEx2.
From Verif Require Import Prop_Station Prop_Station2 Prop_Station3 Prop_Station5 Prop_Station7 Prop_Station8 Prop_StationEx Prop_StationEx2 Model_Cycle Prop_Cycle Prop_Cycle2 Model_Examples Data_Examples Prop_Examples Prop_Examples2 Prop_Examples3 Prop_ExamplesEx Proofs_OD Prop_OD Model_Multi Data_Multi Proofs_Multi Prop_Multi.
Open Scope string_scope. Open Scope list_scope. Open Scope R_scope.
Lemma tiny x : / 1000 <= x -> / 10 ^ 16 <= x.
Proof. intros H. apply Rle_trans with (/ 1000); [|exact H]. apply Rinv_le_contravar; [lra|]. replace (10 ^ 16) with (1000 * 10 ^ 13) by ring. assert (1 <= 10 ^ 13) by (apply pow_R1_Rle; lra). lra. Qed.
Lemma pr_runs n k : In (n, k) pr_els -> runs k (local pr_state n).
Proof.
  pose proof exPs_pos as H1. pose proof exW_pos. pose proof exrho_pos. intros H'. unfold pr_els in H'. repeat destruct H' as [H'|H']; try contradiction; injection H' as <- <-; cbn [runs]; try exact Logic.I.
  - unfold flowing. repeat match goal with |- _ /\ _ => split end.
    + change (0 < 5 / 4 * 320 * 400). lra.
    + change (exrho <> 0). lra.
    + change (1600 * (825 / 2) <> 0). lra.
    + apply tiny. change (/ 1000 <= / 2). lra.
    + change (1 <> 0). lra.
  - unfold flowing. repeat match goal with |- _ /\ _ => split end.
    + change (0 < 5 / 4 * 320 * 1200). lra.
    + change (32 * exPs / (320 * 1200) <> 0). unfold Rdiv. assert (0 < / (320 * 1200)) by (apply Rinv_0_lt_compat; lra). assert (0 < 32 * exPs * / (320 * 1200)) by (apply Rmult_lt_0_compat; lra). lra.
    + change (1980000 <> 0). lra.
    + apply tiny. exact pM.
    + change (pA <> 0). pose proof pA_pos. lra.
    + change (ufac "rpm" <> 0). apply ufac_n0.
    + change (4 <> 1). lra.
    + change (1 / 4 <> 0). lra.
    + change (3 * ufac "lbm/s" <> 0). pose proof (ufac_pos "lbm/s"). lra.
Qed.
Theorem C68_nonvacuous : In m_Propulsor multis /\ tp_local gas2 /\ builds (m_des m_Propulsor) pr_els /\ (forall nk, In nk pr_els -> made nk) /\ cycle_converged gas2 (m_des m_Propulsor) pr_els pr_state /\
  (forall n k, In (n, k) pr_els -> runs k (local pr_state n)) /\ exists w', multi_converged gas2 m_Propulsor pr_els pr_state w' /\ same_engine x_Propulsor pr_state w' /\ val w' "balance.Nmech" = 1000 * ufac "rpm" /\ mass_flow w' ("nozz", "Fl_O") = exW.
Proof.
  destruct C67_nonvacuous as (_ & _ & (B & M & C & _) & HM & _). assert (Hm : In m_Propulsor multis) by (cbn; tauto).
  split; [exact Hm|]. split; [exact gas2_local|]. split; [exact B|]. split; [exact M|]. split; [exact C|]. split; [exact pr_runs|].
  destruct (C68_design_is_off_design gas2 m_Propulsor pr_els pr_state Hm gas2_local B M C pr_runs) as (w' & HC & HS & _); [intros n []|discriminate|].
  exists w'. split; [exact HC|]. split; [exact HS|]. split.
  - assert (K := cv_conn _ _ _ _ (mc_od _ _ _ _ _ HC) "balance.Nmech" "fan.Nmech" ltac:(cbn; tauto) 0%nat). unfold val. rewrite <- K. assert (Q := proj1 HS "fan" (XCompressor []) ltac:(cbn; tauto) "Nmech" ltac:(cbn; intuition discriminate) 0%nat).
    change (w' "fan.Nmech" 0%nat = pr_fan "Nmech" 0%nat) in Q. rewrite Q. reflexivity.
  - assert (Q := proj1 HS "nozz" (XNozzle CV Cv) ltac:(cbn; tauto) "Fl_O:stat:W" ltac:(cbn; tauto) 0%nat). change (mass_flow w' ("nozz", "Fl_O")) with (w' "nozz.Fl_O:stat:W" 0%nat). change (w' "nozz.Fl_O:stat:W" 0%nat = pr_nozz "Fl_O:stat:W" 0%nat) in Q. rewrite Q. reflexivity.
Qed.
