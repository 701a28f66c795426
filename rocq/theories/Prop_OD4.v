(* C54: converged design points (the examples of C48) that meet the hypotheses, taken off design. *)
From Verif Require Import Lib_R Lib_Loop Spec_Wire Model_Thermo Proofs_Wire Prop_Thermo Model_Elem1 Model_Elem2 Proofs_Elem Proofs_Elem2 Proofs_ElemEx Proofs_ElemEx2 Prop_Station Prop_StationEx Prop_StationEx2 Proofs_OD Prop_OD Prop_OD2 Prop_OD3.
Open Scope string_scope. Open Scope list_scope. Open Scope R_scope.
Ltac flx := match goal with |- flowing ?w _ _ => pose proof exPs_pos; unfold flowing; change (0 < 5 / 4 * 320 * 400 /\ exrho <> 0 /\ 1600 * (825 / 2) <> 0 /\ / 10 ^ 16 <= / 2 /\ 1 <> 0); unfold exrho; repeat split; try lra end.
Example C54_inlet_ex : solves (inlet gas2 TABULAR true false) (carry area_conns ex_inlet).
Proof. apply C54_inlet; [exact gas2_local|flx|exact C48_inlet_ex]. Qed.
Example C54_bleed_out_ex : solves (bleed_out gas2 TABULAR ["b1"; "b2"] true false) (carry area_conns ex_bleed).
Proof. apply C54_bleed_out; [exact gas2_local|flx|apply C48_bleed_out_ex]. Qed.
Example C54_combustor_ex : solves (combustor gas2 TABULAR (ATab ex_adder) true false) (carry area_conns ex_comb).
Proof. apply C54_combustor; [exact gas2_local|flx|apply C48_combustor_ex]. Qed.

Ltac flx2 := match goal with |- flowing ?w _ _ => pose proof exPs_pos; unfold flowing; change (0 < 5 / 4 * 320 * 400 /\ exPs / (320 * 400) <> 0 /\ 660000 <> 0 /\ / 10 ^ 16 <= 200 / 400 /\ 1 <> 0); repeat split; try lra end.
Example C54_compressor_ex : solves (compressor gas2 TABULAR cmap 1 ["b1"] true false) (carry comp_conns ex_comp).
Proof.
  apply C54_compressor; [exact gas2_local|flx2|pose proof (ufac_pos "rpm"); change (ufac "rpm" <> 0); lra| | | |apply C48_compressor_ex].
  - change (4 <> 1). lra.
  - change (1 / 4 <> 0). lra.
  - pose proof (ufac_pos "lbm/s"). change (3 * ufac "lbm/s" <> 0). lra.
Qed.
Example C54_turbine_ex : solves (turbine gas2 TABULAR tmap (ATab ex_tadd) ["b1"] true false) (carry turb_conns ex_turb).
Proof.
  apply C54_turbine; [exact gas2_local|intros b [<-|[]]; repeat split; discriminate|flx2|pose proof (ufac_pos "rpm"); change (ufac "rpm" <> 0); lra| | | |apply C48_turbine_ex].
  - change (2 <> 1). lra.
  - change (1 / 4 <> 0). lra.
  - pose proof (ufac_pos "lbm/s"). change (3 * ufac "lbm/s" <> 0). lra.
Qed.
Example C54_mixer_ex : solves (mixer gas2 TABULAR (ATab ex_madd) true false) (carry (mix_conns true) ex_mixer).
Proof.
  apply C54_mixer; [exact gas2_local| |apply C48_mixer_ex]. unfold entering.
  change (0 < 5 / 4 /\ 0 < 320 /\ 0 < 400 /\ 32000 / (320 * 400) <> 0 /\ 1600 * 400 < 660000 /\ 660000 <> 0 /\ 1 <> 0). repeat split; lra.
Qed.
