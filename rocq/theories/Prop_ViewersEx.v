(* Claim C71: converged elements, some of whose inputs were made cycle parameters, meet the hypotheses. *)
From Verif Require Import Lib_R Lib_Loop Spec_Wire Model_Thermo Proofs_Wire Prop_Static Prop_Thermo Model_Turbo Model_Nozzle Model_Elem1 Model_Elem2 Proofs_Elem Proofs_Elem2 Proofs_Elem3
  Prop_Station Prop_Station3 Prop_Station4 Prop_Station5 Prop_Station6 Prop_Station7 Prop_Station8 Prop_Map Proofs_ElemEx Proofs_ElemEx2 Prop_StationEx Prop_StationEx2 Model_Viewers Prop_Viewers Prop_Viewers2 Prop_Viewers3.
Open Scope string_scope. Open Scope list_scope. Open Scope R_scope.

Ltac pok := intros k Hk; cbn [In] in Hk; repeat destruct Hk as [<-|Hk]; try contradiction; (split; [apply (proj1 (memb_in _ _)); vm_compute; reflexivity|reflexivity]).
Theorem C71_nonvacuous :
  (exists f, prints (compressor_scope gas2 TABULAR cmap 1 ["b1"] true true ["b1:frac_W"; "b1:frac_P"; "b1:frac_work"]) ex_comp (compressor_row true) f /\ compressor_columns cmap 1 ["b1"] ex_comp f) /\
  (exists f, prints_bleed (compressor_scope gas2 TABULAR cmap 1 ["b1"] true true ["b1:frac_W"; "b1:frac_P"; "b1:frac_work"]) ex_comp "b1" f /\ bleed_columns ex_comp "b1" f) /\
  prints (compressor_scope gas2 TABULAR cmap 1 ["b1"] true true ["b1:frac_W"; "b1:frac_P"; "b1:frac_work"]) ex_comp (station_row "Fl_O") (fun x => val ex_comp ("Fl_O:" ++ x)) /\
  (exists f, prints (turbine_scope gas2 TABULAR tmap (ATab ex_tadd) ["b1"] true true ["b1:frac_P"]) ex_turb (turbine_row true) f /\ turbine_columns tmap ["b1"] ex_turb f) /\
  (exists f, prints (combustor_scope gas2 TABULAR (ATab ex_adder) true true ["dPqP"]) ex_comb burner_row f /\ val ex_comb "Fl_O:tot:P" = val ex_comb "Fl_I:tot:P" * (1 - f "dPqP")) /\
  (exists f, prints (nozzle_scope gas2 TABULAR CV Cfg ["Cfg"]) ex_nozzle (nozzle_row Cfg) f /\ nozzle_columns CV Cfg ex_nozzle f) /\
  (exists f, prints (mixer_scope gas2 TABULAR (ATab ex_madd) true true []) ex_mixer (mixer_row true) f /\ mixer_columns ex_mixer f) /\
  (exists f, prints_bleed (bleed_scope gas2 TABULAR ["b1"; "b2"] true true ["b1:frac_W"]) ex_bleed "b2" f /\ f "W" = f "Wb/Win" * val ex_bleed "Fl_I:stat:W").
Proof.
  destruct C48_compressor_ex as [C1 C2]. destruct C48_turbine_ex as (T1 & T2 & T3). destruct C48_combustor_ex as [B1 B2]. destruct C48_nozzle_ex as [N1 _]. destruct C48_mixer_ex as [M1 M2]. destruct C48_bleed_out_ex as [O1 O2].
  assert (PC : params_ok (compressor gas2 TABULAR cmap 1 ["b1"] true true) ["b1:frac_W"; "b1:frac_P"; "b1:frac_work"]) by pok.
  split; [apply C71_compressor; assumption|]. split; [apply C71_compressor_bleeds; [assumption|left; reflexivity|assumption|assumption]|].
  split; [apply (proj1 (proj2 (proj2 (proj2 (proj2 (proj2 (C71_flow_station gas2 TABULAR true ["b1:frac_W"; "b1:frac_P"; "b1:frac_work"] ex_comp))))))); exact PC|].
  split; [apply C71_turbine; [assumption|assumption|pok|assumption]|].
  split; [destruct (C71_burner gas2 TABULAR (ATab ex_adder) true true ["dPqP"] ex_comb B1 ltac:(pok) B2) as (f & F1 & F2 & _); exists f; split; assumption|].
  split; [apply C71_nozzle; [pok|assumption]|].
  split; [apply C71_mixer; [assumption|intros k []|assumption|]|].
  { assert (E : val ex_mixer "Fl_I2:tot:P" = 900 ^ 5) by reflexivity. rewrite E. apply pow_nonzero. lra. }
  destruct (C71_bleed_out gas2 TABULAR ["b1"; "b2"] true true ["b1:frac_W"] ex_bleed "b2" O1 ltac:(right; left; reflexivity) ltac:(pok) O2) as (f & F1 & F2 & _).
  - apply not_found; vm_compute; reflexivity.
  - exists f. split; assumption.
Qed.
