From Verif Require Import Lib_Loop Model_Turbo.
Open Scope string_scope. Open Scope list_scope. Open Scope R_scope.

Lemma hp_ne : HP_per_RPM_to_FT_LBF <> 0. Proof. unfold HP_per_RPM_to_FT_LBF. lra. Qed.
Lemma btu_ne : BTU_s2HP <> 0. Proof. unfold BTU_s2HP. lra. Qed.
Lemma tstd_pos : 0 < T_STDeng. Proof. unfold T_STDeng. lra. Qed.
Lemma pstd_pos : 0 < P_STDeng. Proof. unfold P_STDeng. lra. Qed.

(* ---- components with literal names ---- *)
Lemma cep_ok : comp_ok c_eff_poly (fun e => 0 < e (V "PR") /\ e (V "Rt") * ln (e (V "PR")) + e (V "S_out") - e (V "S_in") <> 0).
Proof.
  cok c_eff_poly ltac:(cbv beta zeta delta [cep_compute cep_partials])
    ltac:(repeat split; try tauto; try (intros E; lra); try lra).
Qed.
Lemma power_ok : comp_ok power_comp (fun e => e (V "Nmech") <> 0).
Proof. cok power_comp ltac:(cbv beta zeta delta [pow_compute pow_partials]) ltac:(repeat split; auto). Qed.
Lemma enthalpy_rise_ok : comp_ok enthalpy_rise (fun e => e (V "eff") <> 0).
Proof. cok enthalpy_rise ltac:(cbv beta zeta delta [er_compute er_partials]) ltac:(repeat split; auto). Qed.
Lemma pressure_rise_ok : comp_ok pressure_rise (fun _ => True).
Proof. cok pressure_rise ltac:(cbv beta zeta delta [pr_compute pr_partials]) ltac:(repeat split; auto). Qed.
Lemma stall_ok : comp_ok stall_calcs (fun e => e (V "PR_actual") <> 0 /\ e (V "PR_SMN") <> 0 /\ e (V "Wc_SMN") <> 0).
Proof.
  cok stall_calcs ltac:(cbv beta zeta delta [st_compute st_partials])
    ltac:(repeat split; try tauto; try (apply Rmult_integral_contrapositive_currified; [tauto|apply Rinv_neq_0_compat; tauto])).
Qed.
Lemma cms_ok : comp_ok c_map_scalars (fun e => e (V "NcMap") <> 0 /\ e (V "PRmap") - 1 <> 0 /\ e (V "effMap") <> 0 /\ e (V "WcMap") <> 0).
Proof. cok c_map_scalars ltac:(cbv beta zeta delta [cms_compute cms_partials]) ltac:(repeat split; tauto). Qed.
Lemma csm_ok : comp_ok c_scaled_map (fun _ => True).
Proof. cok c_scaled_map ltac:(cbv beta zeta delta [csm_compute csm_partials]) ltac:(repeat split; auto). Qed.
Lemma tms_ok : comp_ok t_map_scalars (fun e => e (V "NpMap") <> 0 /\ e (V "PRmap") - 1 <> 0 /\ e (V "effMap") <> 0 /\ e (V "WpMap") <> 0).
Proof. cok t_map_scalars ltac:(cbv beta zeta delta [tms_compute tms_partials]) ltac:(repeat split; tauto). Qed.
Lemma tsm_ok : comp_ok t_scaled_map (fun _ => True).
Proof. cok t_scaled_map ltac:(cbv beta zeta delta [tsm_compute tsm_partials]) ltac:(repeat split; auto). Qed.
Lemma tep_ok : comp_ok t_eff_poly (fun e => 0 < e (V "PR") /\ ln (1 / e (V "PR")) <> 0 /\ e (V "Rt") <> 0).
Proof.
  cok t_eff_poly ltac:(cbv beta zeta delta [tep_compute tep_partials])
    ltac:(repeat split; try tauto; try lra;
          try (apply Rmult_integral_contrapositive_currified; tauto);
          try (apply Rmult_lt_0_compat; [lra|apply Rinv_0_lt_compat; tauto]); try (intros E; lra)).
  destruct Hd as [H1 [H2 H3]]. change (ln (1 * / e (V "PR"))) with (ln (1 / e (V "PR"))).
  set (L := ln (1 / e (V "PR"))) in *. field.
  repeat split; auto; lra.
Qed.
Lemma pd_ok : comp_ok pressure_drop (fun e => e (V "PR") <> 0).
Proof. cok pressure_drop ltac:(cbv beta zeta delta [pd_compute pd_partials]) ltac:(repeat split; auto). Qed.
Lemma ed_ok : comp_ok enthalpy_drop (fun _ => True).
Proof. cok enthalpy_drop ltac:(cbv beta zeta delta [ed_compute ed_partials]) ltac:(repeat split; auto). Qed.

Lemma cci_self_eq e : cci_self e (V "delta") = e (V "Pt") / P_STDeng /\ cci_self e (V "W") = e (V "W_in")
  /\ cci_self e (V "theta") = e (V "Tt") / T_STDeng.
Proof. unfold cci_self. repeat split; repeat (destruct (var_eq_dec _ _); try congruence; try discriminate). Qed.

Ltac cci_s := let H1 := fresh in let H2 := fresh in let H3 := fresh in
  repeat match goal with |- context [cci_self ?e] =>
    destruct (cci_self_eq e) as [H1 [H2 H3]]; rewrite ?H1, ?H2, ?H3; clear H1 H2 H3 end.
Lemma cci_ok : comp_ok c_corrected_inputs (fun e => 0 < e (V "Tt") /\ 0 < e (V "Pt")).
Proof.
  assert (HT := tstd_pos). assert (HP := pstd_pos).
  split; [|split].
  - apply jac_exact_intro. intros e old o i [Ht Hp] Ho Hi. cbn [c_corrected_inputs ins outs compute partials decls] in *.
    assert (Hth : 0 < e (V "Tt") / T_STDeng) by (apply Rdiv_lt_0_compat; auto).
    assert (Hde : 0 < e (V "Pt") / P_STDeng) by (apply Rdiv_lt_0_compat; auto).
    unfold cci_compute, cci_partials_self. cbv zeta.
    inlist Ho; inlist Hi;
    (first [ left; eexists; split; [intros ?J; vsimp; rewrite ?(proj1 (cci_self_eq e)), ?(proj1 (proj2 (cci_self_eq e))), ?(proj2 (proj2 (cci_self_eq e))); reflexivity|]
           | right; split; [intros ?e0 ?J; vsimp; reflexivity|]; jinit_tac ]);
    (eapply dl_ext; [intros t; rewrite ?(proj1 (cci_self_eq (upd e _ t))), ?(proj1 (proj2 (cci_self_eq (upd e _ t)))), ?(proj2 (proj2 (cci_self_eq (upd e _ t)))); vsimp; reflexivity|]).
    + apply is_derive_Reals. apply (is_derive_ext (fun t => (e (V "W_in") / (e (V "Pt") / P_STDeng)) * rpow (t / T_STDeng) (1 / 2))).
      { intros t. change (e (V "W_in") / (e (V "Pt") / P_STDeng) * rpow (t / T_STDeng) (1 / 2) = e (V "W_in") * rpow (t / T_STDeng) (1 / 2) / (e (V "Pt") / P_STDeng)). unfold Rdiv. ring. }
      assert (D := is_derive_rpow_scale (e (V "W_in") / (e (V "Pt") / P_STDeng)) T_STDeng (1 / 2) (e (V "Tt")) Hth ltac:(lra)).
      replace (1 / 2 - 1) with (- (1 / 2)) in D by lra.
      apply (is_derive_val _ _ _ _ D). field. repeat split; lra.
    + apply is_derive_Reals. rewrite rpow_m2 by auto. auto_derive.
      { repeat split; auto. apply Rgt_not_eq. exact Hde. } field. repeat split; lra.
    + apply is_derive_Reals. auto_derive; auto. field; repeat split; lra.
    + apply derivable_pt_lim_const.
    + apply is_derive_Reals.
      assert (D := is_derive_rpow_scale (e (V "Nmech")) T_STDeng (- (1 / 2)) (e (V "Tt")) Hth ltac:(lra)).
      replace (- (1 / 2) - 1) with (- (3 / 2)) in D by lra.
      apply (is_derive_val _ _ _ _ D). field. lra.
    + apply derivable_pt_lim_const.
    + apply derivable_pt_lim_const.
    + apply is_derive_Reals. auto_derive; auto. ring.
  - jdeclared c_corrected_inputs ltac:(cbv beta zeta delta [cci_partials_self]).
  - intros e e' old old' o Ho He. cbn [c_corrected_inputs ins outs compute] in *. unfold cci_compute. cbv zeta.
    inlist Ho; vsimp; rewrite ?(proj1 (cci_self_eq e)), ?(proj1 (proj2 (cci_self_eq e))), ?(proj2 (proj2 (cci_self_eq e))),
      ?(proj1 (cci_self_eq e')), ?(proj1 (proj2 (cci_self_eq e'))), ?(proj2 (proj2 (cci_self_eq e')));
    rewrite !He by (cbn [In]; tauto); reflexivity.
Qed.

Lemma tci_ok : comp_ok t_corrected_inputs (fun e => 0 < e (V "Tt") /\ 0 < e (V "Pt")).
Proof.
  split; [|split].
  - apply jac_exact_intro. intros e old o i [Ht Hp] Ho Hi. cbn [t_corrected_inputs ins outs compute partials decls] in *.
    assert (Hth : 0 < e (V "Tt") / 1) by (rewrite Rdiv_1; auto).
    unfold tci_compute, tci_partials. cbv zeta.
    inlist Ho; inlist Hi;
    (first [ left; eexists; split; [intros ?J; vsimp; reflexivity|]
           | right; split; [intros ?e0 ?J; vsimp; reflexivity|]; jinit_tac ]);
    (eapply dl_ext; [intros t; vsimp; reflexivity|]).
    + apply is_derive_Reals. apply (is_derive_ext (fun t => (e (V "W_in") / e (V "Pt")) * rpow (t / 1) (1 / 2))).
      { intros t. rewrite Rdiv_1. change (e (V "W_in") / e (V "Pt") * rpow t (1 / 2) = e (V "W_in") * rpow t (1 / 2) / e (V "Pt")). unfold Rdiv. ring. }
      assert (D := is_derive_rpow_scale (e (V "W_in") / e (V "Pt")) 1 (1 / 2) (e (V "Tt")) Hth ltac:(lra)).
      replace (1 / 2 - 1) with (- (1 / 2)) in D by lra. rewrite (Rdiv_1 (e (V "Tt"))) in D.
      apply (is_derive_val _ _ _ _ D). field. lra.
    + apply is_derive_Reals. rewrite rpow_m2 by auto. auto_derive. { lra. } field. lra.
    + apply is_derive_Reals. auto_derive; auto. unfold Rdiv. ring.
    + apply derivable_pt_lim_const.
    + apply is_derive_Reals. apply (is_derive_ext (fun t => e (V "Nmech") * rpow (t / 1) (- (1 / 2)))).
      { intros t. rewrite Rdiv_1. reflexivity. }
      assert (D := is_derive_rpow_scale (e (V "Nmech")) 1 (- (1 / 2)) (e (V "Tt")) Hth ltac:(lra)).
      replace (- (1 / 2) - 1) with (- (3 / 2)) in D by lra. rewrite (Rdiv_1 (e (V "Tt"))) in D.
      apply (is_derive_val _ _ _ _ D). field.
    + apply derivable_pt_lim_const.
    + apply derivable_pt_lim_const.
    + apply is_derive_Reals. auto_derive; auto. ring.
  - jdeclared t_corrected_inputs ltac:(cbv beta zeta delta [tci_partials]).
  - wall t_corrected_inputs ltac:(cbv beta zeta delta [tci_compute]).
Qed.
