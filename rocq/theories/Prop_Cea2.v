(* Claims C59 (inlets, with the CEA method), C61-C64: a reacting gas that meets their hypotheses, and C41 for the CEA method. *)
From Coq Require Import Lia FunctionalExtensionality.
From Verif Require Import Lib_R Lib_Loop Spec_Wire Model_Thermo Proofs_Wire Prop_Static Prop_Thermo Model_Equil Proofs_Equil Proofs_Props Proofs_Thermo Prop_Equil Model_Cea Proofs_Cea Proofs_Stable Prop_Cea.
From Verif Require Import Model_Elem1 Proofs_Elem Proofs_Elem2 Proofs_ElemEx Prop_Station Prop_Station2 Prop_StationEx Model_Cycle Prop_Cycle Prop_Cycle2.
Open Scope string_scope. Open Scope list_scope. Open Scope R_scope.

(* the trace switch makes no difference to a solution without trace species *)
Theorem C21_trace_off (g : gas) e : none_traced g e -> (solved g true e <-> solved g false e).
Proof.
  intros Hn. assert (K : forall old o, In o (outs (chem_eq g true)) -> compute (chem_eq g true) e old o = compute (chem_eq g false) e old o).
  { intros old o Ho. apply ce_outs_inv in Ho as [(j & Hj & ->)|[(j & Hj & ->)| ->]]; cbn [chem_eq compute]; unfold ce_resid; cbn [String.eqb Ascii.eqb Bool.eqb andb]; try reflexivity.
    rewrite (ltb_t _ _ Hj). unfold ce_resid_n. rewrite not_trace by (apply Hn; exact Hj). reflexivity. }
  split; intros (A & B & C); (split; [exact A|]; split; [exact B|]); intros old o Ho; [rewrite <- K by exact Ho|rewrite K by exact Ho]; apply C; exact Ho.
Qed.

(* ---------- a dissociating gas, A2 <-> 2 A: one element, species A (0) and A2 (1), A richer in energy ---------- *)
Definition gE (j : nat) : R := match j with 0%nat => 1 | _ => 0 end.
Definition gd : gas := mkGas 2 1 (fun _ j => INR j + 1) (fun j T => 3 + gE j / T) (fun j T => 3 * ln T + 3 + gE j) (fun _ _ => 3)
  (fun j T => - gE j / T ^ 2) (fun _ T => 3 / T) (fun _ _ => 0).
Definition gdP (T s : R) : R := P_REF * ((9 - s ^ 2) / (4 * s ^ 2) * (T ^ 3 * exp (2 - 2 / T))).
Definition gh (T s : R) : R := s * (3 + 1 / T) + (3 - s) / 2 * 3.
Definition gah (T s : R) : R := s * (3 + 1 / T) + 2 * ((3 - s) / 2 * 3).
(* the equilibrium with s moles of A and (3 - s) / 2 of A2 at temperature T *)
Definition gs (T s : R) : env := fun v => match v with
  | V "T" => T | V "P" => gdP T s | V "n_moles" => (3 + s) / 2
  | I "n" 0%nat => s | I "n" 1%nat => (3 - s) / 2 | I "composition" 0%nat => 3
  | I "pi" 0%nat => 1 / T - 1 - 3 * ln T + ln s - ln ((3 + s) / 2) + ln (gdP T s / P_REF)
  | I "result_T" 0%nat => gh T s / 3 | I "result_T" 1%nat => (gah T s - (6 - s) * (gh T s / 3)) / 3
  | I "result_P" 0%nat => (3 + s) / 6 | I "result_P" 1%nat => (3 - (6 - s) * ((3 + s) / 6)) / 3 | _ => 0 end.
Lemma gd_ok : gas_ok gd.
Proof.
  split; [cbn; lia|]. intros j Hj. cbn [ne aij gd]. assert (0 <= INR j) by apply pos_INR. split; [intros; lra|]. exists 0%nat. split; [lia|lra].
Qed.
Lemma gdP_pos T s : 0 < T -> 0 < s < 3 -> 0 < gdP T s / P_REF.
Proof.
  intros HT Hs. unfold gdP. pose proof pref_pos. replace (P_REF * _ / P_REF) with ((9 - s ^ 2) / (4 * s ^ 2) * (T ^ 3 * exp (2 - 2 / T))) by (field; lra).
  apply Rmult_lt_0_compat; [apply ex_P; auto|]. apply Rmult_lt_0_compat; [apply pow_lt; auto|apply exp_pos].
Qed.
Lemma gs_mu T s j : 0 < T -> 0 < s < 3 -> (j < 2)%nat -> mu gd (gs T s) j = pi_a gd (gs T s) j.
Proof.
  intros HT Hs Hj. assert (HP := gdP_pos T s HT Hs). assert (Hr := pref_pos). unfold mu.
  rewrite ce_P_pos; [|cbn [gs]; apply (Rmult_lt_reg_r (/ P_REF)); [apply Rinv_0_lt_compat; exact Hr|unfold Rdiv in HP; lra]].
  assert (N : ntot gd (gs T s) = (3 + s) / 2) by (unfold ntot; cbn [np gd]; rewrite ex_sum; cbn [gs]; lra). rewrite N.
  unfold pi_a. cbn [ne gd]. rewrite ex_sum1. cbn [H0 S0 aij gd]. replace (gs T s (V "T")) with T by reflexivity.
  replace (gs T s (V "P")) with (gdP T s) by reflexivity.
  assert (L : ln (gdP T s / P_REF) = ln ((3 - s) / 2) + ln ((3 + s) / 2) - 2 * ln s + 3 * ln T + (2 - 2 / T)).
  { unfold gdP. replace (P_REF * _ / P_REF) with ((3 - s) / 2 * ((3 + s) / 2) / (s * s) * (T * (T * T) * exp (2 - 2 / T))) by (field; lra).
    assert (0 < T * (T * T)) by (repeat apply Rmult_lt_0_compat; lra). pose proof (exp_pos (2 - 2 / T)).
    rewrite ln_mult; [|apply Rdiv_lt_0_compat; [apply Rmult_lt_0_compat; lra|nra]|apply Rmult_lt_0_compat; auto].
    rewrite ln_div; [|apply Rmult_lt_0_compat; lra|nra]. rewrite (ln_mult (T * (T * T))) by auto. rewrite ln_exp. rewrite !ln_mult by nra. ring. }
  destruct (lt2 j Hj) as [-> | ->]; cbn [gs gE INR]; rewrite L; unfold Rdiv; ring.
Qed.
Lemma gs_solved T s : 0 < T -> 0 < s < 3 -> solved gd false (gs T s).
Proof.
  intros HT Hs. assert (HP := gdP_pos T s HT Hs). assert (Hr := pref_pos). split; [cbn [gs]; apply (Rmult_lt_reg_r (/ P_REF)); [apply Rinv_0_lt_compat; exact Hr|unfold Rdiv in HP; lra]|]. split.
  - intros j Hj. destruct (lt2 j Hj) as [-> | ->]; cbn [gs]; lra.
  - intros old o Ho. apply ce_outs_inv in Ho as [(j & Hj & ->)|[(j & Hj & ->)| ->]]; cbn [chem_eq compute]; unfold ce_resid; cbn [String.eqb Ascii.eqb Bool.eqb andb].
    + rewrite (ltb_t _ _ Hj). unfold ce_resid_n. cbn [andb]. rewrite gs_mu by auto. ring.
    + rewrite (ltb_t _ _ Hj). pose proof (lt1 j Hj) as ->. cbn [np gd]. rewrite ex_sum. cbn [aij gd gs INR]. lra.
    + unfold ntot. cbn [np gd]. rewrite ex_sum. cbn [gs]. lra.
Qed.
Definition three : nat -> R := fun _ => 3.
Lemma gs_eq T s : 0 < T -> / 10 <= s <= 29 / 10 -> equilibrium gd T (gdP T s) three (gs T s).
Proof.
  intros HT Hs. split; [apply gs_solved; lra|]. split.
  - intros i Hi. cbn [ne gd] in *. assert (Hi' : i = 0%nat \/ i = 1%nat) by lia. cbn [props_rhs compute]. unfold rhs_compute. cbn [ne np gd].
    destruct Hi' as [-> | ->]; rewrite !ex_sum; cbn [String.eqb Ascii.eqb Bool.eqb andb Nat.ltb Nat.leb Nat.eqb gs]; rewrite ?ex_sum; unfold aij_prod; cbn [aij gd H0 INR gs gE]; unfold gh, gah; split; field; lra.
  - split.
    + assert (MIN_CONC <= / 20) by (unfold MIN_CONC; apply Rinv_le_contravar; [lra|cbn [pow]; lra]). intros j Hj. destruct (lt2 j Hj) as [-> | ->]; cbn [gs]; lra.
    + repeat split. intros i Hi. pose proof (lt1 i Hi) as ->. reflexivity.
Qed.
Definition gp (T s : R) (x : string) : R := prop_of gd (gs T s) x.
Lemma gd_tp T s : 0 < T -> / 10 <= s <= 29 / 10 -> cea_tp gd T (gdP T s) three (gp T s).
Proof.
  intros HT Hs. apply (cea_make gd T (gdP T s) three (gs T s)); [|apply gs_eq; auto|intros; reflexivity].
  pose proof (gdP_pos T s HT ltac:(lra)) as K. pose proof pref_pos. unfold Rdiv in K. apply (Rmult_lt_reg_r (/ P_REF)); [apply Rinv_0_lt_compat; auto|lra].
Qed.
Lemma gd_proper T1 T2 : 0 < T1 -> proper_between gd T1 T2.
Proof.
  intros H0' T HT j Hj. cbn [gd H0 S0 Cp0]. split; [|split; [|lra]].
  - apply is_derive_Reals. apply (is_derive_ext_loc (fun t => 3 * t + gE j)).
    + exists (mkposreal T ltac:(lra)). intros t Ht. change (Rabs (t - T) < T) in Ht.
      assert (t <> 0). { intros ->. rewrite Rabs_left in Ht; lra. } change (3 * t + gE j = t * (3 + gE j / t)). field. auto.
    + assert (Did : is_derive (fun t : R => t) T 1) by exact (is_derive_id T). eapply is_derive_val; [apply dplus; [apply dscal_l; exact Did|apply dconst]|]. ring.
  - apply is_derive_Reals. eapply is_derive_val; [apply dplus; [apply dplus; [apply dscal_l, is_derive_Reals, derivable_pt_lim_ln; lra|apply dconst]|apply dconst]|]. field. lra.
Qed.
Lemma three_half : exists s, / 10 <= s <= 29 / 10 /\ gdP 2 s = gdP 1 1.
Proof.
  (* 9 / s^2 - 1 = 8 / (8 e) *)
  pose proof (exp_pos 1) as E0. assert (E3 : exp 1 <= 3) by apply exp_le_3. assert (E1 : 1 < exp 1) by (pose proof (exp_ineq1 1 ltac:(lra)); lra).
  set (k := 1 + / exp 1). assert (Hi : / 3 <= / exp 1 < 1). { split; [apply Rinv_le_contravar; lra|]. apply (Rmult_lt_reg_r (exp 1)); [lra|]. rewrite Rinv_l by lra. lra. }
  assert (Hk : 4 / 3 <= k < 2) by (unfold k; lra). pose proof (sqrt_lt_R0 k ltac:(lra)) as Sp. pose proof (sqrt_sqrt k ltac:(lra)) as S2.
  assert (L1 : sqrt k <= 2) by nra. assert (L2 : 11 / 10 <= sqrt k) by nra.
  exists (3 / sqrt k). split.
  - split; [apply (Rmult_le_reg_r (sqrt k)); [lra|]; replace (3 / sqrt k * sqrt k) with 3 by (field; lra); lra|].
    apply (Rmult_le_reg_r (sqrt k)); [lra|]. replace (3 / sqrt k * sqrt k) with 3 by (field; lra). lra.
  - unfold gdP. f_equal. replace (2 - 2 / 2) with 1 by field. replace (2 - 2 / 1) with 0 by field. rewrite exp_0.
    replace ((9 - (3 / sqrt k) ^ 2) / (4 * (3 / sqrt k) ^ 2)) with ((sqrt k * sqrt k - 1) / 4) by (field; lra). rewrite S2. unfold k. field. lra.
Qed.
(* the same gas, at two temperatures and one pressure, and at two pressures and one temperature *)
Example C61_nonvacuous : gas_ok gd /\ cea_tp gd 1 (gdP 1 1) three (gp 1 1).
Proof. split; [exact gd_ok|apply gd_tp; lra]. Qed.
Example C62_nonvacuous : proper_between gd 1 2 /\ (forall T j, (j < np gd)%nat -> 1 < Cp0 gd j T) /\ exists P p q, cea_tp gd 1 P three p /\ cea_tp gd 2 P three q.
Proof.
  split; [apply gd_proper; lra|]. split; [intros; cbn; lra|]. destruct three_half as (s & Hs & E). exists (gdP 1 1), (gp 1 1), (gp 2 s). split; [apply gd_tp; lra|]. rewrite <- E. apply gd_tp; lra.
Qed.
Lemma gdP_1 s : 0 < s -> gdP 1 s = P_REF * ((9 - s ^ 2) / (4 * s ^ 2)).
Proof. intros H. unfold gdP. replace (2 - 2 / 1) with 0 by field. rewrite exp_0. f_equal. field. lra. Qed.
Example C64_nonvacuous : exists P1 P2 p q, P1 < P2 /\ cea_tp gd 1 P1 three p /\ cea_tp gd 1 P2 three q /\ q "R" < p "R".
Proof.
  exists (gdP 1 (3 / 2)), (gdP 1 1), (gp 1 (3 / 2)), (gp 1 1). split; [rewrite !gdP_1 by lra; apply Rmult_lt_compat_l; [exact pref_pos|lra]|]. split; [apply gd_tp; lra|]. split; [apply gd_tp; lra|].
  unfold gp, prop_of. cbn [props_calcs compute]. unfold calcs_compute. cbv zeta. vsimp. cbn [gs]. unfold R_SI. lra.
Qed.

(* ---------- CEA stations in an engine ---------- *)
Lemma cea_local g : tp_local (cea_tp g).
Proof.
  intros T P c p p' E (HP & w & H1 & H2 & H3 & H4 & H5). split; [exact HP|]. exists w. repeat match goal with |- _ /\ _ => split end; auto.
  intros m Hm. rewrite <- E; [apply H5; exact Hm|]. cbn in Hm. repeat destruct Hm as [<-|Hm]; try contradiction; cbn; tauto.
Qed.
Theorem C61_one_enthalpy (g : gas) : gas_ok g -> one_enthalpy (cea_tp g).
Proof. intros G T P c p q Hp Hq. apply (C61_function g T P c c p q G Hp Hq); [reflexivity|cbn; tauto]. Qed.
(* so with the CEA method energy is conserved in every engine, without a hypothesis on the gas (C41) *)
Theorem C41_energy_cea g design els links w : gas_ok g -> network els links -> (forall l, In l links -> l_w l = true /\ l_tot l = true) -> running (cea_tp g) CEA design els links w ->
  (forall nk, In nk els -> regular w nk) -> (forall n k, In (n, k) els -> divides k -> In (n, "Fl_I") (open_in els links) -> port_ok (cea_tp g) CEA w (n, "Fl_I")) ->
  lsum (enth_flow w) (open_in els links) + lsum (energy_in w) els = lsum (enth_flow w) (open_out els links).
Proof. intros G. apply C41_energy. apply C61_one_enthalpy. exact G. Qed.

(* an inlet with losses changes the total enthalpy of a dissociating gas *)
Definition di_inlet : state := fun x k =>
  if memb x ["Fl_I:tot:composition"; "Fl_O:tot:composition"; "real_flow.composition"] then 3
  else lookup 0 (map (fun y => (("Fl_I:tot:" ++ y)%string, gp 1 1 y * ufac (prop_unit CEA y))) prop_names ++ map (fun y => (("Fl_O:tot:" ++ y)%string, gp 1 (3 / 2) y * ufac (prop_unit CEA y))) prop_names ++
    map (fun y => (("real_flow." ++ y)%string, gp 1 (3 / 2) y * ufac (prop_unit CEA y))) prop_names ++
    [("Fl_I:tot:T", 1); ("Fl_O:tot:T", 1); ("Fl_I:tot:P", gdP 1 1 * ufac "bar"); ("Fl_O:tot:P", gdP 1 (3 / 2) * ufac "bar"); ("real_flow.P", gdP 1 (3 / 2) * ufac "bar"); ("calcs_inlet.Pt_out", gdP 1 (3 / 2) * ufac "bar");
     ("ram_recovery", 3 / 8); ("Fl_I:stat:W", 1); ("Fl_O:stat:W", 1)]) x.
Theorem C59_cea_refuted : exists w, gas_ok gd /\ solves (inlet (cea_tp gd) CEA false true) w /\ total_ok (cea_tp gd) CEA w "Fl_I:tot" /\ 0 < val w "ram_recovery" <= 1 /\ 0 < val w "Fl_I:stat:W" /\
  val w "Fl_O:tot:h" <> val w "Fl_I:tot:h".
Proof.
  exists di_inlet. match goal with |- _ /\ _ => split end; [exact gd_ok|].
  assert (EB : forall p, p * ufac "bar" / ufac "bar" = p) by (intros; field; apply ufac_n0).
  match goal with |- _ /\ _ => split end.
  { split; [|ex_conns]. intros s Hs. insplit Hs.
    - exact Logic.I.
    - intros o Ho. inlist Ho.
      + change (gdP 1 (3 / 2) * ufac "bar" / ufac "lbf/inch**2" = gdP 1 1 * ufac "bar" / ufac "lbf/inch**2" * (3 / 8 / 1)). rewrite !gdP_1 by lra. field. apply ufac_n0.
      + change (0 / ufac "lbf" = (1 / ufac "lbm/s") * (0 / ufac "ft/s") / g_c). field. repeat split; try apply ufac_n0. unfold g_c. lra.
    - apply (mk_TP (cea_tp gd) CEA (cea_local gd) "real_flow" "Fl_O:tot" "Fl_O:tot" [PA "T" "Fl_I:tot:T"; PA "composition" "Fl_I:tot:composition"] [PG "Fl_O:"] di_inlet ltac:(okx) ltac:(shx) (gp 1 (3 / 2))); [| |each|each].
      + change (cea_tp gd 1 (gdP 1 (3 / 2) * ufac "bar" / ufac "bar") three (gp 1 (3 / 2))). rewrite EB. apply gd_tp; lra.
      + intros x Hx. cbn in Hx. repeat destruct Hx as [<-|Hx]; try contradiction; reflexivity.
    - cbn. intros x Hx. inlist Hx. reflexivity. }
  match goal with |- _ /\ _ => split end.
  { exists (gp 1 1). split; [change (cea_tp gd 1 (gdP 1 1 * ufac "bar" / ufac "bar") three (gp 1 1)); rewrite EB; apply gd_tp; lra|].
    intros x Hx. cbn in Hx. repeat destruct Hx as [<-|Hx]; try contradiction; reflexivity. }
  match goal with |- _ /\ _ => split end; [change (0 < 3 / 8 <= 1); lra|]. match goal with |- _ /\ _ => split end; [change (0 < 1); lra|].
  change (gp 1 (3 / 2) "h" * ufac "cal/g" <> gp 1 1 "h" * ufac "cal/g"). intros E. apply Rmult_eq_reg_r in E; [|apply ufac_n0].
  unfold gp in E. rewrite !h_val in E. apply Rmult_eq_reg_l in E; [|unfold R_ENG; lra]. unfold enth in E. cbn [np gd] in E. rewrite !ex_sum in E. cbn [gs gd H0 gE] in E. lra.
Qed.
(* a static station of that gas at Mach 1/2, found from its static pressure *)
Definition sg (x : string) : R := gp 1 1 x * ufac (prop_unit CEA x).
Definition sVs : R := sqrt (sg "gamma" * sg "R" * 1).
Definition sst : state := fun x k =>
  if memb x ["composition"; "flow.composition"; "s:composition"] then 3
  else lookup 0 (map (fun y => (("s:" ++ y)%string, sg y)) prop_names ++ map (fun y => (y, sg y)) prop_names ++
    [("base_thermo.S", sg "S"); ("s:T", 1); ("T", 1); ("s:P", gdP 1 1 * ufac "bar"); ("Ps", gdP 1 1 * ufac "bar"); ("s:W", 1); ("W", 1); ("s:Vsonic", sVs); ("Vsonic", sVs); ("s:V", sVs / 2); ("V", sVs / 2);
     ("s:MN", / 2); ("MN", / 2); ("s:area", 1 / (sg "rho" * (sVs / 2))); ("area", 1 / (sg "rho" * (sVs / 2))); ("ht", sg "h" + (sVs / 2) ^ 2 / 2)]) x.
Example C63_nonvacuous : exists w, Spec_Wire.solves (thermo (cea_tp gd) CEA static_Ps "s") w /\ 0 < w (at_ "s" "T") 0%nat /\ (forall j, (j < np gd)%nat -> 1 < Cp0 gd j (w (at_ "s" "T") 0%nat)) /\
  w (at_ "s" "h") 0%nat < w "ht" 0%nat /\ w (at_ "s" "MN") 0%nat = / 2.
Proof.
  assert (EB : gdP 1 1 * ufac "bar" / ufac "bar" = gdP 1 1) by (field; apply ufac_n0).
  assert (ST : station (cea_tp gd) CEA three sst "s").
  { exists (gp 1 1). split; [change (cea_tp gd 1 (gdP 1 1 * ufac "bar" / ufac "bar") three (gp 1 1)); rewrite EB; apply gd_tp; lra|].
    intros x Hx. cbn in Hx. repeat destruct Hx as [<-|Hx]; try contradiction; reflexivity. }
  assert (T1 : sst (at_ "s" "T") 0%nat = 1) by reflexivity.
  destruct (C63_station gd three sst "s" gd_ok ST ltac:(rewrite T1; lra) ltac:(intros; cbn; lra)) as [A _]. destruct (C61_ideal_gas gd three sst "s" gd_ok ST ltac:(rewrite T1; lra)) as (_ & B & C).
  change (0 < sg "gamma" * sg "R" * 1) in A. change (0 < sg "R") in B. change (0 < sg "rho") in C.
  assert (Gp : 0 < sg "gamma") by (apply (Rmult_lt_reg_r (sg "R")); lra). pose proof (sqrt_lt_R0 _ A) as Vp. fold sVs in Vp. pose proof (sqrt_sqrt _ (Rlt_le _ _ A)) as V2. fold sVs in V2.
  assert (K : srel (tsub (cea_tp gd) CEA "t" static_Ps "s" [PG ""] [PG ""]) (lin (tsub (cea_tp gd) CEA "t" static_Ps "s" [PG ""] [PG ""]) sst) (lout (tsub (cea_tp gd) CEA "t" static_Ps "s" [PG ""] [PG ""]) sst)).
  { apply (mk_Ps (cea_tp gd) CEA (cea_local gd) "t" "s" "s" [PG ""] [PG ""] sst ltac:(okx) ltac:(shx) (gp 1 1)).
    - change (cea_tp gd 1 (gdP 1 1 * ufac "bar" / ufac "bar") three (gp 1 1)); rewrite EB; apply gd_tp; lra.
    - intros x Hx. cbn in Hx. repeat destruct Hx as [<-|Hx]; try contradiction; reflexivity.
    - each.
    - samex.
    - each.
    - samex.
    - reflexivity.
    - exact Gp.
    - exact B.
    - rewrite T1; lra.
    - change (sg "rho" <> 0). lra.
    - change (0 < sVs / 2). lra.
    - change (sg "h" + (sVs / 2) ^ 2 / 2 = sg "h" + (sVs / 2) ^ 2 / 2 /\ sVs ^ 2 = sg "gamma" * sg "R" * 1 /\ 0 <= sVs /\ sVs / 2 = / 2 * sVs /\ sg "rho" * (sVs / 2) * (1 / (sg "rho" * (sVs / 2))) = 1).
      repeat split; try lra. field. lra. }
  apply group_open in K as (v & Hv & Vi & Vo). exists v. split; [exact Hv|].
  assert (O : forall x, In x ["T"; "h"; "MN"] -> v (at_ "s" x) 0%nat = sst (at_ "s" x) 0%nat).
  { intros x Hx. rewrite Vo; [cbn in Hx; repeat destruct Hx as [<-|Hx]; try contradiction; reflexivity|]. apply C42_outputs; [okx|]. cbn in Hx; repeat destruct Hx as [<-|Hx]; try contradiction; cbn; tauto. }
  rewrite !O by (cbn; tauto). rewrite Vi by (apply C42_inputs; [okx|cbn; tauto]).
  change (0 < 1 /\ (forall j, (j < np gd)%nat -> 1 < Cp0 gd j 1) /\ sg "h" < sg "h" + (sVs / 2) ^ 2 / 2 /\ / 2 = / 2).
  split; [lra|]. split; [intros; cbn; lra|]. split; [|reflexivity]. assert (0 < (sVs / 2) ^ 2) by (apply pow_lt; lra). lra.
Qed.
