(* C76: converged CEA states, a duct and a compressor that meet its hypotheses, for a monatomic gas. *)
From Coq Require Import Lia FunctionalExtensionality.
From Verif Require Import Lib_R Lib_Loop Spec_Wire Model_Thermo Proofs_Wire Prop_Static Prop_Thermo Model_Equil Proofs_Equil Proofs_Props Proofs_Thermo Prop_Equil Model_Cea Proofs_Cea Proofs_Stable Prop_Cea Prop_Second Prop_Second2 Prop_ShippedEx.
From Verif Require Import Model_Turbo Model_Elem1 Model_Elem2 Proofs_Elem Proofs_Elem2 Proofs_ElemEx Proofs_ElemEx2 Prop_Station Prop_Station2 Prop_StationEx Prop_Cycle2 Prop_Cea2 Prop_StationEx2.
Open Scope string_scope. Open Scope list_scope. Open Scope R_scope.

(* one species with the heat capacity 5/2 R, one element *)
Definition gm : gas := mkGas 1 1 (fun _ _ => 1) (fun _ _ => 5 / 2) (fun _ T => 5 / 2 * ln T) (fun _ _ => 5 / 2) (fun _ _ => 0) (fun _ T => 5 / 2 / T) (fun _ _ => 0).
Lemma gm_ok : gas_ok gm.
Proof. split; [cbn; lia|]. intros j Hj. cbn [ne aij gm]. split; [intros; lra|]. exists 0%nat. split; [lia|lra]. Qed.
Lemma gm_proper T1 T2 : 0 < T1 -> proper_between gm T1 T2.
Proof.
  intros H0' T HT j Hj. cbn [gm H0 S0 Cp0]. split; [|split; [|lra]].
  - apply is_derive_Reals. assert (Did : is_derive (fun t : R => t) T 1) by exact (is_derive_id T). apply (is_derive_ext (fun t => 5 / 2 * t)); [intros t; change (5 / 2 * t = t * (5 / 2)); lra|]. eapply is_derive_val; [apply dscal_l; exact Did|]. ring.
  - apply is_derive_Reals. eapply is_derive_val; [apply dscal_l, is_derive_Reals, derivable_pt_lim_ln; lra|]. field. lra.
Qed.
Definition mp (T P : R) (x : string) : R := prop_of gm (one_state gm T P) x.
Lemma gm_tp T P : 0 < P -> cea_tp gm T P (fun _ => 1) (mp T P).
Proof. intros HP. apply one_tp; auto. Qed.
Lemma mp_h T P : mp T P "h" = R_ENG * (5 / 2 * T).
Proof. unfold mp. rewrite h_val. unfold enth. cbn [np gm]. rewrite sum1. cbn [one_state String.eqb Ascii.eqb Bool.eqb H0 gm]. f_equal. ring. Qed.
Lemma mp_S T P : 0 < P -> mp T P "S" = R_ENG * (5 / 2 * ln T - ln (P / P_REF)).
Proof.
  intros HP. unfold mp. rewrite (S_val gm gm_ok T P (fun _ => 1) (one_state gm T P)) by (apply one_eq; auto). unfold entr, kmix. cbn [np gm]. rewrite !sum1. cbn [one_state String.eqb Ascii.eqb Bool.eqb S0 gm].
  f_equal. change (101325 / 100000) with P_REF. ring.
Qed.
(* the flow station at T (K) and P (Pa) *)
Definition mq (T P : R) (x : string) : R := if String.eqb x "T" then T else if String.eqb x "P" then P else mp T (P / ufac "bar") x * ufac (prop_unit CEA x).
Definition est4 (ov : list (string * R)) (rg : list (string * (string -> R))) : state := fun x _ =>
  match find (fun p => String.eqb (fst p) x) ov with
  | Some p => snd p
  | None => if String.eqb (lastp x "") "composition" then 1 else match find (fun p => prefix (fst p) x) rg with Some p => snd p (lastp x "") | None => 0 end
  end.
Lemma mq_h T P : mq T P "h" = R_ENG * (5 / 2) * ufac "cal/g" * T.
Proof. change (mp T (P / ufac "bar") "h" * ufac "cal/g" = R_ENG * (5 / 2) * ufac "cal/g" * T). rewrite mp_h. ring. Qed.
(* 32 times the pressure at 4 times the temperature: the same entropy *)
Lemma mq_S T P : 0 < T -> 0 < P -> mq (4 * T) P "S" = mq T (P / 32) "S".
Proof.
  intros HT HP. change (mp (4 * T) (P / ufac "bar") "S" * ufac "cal/(g*degK)" = mp T (P / 32 / ufac "bar") "S" * ufac "cal/(g*degK)"). f_equal.
  pose proof (ufac_pos "bar") as B. assert (Q : 0 < P / ufac "bar") by (apply Rdiv_lt_0_compat; lra).
  replace (P / 32 / ufac "bar") with (P / ufac "bar" / 32) by (field; lra). rewrite !mp_S by lra. f_equal. pose proof pref_pos as PP.
  rewrite ln_mult by lra. rewrite !(ln_div _ P_REF) by lra. rewrite (ln_div _ 32) by lra. replace 4 with (2 * 2) by ring. replace 32 with (2 * 2 * (2 * 2) * 2) by ring. rewrite !ln_mult by lra. field.
Qed.
Section S.
Variables T P : R.
Variables (nm fl fl' : string) (pi po : list promo) (w : state).
Hypothesis Hn : ok_name fl.
Hypothesis Hs : shows nm po fl fl'.
Hypothesis HP : 0 < P.
Hypothesis HC : w (at_ fl' "composition") = fun _ => 1.
Hypothesis Hv : forall x, In x ["T"; "P"; "h"; "S"; "gamma"; "Cp"; "Cv"; "rho"; "R"] -> w (at_ fl' x) 0%nat = mq T P x.
Notation rel m := (srel (tsub (cea_tp gm) CEA nm m fl pi po) (lin (tsub (cea_tp gm) CEA nm m fl pi po) w) (lout (tsub (cea_tp gm) CEA nm m fl pi po) w)).
Lemma m_tp : cea_tp gm (w (at_ fl' "T") 0%nat) (w (at_ fl' "P") 0%nat / ufac (p_unit CEA)) (w (at_ fl' "composition")) (mp T (P / ufac "bar")).
Proof. rewrite (Hv "T"), (Hv "P") by inp. rewrite HC. apply gm_tp. apply Rdiv_lt_0_compat; [exact HP|apply ufac_pos]. Qed.
Lemma m_props : forall x, In x prop_names -> w (at_ fl' x) 0%nat = mp T (P / ufac "bar") x * ufac (prop_unit CEA x).
Proof. intros x Hx. rewrite Hv by (cbn in Hx |- *; tauto). cbn in Hx. repeat destruct Hx as [<-|Hx]; try contradiction; reflexivity. Qed.
Lemma m_total : total_ok (cea_tp gm) CEA w fl'.
Proof. exists (mp T (P / ufac "bar")). split; [exact m_tp|exact m_props]. Qed.
Lemma mex_hP : (forall x, In x ["h"; "P"; "composition"] -> same w (at_ fl' x) (gname nm pi x)) ->
  (forall x, In x ["T"; "S"; "gamma"; "Cp"; "Cv"; "rho"; "R"] -> same w (at_ fl' x) (gname nm po x)) -> w (gname nm po "base_thermo.h") 0%nat = w (at_ fl' "h") 0%nat -> rel total_hP.
Proof. intros. eapply (mk_hP (cea_tp gm) CEA (cea_local gm) nm fl fl' pi po w Hn Hs); [apply m_tp|apply m_props|assumption ..]. Qed.
Lemma mex_SP : (forall x, In x ["S"; "P"; "composition"] -> same w (at_ fl' x) (gname nm pi x)) ->
  (forall x, In x ["T"; "h"; "gamma"; "Cp"; "Cv"; "rho"; "R"] -> same w (at_ fl' x) (gname nm po x)) -> w (gname nm po "base_thermo.S") 0%nat = w (at_ fl' "S") 0%nat -> rel total_SP.
Proof. intros. eapply (mk_SP (cea_tp gm) CEA (cea_local gm) nm fl fl' pi po w Hn Hs); [apply m_tp|apply m_props|assumption ..]. Qed.
End S.

(* two states of the gas with one entropy: 300 K at 1 bar and 1200 K at 32 bar *)
Example C76_states_ex : gas_ok gm /\ proper_between gm 100 2000 /\ exists p q, cea_tp gm 300 1 (fun _ => 1) p /\ cea_tp gm 1200 32 (fun _ => 1) q /\ p "S" = q "S" /\ p "h" < q "h".
Proof.
  split; [exact gm_ok|]. split; [apply gm_proper; lra|]. exists (mp 300 1), (mp 1200 32). split; [apply gm_tp; lra|]. split; [apply gm_tp; lra|]. pose proof reng_pos as RE. split.
  - rewrite !mp_S by lra. f_equal. pose proof pref_pos as PP. rewrite !(ln_div _ P_REF) by lra. rewrite ln_1. replace 1200 with (2 * 2 * 300) by ring. replace 32 with (2 * 2 * (2 * 2) * 2) by ring. rewrite !ln_mult by lra. field.
  - rewrite !mp_h. apply Rmult_lt_compat_l; lra.
Qed.
(* a duct that loses half of the pressure and takes no heat *)
Definition m_duct : state := est4 [("dPqP", / 2); ("Q_dot", 0); ("q_calc.ht_out", mq 300 (10 ^ 5) "h"); ("real_flow.h", mq 300 (10 ^ 5) "h"); ("real_flow.base_thermo.h", mq 300 (10 ^ 5) "h"); ("p_loss.Pt_out", 10 ^ 5); ("real_flow.P", 10 ^ 5); ("Fl_I:stat:W", 1); ("Fl_O:stat:W", 1)]
  [("Fl_I:tot:", mq 300 (2 * 10 ^ 5)); ("Fl_O:tot:", mq 300 (10 ^ 5)); ("Fl_O:", mq 300 (10 ^ 5)); ("real_flow.", mq 300 (10 ^ 5))].
Lemma total_gm w fl T P : 0 < P -> w (at_ fl "composition") = (fun _ => 1) -> (forall x, In x ["T"; "P"; "h"; "S"; "gamma"; "Cp"; "Cv"; "rho"; "R"] -> w (at_ fl x) 0%nat = mq T P x) -> 100 <= T <= 2000 -> total_in gm 100 2000 w fl.
Proof. intros HP HC Hv HT. split; [exact (m_total T P fl w HP HC Hv)|]. unfold val. rewrite Hv by inp. exact HT. Qed.
Example C76_duct_ex : solves (duct (cea_tp gm) CEA false true false 2) m_duct /\ total_in gm 100 2000 m_duct "Fl_I:tot" /\ val m_duct "Fl_O:tot:T" = 300 /\ val m_duct "Fl_I:stat:W" = 1 /\ val m_duct "dPqP" = / 2 /\ val m_duct "Q_dot" = 0.
Proof.
  split; [|split; [apply (total_gm m_duct "Fl_I:tot" 300 (2 * 10 ^ 5)); [lra|reflexivity|each|lra]|repeat split; reflexivity]].
  split; [|ex_conns]. intros s Hs. unfold duct in Hs. cbn [subs app map] in Hs. repeat destruct Hs as [<-|Hs]; try contradiction.
  - exact Logic.I.
  - intros o Ho. inlist Ho. change (10 ^ 5 / ufac "lbf/inch**2" = 2 * 10 ^ 5 / ufac "lbf/inch**2" * (1 - / 2 / 1)). field. apply ufac_n0.
  - intros o Ho. inlist Ho. change (mq 300 (10 ^ 5) "h" / ufac "Btu/lbm" = mq 300 (2 * 10 ^ 5) "h" / ufac "Btu/lbm" + 0 / ufac "Btu/s" / (1 / ufac "lbm/s")). rewrite !mq_h. field. repeat split; apply ufac_n0.
  - apply (mex_hP 300 (10 ^ 5) "real_flow" "Fl_O:tot" "Fl_O:tot" [PA "composition" "Fl_I:tot:composition"] [PG "Fl_O:"] m_duct ltac:(okx) ltac:(shx) ltac:(lra) eq_refl); [each|each|each|reflexivity].
  - cbn. intros x Hx. inlist Hx. reflexivity.
Qed.
(* a compressor in design without bleeds: pressure ratio 32 at efficiency 1/2, from 137.5 K *)
Definition k_in := mq (275 / 2) (exPt / 32).
Definition k_id := mq (4 * (275 / 2)) exPt.
Definition k_out := mq (1925 / 2) exPt.
Definition kpow : R := 2 * exW / ufac "lbm/s" * (k_in "h" / ufac "Btu/lbm" - k_out "h" / ufac "Btu/lbm") * BTU_s2HP.
Definition kpoly : R := compute c_eff_poly (fun v => match v with V "PR" => 32 | V "S_in" => k_in "S" / ufac "Btu/(lbm*degR)" | V "S_out" => k_out "S" / ufac "Btu/(lbm*degR)" | V "Rt" => k_in "R" / ufac "Btu/(lbm*degR)" | _ => 0 end) (fun _ => 0) (V "eff_poly").
Definition m_comp : state := fun x k =>
  if prefix "map." x then ex_cmap (strip4 x) k else
  est4
  [("Nmech", 1000 * ufac "rpm"); ("Nc", cNc * ufac "rpm"); ("Wc", cWc * ufac "lbm/s"); ("PR", 32); ("eff", 1 / 2); ("s_Nc", cNc); ("s_PR", 31 / 3); ("s_eff", 2); ("s_Wc", cWc / 3); ("SMN", 25 / 2); ("SMW", 0);
   ("press_rise.Pt_out", exPt); ("enth_rise.ideal_ht", k_id "h"); ("enth_rise.ht_out", k_out "h"); ("blds_pwr.ht_out", k_out "h"); ("real_flow.h", k_out "h"); ("real_flow.base_thermo.h", k_out "h");
   ("ideal_flow.base_thermo.S", k_id "S"); ("Fl_I:tot:S", k_id "S"); ("eff_poly", kpoly);
   ("Fl_I:stat:W", 2 * exW); ("W_out", 2 * exW); ("Fl_O:stat:W", 2 * exW); ("power", kpow * ufac "hp"); ("trq", HP_per_RPM_to_FT_LBF * kpow / 1000 * ufac "ft*lbf")]
  [("Fl_I:tot:", k_in); ("Fl_O:tot:", k_out); ("real_flow.", k_out); ("ideal_flow.", k_id)] x k.
Lemma k_S : k_id "S" = k_in "S". Proof. unfold k_id, k_in. apply mq_S; [lra|exact exPt_pos]. Qed.
Example C76_compressor_ex : (forall b : string, In b [] -> ok_name (b ++ ":tot")) /\ solves (compressor (cea_tp gm) CEA cmap 1 [] false true) m_comp /\ total_in gm 100 2000 m_comp "Fl_I:tot" /\
  val m_comp "ideal_flow.flow:T" = 550 /\ val m_comp "Fl_O:tot:T" = 1925 / 2 /\ val m_comp "eff" = 1 / 2 /\ val m_comp "PR" = 32.
Proof.
  assert (Nl := ufac_n0 "lbm/s"). assert (Nr := ufac_n0 "rpm"). assert (Np := ufac_n0 "psi"). assert (Ni := ufac_n0 "lbf/inch**2"). assert (Nb := ufac_n0 "Btu/lbm"). assert (PW := exW_pos2). assert (PP := exPt_pos).
  split; [intros b []|]. split; [|split; [apply (total_gm m_comp "Fl_I:tot" (275 / 2) (exPt / 32)); [lra|reflexivity| |lra]|split; [change (4 * (275 / 2) = 550); field|repeat split; reflexivity]]].
  2:{ intros x Hx. cbn in Hx. repeat destruct Hx as [<-|Hx]; try contradiction; first [reflexivity | exact k_S]. }
  split; [|ex_conns]. intros s Hs. unfold compressor in Hs. cbn [subs app map] in Hs. repeat destruct Hs as [<-|Hs]; try contradiction; cbv beta iota delta [stat_mode].
  - exact Logic.I.
  - intros o Ho. inlist Ho.
    + change (cWc * ufac "lbm/s" / ufac "lbm/s" = cWc). field. exact Nl.
    + change (cNc * ufac "rpm" / ufac "rpm" = 1000 * ufac "rpm" / ufac "rpm" * rpow (275 / 2 / ufac "degR" / T_STDeng) (- (1 / 2))). replace (1000 * ufac "rpm" / ufac "rpm") with 1000 by (field; exact Nr). unfold cNc. field. exact Nr.
  - apply (group_make _ _ _ _ _ ex_cmap C48_compressor_map_ex); allx.
  - intros o Ho. inlist Ho. change (exPt / ufac "lbf/inch**2" = 32 / 1 * (exPt / 32 / ufac "lbf/inch**2")). field. exact Ni.
  - apply (mex_SP (4 * (275 / 2)) exPt "ideal_flow" "flow" "ideal_flow.flow" [PA "S" "Fl_I:tot:S"; PA "composition" "Fl_I:tot:composition"] [] m_comp ltac:(okx) ltac:(shx) PP eq_refl); [each|each|each|reflexivity].
  - intros o Ho. inlist Ho. change (k_out "h" / ufac "Btu/lbm" = (k_id "h" / ufac "Btu/lbm" - k_in "h" / ufac "Btu/lbm") / (1 / 2 / 1) + k_in "h" / ufac "Btu/lbm"). unfold k_out, k_id, k_in. rewrite !mq_h. field. exact Nb.
  - apply (mex_hP (1925 / 2) exPt "real_flow" "Fl_O:tot" "Fl_O:tot" [PA "composition" "Fl_I:tot:composition"] [PG "Fl_O:tot:"] m_comp ltac:(okx) ltac:(shx) PP eq_refl); [each|each|each|reflexivity].
  - intros o Ho. inlist Ho. change (kpoly / 1 = compute c_eff_poly (vget (lin c_eff_poly_sub m_comp)) (fun _ => 0) (V "eff_poly")). unfold kpoly, Rdiv at 1. rewrite Rinv_1, Rmult_1_r. rewrite <- k_S. cbn [c_eff_poly compute].
    replace 32 with (vget (lin c_eff_poly_sub m_comp) (V "PR")) by (change (32 / 1 = 32); field). reflexivity.
  - intros o Ho. inlist Ho.
    + change (2 * exW / ufac "lbm/s" = 2 * exW / ufac "lbm/s"). reflexivity.
    + change (kpow * ufac "hp" / ufac "hp" = 2 * exW / ufac "lbm/s" * (k_in "h" / ufac "Btu/lbm" - k_out "h" / ufac "Btu/lbm") * BTU_s2HP). assert (Nh := ufac_n0 "hp"). unfold kpow. field. auto.
    + change (HP_per_RPM_to_FT_LBF * kpow / 1000 * ufac "ft*lbf" / ufac "ft*lbf" = HP_per_RPM_to_FT_LBF * (2 * exW / ufac "lbm/s" * (k_in "h" / ufac "Btu/lbm" - k_out "h" / ufac "Btu/lbm") * BTU_s2HP) / (1000 * ufac "rpm" / ufac "rpm")).
      assert (Nf := ufac_n0 "ft*lbf"). unfold kpow. field. auto.
  - cbn. intros x Hx. inlist Hx. reflexivity.
Qed.
