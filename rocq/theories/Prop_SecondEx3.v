(* C76: a choked nozzle that meets its hypotheses, for the monatomic gas. *)
From Coq Require Import Lia FunctionalExtensionality.
From Verif Require Import Lib_R Lib_Loop Spec_Wire Model_Thermo Proofs_Wire Prop_Static Prop_Thermo Model_Equil Proofs_Equil Proofs_Props Proofs_Thermo Prop_Equil Model_Cea Proofs_Cea Proofs_Stable Prop_Cea Prop_Second Prop_Second2 Prop_ShippedEx Prop_SecondEx.
From Verif Require Import Model_Nozzle Prop_Elem2 Model_Turbo Model_Elem1 Model_Elem2 Proofs_Elem Proofs_Elem2 Proofs_ElemEx Proofs_ElemEx2 Prop_Station Prop_Station2 Prop_Station7 Prop_Station8 Prop_StationEx Prop_Cycle2 Prop_Cea2 Prop_StationEx2.
Open Scope string_scope. Open Scope list_scope. Open Scope R_scope.

(* pressure along an isentrope of the gas, over that at T0, at r T0 *)
Definition pw (r : R) : R := exp (5 / 2 * ln r).
Lemma pw_pos r : 0 < pw r. Proof. apply exp_pos. Qed.
Lemma mq_iso T T0 p : 0 < T -> 0 < T0 -> 0 < p -> mq T (p * pw (T / T0)) "S" = mq T0 p "S".
Proof.
  intros HT H0' Hp. change (mp T (p * pw (T / T0) / ufac "bar") "S" * ufac "cal/(g*degK)" = mp T0 (p / ufac "bar") "S" * ufac "cal/(g*degK)"). f_equal.
  pose proof (ufac_pos "bar") as B. pose proof pref_pos as PP. pose proof (pw_pos (T / T0)) as W. assert (Q : 0 < p / ufac "bar") by (apply Rdiv_lt_0_compat; lra).
  replace (p * pw (T / T0) / ufac "bar") with (p / ufac "bar" * pw (T / T0)) by (field; lra). assert (Q2 : 0 < p / ufac "bar" * pw (T / T0)) by (apply Rmult_lt_0_compat; lra).
  rewrite !mp_S by lra. f_equal. rewrite !(ln_div _ P_REF) by lra. rewrite ln_mult by lra. unfold pw. rewrite ln_exp, (ln_div T T0) by lra. ring.
Qed.
Lemma mq_pos T P : 0 < T -> 0 < P -> 0 < mq T P "gamma" /\ 0 < mq T P "R" /\ 0 < mq T P "rho".
Proof.
  intros HT HP. set (w := est4 [] [("s:", mq T P)]).
  assert (ST : station (cea_tp gm) CEA (fun _ => 1) w "s") by (exists (mp T (P / ufac "bar")); split; [apply (m_tp T P "s" w HP); [reflexivity|each]|apply (m_props T P "s" w); each]).
  destruct (C63_station gm (fun _ => 1) w "s" gm_ok ST HT ltac:(intros; cbn; lra)) as [A _]. destruct (C61_ideal_gas gm (fun _ => 1) w "s" gm_ok ST HT) as (_ & B & C).
  change (0 < mq T P "gamma" * mq T P "R" * T) in A. change (0 < mq T P "R") in B. change (0 < mq T P "rho") in C.
  split; [|split; assumption]. apply (Rmult_lt_reg_r (mq T P "R")); [exact B|]. apply (Rmult_lt_reg_r T); [exact HT|]. lra.
Qed.
Definition mstat (T P V a A W : R) (x : string) : R := lookup (mq T P x) [("V", V); ("Vsonic", a); ("MN", V / a); ("area", A); ("W", W); ("Ps", P)] x.
Section St.
Variables T P Ve a A W ht : R.
Variables (nm fl fl' : string) (pi po : list promo) (w : state).
Hypothesis Hn : ok_name fl.
Hypothesis Hs : shows nm po fl fl'.
Notation rel m := (srel (tsub (cea_tp gm) CEA nm m fl pi po) (lin (tsub (cea_tp gm) CEA nm m fl pi po) w) (lout (tsub (cea_tp gm) CEA nm m fl pi po) w)).
Hypothesis (pT : 0 < T) (pP : 0 < P) (pV : 0 < Ve) (pa : 0 < a).
Hypothesis Ea : a * a = mq T P "gamma" * mq T P "R" * T.
Hypothesis Ew : W = mq T P "rho" * Ve * A.
Hypothesis Eh : ht = mq T P "h" + Ve * Ve / 2.
Hypothesis Hv : forall x, In x ["T"; "P"; "h"; "S"; "gamma"; "Cp"; "Cv"; "rho"; "R"; "V"; "Vsonic"; "MN"; "area"; "W"] -> w (at_ fl' x) 0%nat = mstat T P Ve a A W x.
Hypothesis Hc : same w (at_ fl' "composition") (gname nm pi "flow.composition").
Hypothesis Hcc : w (gname nm pi "composition") = fun _ => 1.
Hypothesis Hht : w (gname nm pi "ht") 0%nat = ht.
Lemma ms_v : cea_tp gm (w (at_ fl' "T") 0%nat) (w (at_ fl' "P") 0%nat / ufac (p_unit CEA)) (w (gname nm pi "composition")) (mp T (P / ufac "bar")).
Proof. rewrite Hcc, !Hv by inp. apply gm_tp. apply Rdiv_lt_0_compat; [exact pP|apply ufac_pos]. Qed.
Lemma ms_p : forall x, In x prop_names -> w (at_ fl' x) 0%nat = mp T (P / ufac "bar") x * ufac (prop_unit CEA x).
Proof. intros x Hx. rewrite Hv by (cbn in Hx |- *; tauto). cbn in Hx. repeat destruct Hx as [<-|Hx]; try contradiction; reflexivity. Qed.
Lemma ms_f : static_ok w fl' (w (gname nm pi "ht") 0%nat).
Proof.
  rewrite Hht. unfold static_ok. rewrite !Hv by inp.
  change (mq T P "h" + Ve ^ 2 / 2 = ht /\ a ^ 2 = mq T P "gamma" * mq T P "R" * T /\ 0 <= a /\ Ve = Ve / a * a /\ mq T P "rho" * Ve * A = W).
  split; [rewrite Eh; field|]. split; [rewrite <- Ea; ring|]. split; [lra|]. split; [field; lra|]. symmetry. exact Ew.
Qed.
Lemma ms_nz : 0 < w (at_ fl' "gamma") 0%nat * w (at_ fl' "R") 0%nat * w (at_ fl' "T") 0%nat /\ w (at_ fl' "rho") 0%nat <> 0 /\ 0 < w (at_ fl' "V") 0%nat /\ 0 < w (at_ fl' "gamma") 0%nat /\ 0 < w (at_ fl' "R") 0%nat /\ 0 < w (at_ fl' "T") 0%nat /\ w (at_ fl' "MN") 0%nat = Ve / a.
Proof.
  rewrite !Hv by inp. destruct (mq_pos T P pT pP) as (G & B & C).
  change (0 < mq T P "gamma" * mq T P "R" * T /\ mq T P "rho" <> 0 /\ 0 < Ve /\ 0 < mq T P "gamma" /\ 0 < mq T P "R" /\ 0 < T /\ Ve / a = Ve / a).
  split; [apply Rmult_lt_0_compat; [apply Rmult_lt_0_compat; assumption|assumption]|]. repeat match goal with |- _ /\ _ => split end; try assumption; try lra. 
Qed.
Lemma mex_MN : ht <> 0 -> / 10 ^ 16 <= Ve / a -> (forall x, In x ["S"; "W"; "MN"] -> same w (at_ fl' x) (gname nm pi x)) ->
  (forall x, In x ["T"; "h"; "gamma"; "Cp"; "Cv"; "rho"; "R"; "V"; "Vsonic"; "area"] -> same w (at_ fl' x) (gname nm po x)) -> same w (at_ fl' "P") (gname nm po "Ps") ->
  w (gname nm po "base_thermo.S") 0%nat = w (at_ fl' "S") 0%nat -> rel static_MN.
Proof.
  intros Nh NM. intros. destruct ms_nz as (N1 & N2 & N3 & N4 & N5 & N6 & N7). rewrite <- Hht in Nh. rewrite <- N7 in NM.
  eapply (mk_MN (cea_tp gm) CEA (cea_local gm) nm fl fl' pi po w Hn Hs); [apply ms_v|apply ms_p|assumption ..|apply ms_f].
Qed.
Lemma mex_Ps : (forall x, In x ["S"; "W"] -> same w (at_ fl' x) (gname nm pi x)) ->
  (forall x, In x ["T"; "h"; "gamma"; "Cp"; "Cv"; "rho"; "R"; "V"; "Vsonic"; "MN"; "area"] -> same w (at_ fl' x) (gname nm po x)) -> same w (at_ fl' "P") (gname nm pi "Ps") ->
  w (gname nm po "base_thermo.S") 0%nat = w (at_ fl' "S") 0%nat -> rel static_Ps.
Proof. intros. destruct ms_nz as (N1 & N2 & N3 & N4 & N5 & N6 & N7). eapply (mk_Ps (cea_tp gm) CEA (cea_local gm) nm fl fl' pi po w Hn Hs); [apply ms_v|apply ms_p|assumption ..|apply ms_f]. Qed.
End St.

(* sonic at 400 K and 1 bar; full expansion to 200 K; a pressure loss after which the same expansion without it would reach 150 K *)
Definition zPs : R := 10 ^ 5.
Definition cH : R := R_ENG * (5 / 2) * ufac "cal/g".
Definition z_a (T P : R) : R := sqrt (mq T P "gamma" * mq T P "R" * T).
Definition zas : R := z_a 400 zPs.
Definition zTt : R := 400 + zas * zas / 2 / cH.
Definition zPth : R := zPs * pw (zTt / 400).
Definition zP0 : R := zPs * pw (zTt / 300).
Definition zPf : R := zPs * pw (200 / 400).
Definition zV (T : R) : R := sqrt (2 * (cH * (zTt - T))).
Definition zA (T P V : R) : R := 1 / (mq T P "rho" * V).
Definition zht : R := mq zTt zPth "h".
Definition zS : R := mq zTt zPth "S".
Definition zSi : R := mq zTt zP0 "S".
Definition z_sonic := mstat 400 zPs zas zas (zA 400 zPs zas) 1.
Definition z_full := mstat 200 zPf (zV 200) (z_a 200 zPf) (zA 200 zPf (zV 200)) 1.
Definition z_ideal := mstat 150 zPf (zV 150) (z_a 150 zPf) (zA 150 zPf (zV 150)) 1.
Definition z_Fg : R := 1 / ufac "lbm/s" / g_c * (zV 150 / ufac "ft/s") * ufac "lbf".
Definition m_noz : state := est4
  [("mach_choked.MN", zas / zas); ("Fl_I:stat:W", 1); ("PR", zPth / zPf); ("dPqP", 1 - zPth / zP0); ("Ps_exhaust", zPf); ("Ps_calc", zPf); ("press_calcs.Pt_th", zPth); ("Fl_I:tot:h", zht); ("throat_total.base_thermo.h", zht);
   ("staticMN.S", zS); ("staticMN.guess:Pt", zPth); ("staticMN.guess:gamt", mq zTt zPth "gamma"); ("staticPs.S", zS); ("mux.S", zS); ("Throat:stat:S", zS); ("Fl_O:stat:S", zS); ("Cfg", 99 / 100);
   ("perf_calcs.V_ideal", zV 150); ("perf_calcs.Fg_ideal", z_Fg); ("Fg", 99 / 100 * z_Fg)]
  [("Fl_I:tot:", mq zTt zP0); ("Fl_O:tot:", mq zTt zPth); ("throat_total.", mq zTt zPth); ("staticMN.", z_sonic); ("staticPs.", z_full); ("ideal_flow.", z_ideal);
   ("mux.MN:", z_sonic); ("mux.Ps:", z_full); ("Throat:stat:", z_sonic); ("Fl_O:stat:", z_sonic)].
Lemma cH_pos : 0 < cH. Proof. unfold cH. pose proof (ufac_pos "cal/g"). pose proof reng_pos. apply Rmult_lt_0_compat; lra. Qed.
Lemma zPs_pos : 0 < zPs. Proof. unfold zPs. lra. Qed.
Lemma z_a_sq T P : 0 < T -> 0 < P -> 0 < z_a T P /\ z_a T P * z_a T P = mq T P "gamma" * mq T P "R" * T.
Proof.
  intros HT HP. destruct (mq_pos T P HT HP) as (G & B & _). assert (Q : 0 < mq T P "gamma" * mq T P "R" * T) by (apply Rmult_lt_0_compat; [apply Rmult_lt_0_compat; assumption|assumption]).
  split; [apply sqrt_lt_R0, Q|apply sqrt_sqrt; lra].
Qed.
Lemma zas_pos : 0 < zas. Proof. apply z_a_sq; [lra|exact zPs_pos]. Qed.
Lemma zTt_gt : 400 < zTt. Proof. unfold zTt. pose proof cH_pos. pose proof zas_pos. assert (0 < zas * zas / 2 / cH) by (apply Rdiv_lt_0_compat; [|lra]; assert (0 < zas * zas) by (apply Rmult_lt_0_compat; lra); lra). lra. Qed.
Lemma zPth_pos : 0 < zPth. Proof. unfold zPth. apply Rmult_lt_0_compat; [exact zPs_pos|apply pw_pos]. Qed.
Lemma zP0_pos : 0 < zP0. Proof. unfold zP0. apply Rmult_lt_0_compat; [exact zPs_pos|apply pw_pos]. Qed.
Lemma zPf_pos : 0 < zPf. Proof. unfold zPf. apply Rmult_lt_0_compat; [exact zPs_pos|apply pw_pos]. Qed.
Lemma pw_lt r s : 0 < r -> r < s -> pw r < pw s. Proof. intros. unfold pw. apply exp_increasing. apply Rmult_lt_compat_l; [lra|]. apply ln_increasing; lra. Qed.
Lemma z_choked : zPf < zPs.
Proof. unfold zPf. pose proof zPs_pos. pose proof (pw_lt (200 / 400) 1 ltac:(lra) ltac:(lra)) as K. unfold pw in K at 2. rewrite ln_1, Rmult_0_r, exp_0 in K. rewrite <- (Rmult_1_r zPs) at 2. apply Rmult_lt_compat_l; lra. Qed.
Lemma z_loss : zPth < zP0.
Proof. unfold zPth, zP0. pose proof zTt_gt. apply Rmult_lt_compat_l; [exact zPs_pos|]. apply pw_lt; [lra|]. lra. Qed.
Lemma z_pr : zPf < zPth.
Proof. unfold zPth, zPf. pose proof zTt_gt. apply Rmult_lt_compat_l; [exact zPs_pos|]. apply pw_lt; [lra|]. lra. Qed.
Lemma zS_son : mq 400 zPs "S" = zS. Proof. unfold zS, zPth. pose proof zTt_gt. symmetry. apply mq_iso; [lra|lra|exact zPs_pos]. Qed.
Lemma zS_full : mq 200 zPf "S" = zS. Proof. rewrite <- zS_son. unfold zPf. apply mq_iso; [lra|lra|exact zPs_pos]. Qed.
Lemma zS_ideal : mq 150 zPf "S" = zSi.
Proof.
  unfold zSi, zP0, zPf. pose proof zTt_gt. replace (200 / 400) with (150 / 300) by field. rewrite (mq_iso zTt 300) by (try exact zPs_pos; lra). apply mq_iso; [lra|lra|exact zPs_pos].
Qed.
Lemma zh T P : mq T P "h" = cH * T. Proof. rewrite mq_h. reflexivity. Qed.
Lemma zV_pos T : T <= 400 -> 0 < zV T. Proof. intros. unfold zV. apply sqrt_lt_R0. pose proof zTt_gt. pose proof cH_pos. assert (0 < cH * (zTt - T)) by (apply Rmult_lt_0_compat; lra). lra. Qed.
Lemma zV_sq T : T <= 400 -> zV T * zV T = 2 * (cH * (zTt - T)). Proof. intros. unfold zV. apply sqrt_sqrt. pose proof zTt_gt. pose proof cH_pos. assert (0 < cH * (zTt - T)) by (apply Rmult_lt_0_compat; lra). lra. Qed.
Lemma zht_full T P : T <= 400 -> zht = mq T P "h" + zV T * zV T / 2. Proof. intros. unfold zht. rewrite zV_sq by lra. rewrite !zh. field. Qed.
Lemma zht_son : zht = mq 400 zPs "h" + zas * zas / 2. Proof. unfold zht. rewrite !zh. unfold zTt. pose proof cH_pos. field. lra. Qed.
Lemma zht_n0 : zht <> 0. Proof. unfold zht. rewrite zh. pose proof cH_pos. pose proof zTt_gt. assert (0 < cH * zTt) by (apply Rmult_lt_0_compat; lra). lra. Qed.
Lemma zA_ok T P V : 0 < T -> 0 < P -> 0 < V -> 1 = mq T P "rho" * V * zA T P V.
Proof. intros. unfold zA. destruct (mq_pos T P ltac:(lra) ltac:(lra)) as (_ & _ & Q). field. lra. Qed.
Ltac zeach := let x := fresh in let H := fresh in let k := fresh in intros x H; cbn in H; repeat destruct H as [<-|H]; try contradiction;
  first [reflexivity | intros k; reflexivity | exact zS_son | exact zS_full | exact zS_ideal | intros k; first [exact zS_son | exact zS_full | exact zS_ideal | symmetry; exact zS_son | symmetry; exact zS_full]].
Example C76_nozzle_ex : solves (nozzle (cea_tp gm) CEA CV Cfg) m_noz /\ (forall T j, 100 <= T <= zTt + 1 -> (j < np gm)%nat -> 1 < Cp0 gm j T) /\ proper_between gm 100 (zTt + 1) /\ total_in gm 100 (zTt + 1) m_noz "Fl_I:tot" /\
  100 <= val m_noz "Fl_O:tot:T" <= zTt + 1 /\ val m_noz "staticMN.flow:T" = 400 /\ val m_noz "staticPs.flow:T" = 200 /\ val m_noz "ideal_flow.flow:T" = 150 /\ 400 < zTt /\
  0 < val m_noz "dPqP" /\ 0 < val m_noz "Ps_exhaust" /\ 1 < val m_noz "PR" /\ val m_noz "Fl_I:tot:h" <> 0.
Proof.
  pose proof zTt_gt as HT. pose proof zPf_pos as Pf. pose proof zPth_pos as Pt. pose proof zP0_pos as P0. pose proof zPs_pos as Ps. pose proof z_loss as PL. pose proof z_pr as PR. pose proof zas_pos as HA.
  split; [|split; [intros; cbn; lra|split; [apply gm_proper; lra|split; [split; [apply (m_total zTt zP0 "Fl_I:tot" m_noz P0 eq_refl); zeach|change (100 <= zTt <= zTt + 1); lra]|]]]].
  2:{ split; [change (100 <= zTt <= zTt + 1); lra|]. split; [reflexivity|]. split; [reflexivity|]. split; [reflexivity|]. split; [exact HT|].
      split; [change (0 < 1 - zPth / zP0); assert (zPth / zP0 < 1) by (apply (Rmult_lt_reg_r zP0); [lra|]; unfold Rdiv; rewrite Rmult_assoc, Rinv_l by lra; lra); lra|].
      split; [exact Pf|]. split; [change (1 < zPth / zPf); apply (Rmult_lt_reg_r zPf); [lra|]; unfold Rdiv; rewrite Rmult_assoc, Rinv_l by lra; lra|]. exact zht_n0. }
  split; [|ex_conns]. intros s Hs. unfold nozzle in Hs. cbn [subs app map] in Hs. repeat destruct Hs as [<-|Hs]; try contradiction.
  - change (zas / zas / 1 = 1). field. lra.
  - exact Logic.I.
  - intros o Ho. inlist Ho. change (zPf / ufac "lbf/inch**2" - zPf / ufac "lbf/inch**2" = 0). ring.
  - intros o Ho. assert (N := ufac_n0 "lbf/inch**2"). inlist Ho.
    + change (zPth / ufac "lbf/inch**2" = zP0 / ufac "lbf/inch**2" * (1 - (1 - zPth / zP0) / 1)). field. split; lra.
    + change (zPf / ufac "lbf/inch**2" = zP0 / ufac "lbf/inch**2" * (1 - (1 - zPth / zP0) / 1) / (zPth / zPf / 1)). field. repeat split; try exact N; lra.
  - apply (mex_hP zTt zPth "throat_total" "Fl_O:tot" "Fl_O:tot" [PA "h" "Fl_I:tot:h"; PA "composition" "Fl_I:tot:composition"] [PG "Fl_O:"] m_noz ltac:(okx) ltac:(shx) Pt eq_refl); [zeach|zeach|zeach|reflexivity].
  - apply (mex_MN 400 zPs zas zas (zA 400 zPs zas) 1 zht "staticMN" "flow" "staticMN.flow" [PA "ht" "Fl_I:tot:h"; PA "W" "Fl_I:stat:W"; PA "composition" "Fl_I:tot:composition"] [] m_noz ltac:(okx) ltac:(shx)); [lra|exact Ps|exact HA|exact HA|apply z_a_sq; [lra|exact Ps]|apply zA_ok; lra|exact zht_son|zeach|samex|reflexivity|reflexivity|exact zht_n0| |zeach|zeach|samex|first [reflexivity|exact zS_son]].
    apply Rle_trans with 1; [apply Rle_trans with (/ 1); [apply Rinv_le_contravar; lra|lra]|]. unfold Rdiv. rewrite Rinv_r by lra. lra.
  - apply (mex_Ps 200 zPf (zV 200) (z_a 200 zPf) (zA 200 zPf (zV 200)) 1 zht "staticPs" "flow" "staticPs.flow" [PA "ht" "Fl_I:tot:h"; PA "W" "Fl_I:stat:W"; PA "Ps" "Ps_calc"; PA "composition" "Fl_I:tot:composition"] [] m_noz ltac:(okx) ltac:(shx)); [lra|exact Pf|apply zV_pos; lra|apply z_a_sq; lra|apply z_a_sq; lra|apply zA_ok; [lra|lra|apply zV_pos; lra]|apply zht_full; lra|zeach|samex|reflexivity|reflexivity|zeach|zeach|samex|first [reflexivity|exact zS_full]].
  - apply (mex_Ps 150 zPf (zV 150) (z_a 150 zPf) (zA 150 zPf (zV 150)) 1 zht "ideal_flow" "flow" "ideal_flow.flow" [PA "ht" "Fl_I:tot:h"; PA "S" "Fl_I:tot:S"; PA "W" "Fl_I:stat:W"; PA "Ps" "Ps_calc"; PA "composition" "Fl_I:tot:composition"] [] m_noz ltac:(okx) ltac:(shx)); [lra|exact Pf|apply zV_pos; lra|apply z_a_sq; lra|apply z_a_sq; lra|apply zA_ok; [lra|lra|apply zV_pos; lra]|apply zht_full; lra|zeach|samex|reflexivity|reflexivity|zeach|zeach|samex|first [reflexivity|exact zS_ideal]].
  - cbn [mux_sub srel]. intros o Ho Hc. match goal with |- vget ?lo o = compute (mux CV "Fl_O") ?ee _ o => set (e := ee); set (l := lo) end.
    assert (Ch : e (V "Ps_calc") < e (B "MN" "P")).
    { change (zPf / ufac "lbf/inch**2" < zPs / ufac "lbf/inch**2"). unfold Rdiv. apply Rmult_lt_compat_r; [apply Rinv_0_lt_compat, ufac_pos|exact z_choked]. }
    assert (M : forall p, In p nozzle_props -> compute (mux CV "Fl_O") e (fun _ => 0) (stat "Throat" p) = e (B "MN" p) /\ compute (mux CV "Fl_O") e (fun _ => 0) (stat "Fl_O" p) = e (B "MN" p))
      by (intros p Hp; destruct (C37_mux_selects CV "Fl_O" p e (fun _ => 0) ltac:(discriminate) Hp) as (M1 & _); destruct (M1 eq_refl) as [M2 _]; exact (M2 Ch)).
    destruct (C37_mux_selects CV "Fl_O" "h" e (fun _ => 0) ltac:(discriminate) ltac:(inp)) as (_ & _ & _ & S1 & S2).
    assert (L : forall p, In p nozzle_props -> vget l (stat "Throat" p) = e (B "MN" p) /\ vget l (stat "Fl_O" p) = e (B "MN" p)).
    { intros p Hp. cbn in Hp. repeat destruct Hp as [<-|Hp]; try contradiction; split; reflexivity. }
    cbn [mux outs] in Ho. inflat Ho; [congruence| | | |].
    + etransitivity; [|symmetry; exact S1]. reflexivity.
    + etransitivity; [|symmetry; exact S2]. reflexivity.
    + rewrite (proj1 (M _ ltac:(eassumption))). apply L. assumption.
    + rewrite (proj2 (M _ ltac:(eassumption))). apply L. assumption.
  - intros o Ho. assert (N1 := ufac_n0 "lbm/s"). assert (N2 := ufac_n0 "ft/s"). assert (N3 := ufac_n0 "lbf"). assert (N4 : g_c <> 0) by (unfold g_c; lra). inlist Ho.
    + change (z_Fg / ufac "lbf" = 1 / ufac "lbm/s" / g_c * (zV 150 / ufac "ft/s")). unfold z_Fg. field. auto.
    + change (99 / 100 * z_Fg / ufac "lbf" = 1 / ufac "lbm/s" / g_c * (zV 150 / ufac "ft/s") * (99 / 100 / 1)). unfold z_Fg. field. auto.
Qed.
Print Assumptions C76_nozzle_ex.
