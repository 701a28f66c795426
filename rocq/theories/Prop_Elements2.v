(* Claim C66 for the tabular method: air and every constituent are conserved through the elements that mix, and through a whole cycle. *)
From Coq Require Import FunctionalExtensionality Permutation Lia.
From Verif Require Import Lib_R Lib_Py Lib_Loop Spec_Mix Spec_Wire Model_Thermo Proofs_Wire Prop_Static Prop_Thermo Prop_Elem1 Model_Species Proofs_Species Model_ThermoAdd Proofs_ThermoAdd Prop_Mix Model_Elem1 Model_Elem2 Proofs_Elem Prop_Station Prop_Station2 Prop_Station3 Prop_Station4 Prop_Station5 Prop_Station6 Prop_Station7 Prop_Station8 Model_Cycle Prop_Cycle Prop_Elements.
Open Scope string_scope. Open Scope list_scope. Open Scope R_scope.

(* air in a flow W with constituent-to-air ratios c (n of them), and the flow of constituent k *)
Lemma air_ext n W c d : (forall j, (j < n)%nat -> c j = d j) -> air n W c = air n W d.
Proof. intros H. unfold air. rewrite (lsum_ext c d); [reflexivity|]. intros j Hj. apply in_seq in Hj. apply H. lia. Qed.
Lemma air_scale n W c u : air n (W / u) c = air n W c / u.
Proof. unfold air, Rdiv. ring. Qed.

Theorem C48_combustor_constituents tp me t statics design w o fuel : tab_setup o = Ok t -> dwf (tab_inflow o) -> t_mode o = TReactant fuel -> t_names o = ["mix"] ->
  solves (combustor tp me (ATab t) statics design) w ->
  let keys := sorted (dkeys (tab_inflow o)) in let n := List.length keys in
  val w "Fl_I:stat:W" <> 0 -> 1 + lsum (w "Fl_I:tot:composition") (seq 0 n) <> 0 -> val w "Fl_O:stat:W" <> 0 ->
  air n (val w "Fl_O:stat:W") (w "Fl_O:tot:composition") = air n (val w "Fl_I:stat:W") (w "Fl_I:tot:composition") /\
  forall k, (k < n)%nat -> air n (val w "Fl_O:stat:W") (w "Fl_O:tot:composition") * w "Fl_O:tot:composition" k =
    air n (val w "Fl_I:stat:W") (w "Fl_I:tot:composition") * w "Fl_I:tot:composition" k + (if string_dec (nth k keys "") fuel then val w "Wfuel" else 0).
Proof.
  intros SU DW MX NM Hsol keys n HI HS HW.
  assert (Ln : List.length (tab_inflow o) = n) by (unfold n, keys; rewrite <- (Permutation_length (sorted_perm _)); unfold dkeys; rewrite map_length; reflexivity).
  assert (Ha : fuel_adder (ATab t)) by (exists o, fuel; auto).
  destruct (fuel_adder_facts (ATab t) Ha) as (R1 & R2 & _).
  destruct Hsol as [Hs Hc]. unfold combustor in Hs, Hc. cbn [subs conns app] in Hs, Hc.
  set (ms := add_sub "mix_fuel" (ATab t) [PN "Fl_I:stat:W"; PA "mix:ratio" "Fl_I:FAR"; PN "Fl_I:tot:composition"; PN "Fl_I:tot:h"] [PA "mix:W" "Wfuel"; PN "Wout"]) in *.
  pose proof (Hs ms ltac:(insub)) as HM.
  destruct (sub_hP tp me "vitiated_flow" "Fl_O:tot" "Fl_O:tot" [] [PG "Fl_O:"] w) as ((_ & T2 & _) & _); [okn|shw|apply Hs; insub|].
  pose proof (Hc "mix_fuel.composition_out" "vitiated_flow.composition" ltac:(insub)) as Cc.
  assert (Co : w "Fl_O:tot:composition" = w "mix_fuel.composition_out").
  { apply functional_extensionality. intros k. specialize (T2 k). change (at_ "Fl_O:tot" "composition") with "Fl_O:tot:composition" in T2. rewrite T2. rewrite <- (Cc k). reflexivity. }
  rewrite Co. set (uw := ufac "lbm/s"). assert (N2 : uw <> 0) by apply ufac_n0. set (e := vget (lin ms w)).
  assert (EWi : e (V "Fl_I:stat:W") = val w "Fl_I:stat:W" / uw) by reflexivity.
  assert (Ec : compo_in e = w "Fl_I:tot:composition").
  { apply functional_extensionality. intros i. change (w "Fl_I:tot:composition" i / 1 = w "Fl_I:tot:composition" i). field. }
  assert (OW : tab_compute t e (fun _ => 0) (V "Wout") = val w "Wout" / uw).
  { unfold e. change (tab_compute t) with (add_compute (ATab t)). rewrite <- (HM (V "Wout")) by (cbn; tauto). reflexivity. }
  destruct (tab_setup_inv o t SU) as [LN [NM' _]]. rewrite Ln in LN.
  assert (OF : tab_compute t e (fun _ => 0) (B "mix" "W") = val w "Wfuel" / uw).
  { unfold e. change (tab_compute t) with (add_compute (ATab t)). rewrite <- (HM (B "mix" "W")).
    - unfold vget, lout, ms, add_sub; cbn [souts sname pout]. change ("mix" ++ ":" ++ "W")%string with "mix:W".
      assert (U : unit_of (add_outs (ATab t)) "mix:W" = "lbm/s") by (unfold add_outs; rewrite R1, R2; reflexivity). rewrite U. reflexivity.
    - unfold add_vars. apply in_or_app. right. apply in_or_app. right. rewrite R1, R2. left. reflexivity. }
  assert (OC : forall j, (j < n)%nat -> compo_out (tab_compute t e (fun _ => 0)) j = w "mix_fuel.composition_out" j).
  { intros j Hj. unfold compo_out, e. change (tab_compute t) with (add_compute (ATab t)). rewrite <- (HM (I "composition_out" j)).
    - change (w "mix_fuel.composition_out" j / 1 = w "mix_fuel.composition_out" j). field.
    - unfold add_vars. apply in_or_app. right. apply in_or_app. left. cbn [add_size]. rewrite LN. apply in_map. apply in_seq. lia. }
  assert (EO : val w "Fl_O:stat:W" = val w "Wout").
  { destruct statics; cbn [app] in Hs, Hc.
    - assert (Q : val w "out_stat.W" = val w "Wout") by (apply (Hc "Wout" "out_stat.W"); insub). rewrite <- Q. destruct design; cbn [stat_mode] in Hs.
      + destruct (sub_MN tp me "out_stat" "Fl_O:stat" "Fl_O:stat" [PN "MN"] [PG "Fl_O:stat:"] w ltac:(okn) ltac:(shw) ltac:(apply Hs; insub)) as ((_ & _ & K) & _). apply (K 0%nat).
      + destruct (sub_A tp me "out_stat" "Fl_O:stat" "Fl_O:stat" [PN "area"] [PG "Fl_O:stat:"] w ltac:(okn) ltac:(shw) ltac:(apply Hs; insub)) as ((_ & _ & K) & _). apply (K 0%nat).
    - apply (pass_fact w "W_passthru"). apply Hs. insub. }
  rewrite EO in HW |- *.
  assert (NZ : forall x, x <> 0 -> x / uw <> 0) by (intros x Hx K; apply Hx; apply (Rmult_eq_reg_r (/ uw)); [|apply Rinv_neq_0_compat; exact N2]; unfold Rdiv in K; rewrite K; ring).
  pose proof (C49_reactant o t fuel SU DW MX e (fun _ => 0)) as H. cbv zeta in H. rewrite Ln, EWi, OW, Ec, NM in H.
  destruct H as [H1 H2]; [apply NZ; exact HI|exact HS|apply NZ; exact HW|].
  rewrite !air_scale, (air_ext n _ _ _ OC) in H1.
  assert (K1 : air n (val w "Wout") (w "mix_fuel.composition_out") = air n (val w "Fl_I:stat:W") (w "Fl_I:tot:composition")).
  { apply (Rmult_eq_reg_r (/ uw)); [exact H1|apply Rinv_neq_0_compat; exact N2]. }
  split; [exact K1|]. intros k Hk. specialize (H2 k Hk). rewrite !air_scale, (air_ext n _ _ _ OC), (OC k Hk), lsum1, OF in H2. fold keys in H2.
  apply (Rmult_eq_reg_r (/ uw)); [|apply Rinv_neq_0_compat; exact N2]. destruct (string_dec _ _); unfold Rdiv in H2; lra.
Qed.
Print Assumptions C48_combustor_constituents.

(* ---- ThermoAdd (tabular) in flow mode, as a subsystem ---- *)
Section Add.
Variables (nm : string) (t : tab_adder) (pi po : list promo) (bs : list string) (w : state) (o : tab_opts) (n : nat).
Hypothesis SU : tab_setup o = Ok t.
Hypothesis MX : t_mode o = TFlow.
Hypothesis NM : t_names o = bs.
Hypothesis Ln : List.length (tab_inflow o) = n.
Hypothesis HM : srel (add_sub nm (ATab t) pi po) (lin (add_sub nm (ATab t) pi po) w) (lout (add_sub nm (ATab t) pi po) w).
Let g x := gname nm pi x.
Let q x := gname nm po x.
Let Am b := air n (val w (g (b ++ ":W")%string)) (w (g (b ++ ":composition")%string)).
Lemma add_flow_constituents : 1 + lsum (w (g "Fl_I:tot:composition")) (seq 0 n) <> 0 -> (forall b, In b bs -> 1 + lsum (w (g (b ++ ":composition")%string)) (seq 0 n) <> 0) ->
  air n (val w (g "Fl_I:stat:W")) (w (g "Fl_I:tot:composition")) + lsum Am bs <> 0 -> val w (q "Wout") <> 0 ->
  air n (val w (q "Wout")) (w (q "composition_out")) = air n (val w (g "Fl_I:stat:W")) (w (g "Fl_I:tot:composition")) + lsum Am bs /\
  forall k, (k < n)%nat -> air n (val w (q "Wout")) (w (q "composition_out")) * w (q "composition_out") k =
    air n (val w (g "Fl_I:stat:W")) (w (g "Fl_I:tot:composition")) * w (g "Fl_I:tot:composition") k + lsum (fun b => Am b * w (g (b ++ ":composition")%string) k) bs.
Proof.
  intros HS HB HA HW. assert (Ha : flow_adder (ATab t) bs) by (exists o; auto).
  destruct (add_units (ATab t)) as [UI UO]. set (e := vget (lin (add_sub nm (ATab t) pi po) w)).
  set (uw := ufac "lbm/s"). assert (N2 : uw <> 0) by apply ufac_n0.
  assert (EW : e (V "Fl_I:stat:W") = val w (g "Fl_I:stat:W") / uw) by (unfold e, vget, lin, add_sub; cbn [sins sname pin]; rewrite UI by inp; reflexivity).
  assert (Ec : compo_in e = w (g "Fl_I:tot:composition")).
  { apply functional_extensionality. intros i. unfold compo_in, e, vget, lin, add_sub. cbn [sins sname pin]. rewrite UI by inp. unfold g. change (ufac (unit_of _ "Fl_I:tot:composition")) with 1. field. }
  assert (EWn : forall b, In b bs -> e (B b "W") = val w (g (b ++ ":W")%string) / uw).
  { intros b Hb. unfold e, vget, lin, add_sub. cbn [sins sname pin]. rewrite (flow_add_unit (ATab t) bs b "W" "lbm/s" "0.0" Ha Hb) by inp. reflexivity. }
  assert (Ecn : forall b, In b bs -> compo_mix e b = w (g (b ++ ":composition")%string)).
  { intros b Hb. apply functional_extensionality. intros i. unfold compo_mix, e, vget, lin, add_sub. cbn [sins sname pin].
    change (b ++ ":composition")%string with (b ++ ":" ++ "composition")%string. rewrite (flow_add_unit (ATab t) bs b "composition" "" "composition" Ha Hb) by inp. rewrite ufac_none. unfold g. field. }
  destruct (tab_setup_inv o t SU) as [LN [NM' _]]. rewrite Ln in LN.
  assert (OW : tab_compute t e (fun _ => 0) (V "Wout") = val w (q "Wout") / uw).
  { unfold e. change (tab_compute t) with (add_compute (ATab t)). rewrite <- (HM (V "Wout")) by (cbn; tauto). unfold vget, lout, add_sub; cbn [souts sname pout]. rewrite UO by inp. reflexivity. }
  assert (OC : forall j, (j < n)%nat -> compo_out (tab_compute t e (fun _ => 0)) j = w (q "composition_out") j).
  { intros j Hj. unfold compo_out, e. change (tab_compute t) with (add_compute (ATab t)). rewrite <- (HM (I "composition_out" j)).
    - unfold vget, lout, add_sub; cbn [souts sname pout]. rewrite UO by inp. change (ufac (unit_of _ "composition_out")) with 1. unfold q. field.
    - unfold add_vars. apply in_or_app. right. apply in_or_app. left. cbn [add_size]. rewrite LN. apply in_map. apply in_seq. lia. }
  assert (NZ : forall x, x <> 0 -> x / uw <> 0) by (intros x Hx K; apply Hx; apply (Rmult_eq_reg_r (/ uw)); [|apply Rinv_neq_0_compat; exact N2]; unfold Rdiv in K; rewrite K; ring).
  assert (SA : forall f, lsum (fun b => air n (e (B b "W")) (compo_mix e b) * f b) bs = lsum (fun b => Am b * f b) bs / uw).
  { intros f. rewrite <- lsum_scale. apply lsum_ext. intros b Hb. rewrite (EWn b Hb), (Ecn b Hb), air_scale. unfold Am, Rdiv. ring. }
  pose proof (SA (fun _ => 1)) as S1. rewrite (lsum_ext _ (fun b => air n (e (B b "W")) (compo_mix e b))) in S1 by (intros; ring). rewrite (lsum_ext (fun b => Am b * 1) Am) in S1 by (intros; ring).
  pose proof (C49_flow o t SU MX e (fun _ => 0)) as H. cbv zeta in H. rewrite Ln, EW, OW, Ec, NM, S1, air_scale in H.
  destruct H as [H1 H2]; [exact HS|intros b Hb; rewrite (Ecn b Hb); apply HB; exact Hb| |apply NZ; exact HW|].
  { intros K. apply (NZ _ HA). unfold Rdiv in *. lra. }
  rewrite !air_scale, (air_ext n _ _ _ OC) in H1. split.
  - apply (Rmult_eq_reg_r (/ uw)); [|apply Rinv_neq_0_compat; exact N2]. unfold Rdiv in H1. lra.
  - intros k Hk. specialize (H2 k Hk). rewrite !air_scale, (air_ext n _ _ _ OC), (OC k Hk) in H2.
    rewrite (lsum_ext _ (fun b => air n (e (B b "W")) (compo_mix e b) * w (g (b ++ ":composition")%string) k)) in H2 by (intros b Hb; rewrite (Ecn b Hb); reflexivity).
    rewrite SA in H2. apply (Rmult_eq_reg_r (/ uw)); [|apply Rinv_neq_0_compat; exact N2]. unfold Rdiv in H2. lra.
Qed.
End Add.
Theorem C48_turbine_constituents tp me mp t bs statics design w o : (forall b, In b bs -> contains ":" b = false) ->
  tab_setup o = Ok t -> t_mode o = TFlow -> t_names o = bs -> solves (turbine tp me mp (ATab t) bs statics design) w ->
  let n := List.length (tab_inflow o) in let Am := fun b => air n (val w (b ++ ":stat:W")) (w (b ++ ":tot:composition")%string) in
  1 + lsum (w "Fl_I:tot:composition") (seq 0 n) <> 0 -> (forall b, In b bs -> 1 + lsum (w (b ++ ":tot:composition")%string) (seq 0 n) <> 0) ->
  air n (val w "Fl_I:stat:W") (w "Fl_I:tot:composition") + lsum Am bs <> 0 -> val w "Fl_O:stat:W" <> 0 ->
  air n (val w "Fl_O:stat:W") (w "Fl_O:tot:composition") = air n (val w "Fl_I:stat:W") (w "Fl_I:tot:composition") + lsum Am bs /\
  forall k, (k < n)%nat -> air n (val w "Fl_O:stat:W") (w "Fl_O:tot:composition") * w "Fl_O:tot:composition" k =
    air n (val w "Fl_I:stat:W") (w "Fl_I:tot:composition") * w "Fl_I:tot:composition" k + lsum (fun b => Am b * w (b ++ ":tot:composition")%string k) bs.
Proof.
  intros Hn SU MX NM Hsol n Am HS HB HA HW.
  assert (Ha : flow_adder (ATab t) bs) by (exists o; auto).
  destruct (C48_turbine tp me mp (ATab t) bs statics design w Hn Ha Hsol) as (_ & Co & _).
  destruct Hsol as [Hs Hc]. unfold turbine in Hs, Hc. cbn [subs conns] in Hs, Hc.
  set (pa := [PN "Fl_I:stat:W"; PN "Fl_I:tot:composition"] ++ map (fun b => PA (b ++ ":W")%string (b ++ ":stat:W")%string) bs ++ map (fun b => PA (b ++ ":composition")%string (b ++ ":tot:composition")%string) bs) in *.
  assert (HX := Hs (add_sub "bld_add" (ATab t) pa [PA "Wout" "W_out"]) ltac:(do 2 (apply in_or_app; right); apply in_or_app; left; left; reflexivity)).
  assert (GW : forall b, In b bs -> gname "bld_add" pa (b ++ ":W") = (b ++ ":stat:W")%string) by (intros b Ib; apply bld_add_gname; [exact Hn|exact Ib|inp]).
  assert (GC : forall b, In b bs -> gname "bld_add" pa (b ++ ":composition") = (b ++ ":tot:composition")%string) by (intros b Ib; apply bld_add_gname; [exact Hn|exact Ib|inp]).
  assert (Z : val w "Fl_O:stat:W" = val w "W_out").
  { destruct statics.
    - assert (O := Hs (tsub tp me "out_stat" (stat_mode design) "Fl_O:stat" [PN (if design then "MN" else "area")] [PG "Fl_O:stat:"]) ltac:(do 5 (apply in_or_app; right); left; reflexivity)).
      assert (Q : val w "out_stat.W" = val w "W_out") by (apply (Hc "W_out" "out_stat.W"); do 4 (apply in_or_app; right); insub). rewrite <- Q.
      destruct design; cbn [stat_mode] in O.
      + destruct (sub_MN tp me "out_stat" "Fl_O:stat" "Fl_O:stat" [PN "MN"] [PG "Fl_O:stat:"] w ltac:(okn) ltac:(shw) O) as ((_ & _ & K) & _). apply (K 0%nat).
      + destruct (sub_A tp me "out_stat" "Fl_O:stat" "Fl_O:stat" [PN "area"] [PG "Fl_O:stat:"] w ltac:(okn) ltac:(shw) O) as ((_ & _ & K) & _). apply (K 0%nat).
    - apply (pass_fact w "W_passthru"). apply Hs. do 5 (apply in_or_app; right). insub. }
  assert (Cf : w "Fl_O:tot:composition" = w "bld_add.composition_out") by (apply functional_extensionality; exact Co). rewrite Cf, Z in *.
  assert (SA : forall f, lsum (fun b => air n (val w (gname "bld_add" pa (b ++ ":W"))) (w (gname "bld_add" pa (b ++ ":composition"))) * f (w (gname "bld_add" pa (b ++ ":composition")))) bs = lsum (fun b => Am b * f (w (b ++ ":tot:composition")%string)) bs).
  { intros f. apply lsum_ext. intros b Ib. rewrite (GW b Ib), (GC b Ib). reflexivity. }
  assert (S1 : lsum (fun b => air n (val w (gname "bld_add" pa (b ++ ":W"))) (w (gname "bld_add" pa (b ++ ":composition")))) bs = lsum Am bs) by (apply lsum_ext; intros b Ib; rewrite (GW b Ib), (GC b Ib); reflexivity).
  destruct (add_flow_constituents "bld_add" t pa [PA "Wout" "W_out"] bs w o n SU MX NM eq_refl HX) as [E1 E2].
  - exact HS.
  - intros b Ib. rewrite (GC b Ib). apply HB. exact Ib.
  - rewrite S1. exact HA.
  - exact HW.
  - rewrite S1 in E1. split; [exact E1|]. intros k Hk. specialize (E2 k Hk). rewrite (SA (fun v => v k)) in E2. exact E2.
Qed.
Print Assumptions C48_turbine_constituents.
Theorem C48_mixer_constituents tp me t one design w o : tab_setup o = Ok t -> t_mode o = TFlow -> t_names o = ["mix"] -> solves (mixer tp me (ATab t) one design) w ->
  let n := List.length (tab_inflow o) in let A1 := air n (val w "Fl_I1:stat:W") (w "Fl_I1:tot:composition") in let A2 := air n (val w "Fl_I2:stat:W") (w "Fl_I2:tot:composition") in
  1 + lsum (w "Fl_I1:tot:composition") (seq 0 n) <> 0 -> 1 + lsum (w "Fl_I2:tot:composition") (seq 0 n) <> 0 -> A1 + A2 <> 0 -> val w "Fl_O:stat:W" <> 0 ->
  air n (val w "Fl_O:stat:W") (w "Fl_O:tot:composition") = A1 + A2 /\
  forall k, (k < n)%nat -> air n (val w "Fl_O:stat:W") (w "Fl_O:tot:composition") * w "Fl_O:tot:composition" k = A1 * w "Fl_I1:tot:composition" k + A2 * w "Fl_I2:tot:composition" k.
Proof.
  intros SU MX NM Hsol n A1 A2 HS1 HS2 HA HW.
  assert (Ha : flow_adder (ATab t) ["mix"]) by (exists o; auto).
  destruct (C48_mixer tp me (ATab t) one design w Ha Hsol) as (_ & Co & _).
  destruct Hsol as [Hs Hc]. unfold mixer in Hs, Hc. cbn [subs conns] in Hs, Hc.
  set (pa := [PA "Fl_I:stat:W" "Fl_I1:stat:W"; PA "Fl_I:tot:composition" "Fl_I1:tot:composition"; PA "Fl_I:tot:h" "Fl_I1:tot:h"; PA "mix:W" "Fl_I2:stat:W"; PA "mix:composition" "Fl_I2:tot:composition"; PA "mix:h" "Fl_I2:tot:h"]) in *.
  assert (HX := Hs (add_sub "flow_add" (ATab t) pa []) ltac:(do 2 (apply in_or_app; right); insub)).
  assert (HG := Hs (group_sub "impulse_converge" (mix_conv tp me) [PG ""] [PG ""]) ltac:(do 2 (apply in_or_app; right); insub)).
  assert (Hc2 : forall x y, In (x, y) [("flow_add.composition_out", "out_tot.composition"); ("flow_add.mass_avg_h", "out_tot.h"); ("flow_add.composition_out", "out_stat.composition"); ("flow_add.Wout", "out_stat.W");
      ("flow_add.mass_avg_h", "out_stat.ht"); ("impulse_mix.impulse_mix", "balance.rhs:P_tot")] -> same w y x) by (intros x' y' H k; apply Hc; apply in_or_app; right; exact H).
  destruct (mix_conv_fact tp me w HG) as (_ & _ & _ & _ & _ & T6 & _).
  { intros k. rewrite (Hc2 "flow_add.composition_out" "out_stat.composition"), (Hc2 "flow_add.composition_out" "out_tot.composition") by mem. reflexivity. }
  { unfold val. rewrite (Hc2 "flow_add.mass_avg_h" "out_stat.ht"), (Hc2 "flow_add.mass_avg_h" "out_tot.h") by mem. reflexivity. }
  assert (EW : val w "Fl_O:stat:W" = val w "flow_add.Wout") by (rewrite T6; apply (Hc2 "flow_add.Wout" "out_stat.W"); mem).
  assert (Cf : w "Fl_O:tot:composition" = w "flow_add.composition_out") by (apply functional_extensionality; exact Co). rewrite Cf, EW in *.
  destruct (add_flow_constituents "flow_add" t pa [] ["mix"] w o n SU MX NM eq_refl HX) as [E1 E2].
  - exact HS1.
  - intros b [<-|[]]. exact HS2.
  - rewrite lsum1. exact HA.
  - exact HW.
  - rewrite lsum1 in E1. split; [exact E1|]. intros k Hk. specialize (E2 k Hk). rewrite lsum1 in E2. exact E2.
Qed.
Print Assumptions C48_mixer_constituents.

(* ---------- a whole tabular cycle ---------- *)
(* every mixing component was set up for the same constituents keys (sorted), the fuel of a combustor being one of them *)
Definition tab_built (keys : list string) (fuel : string -> string) (nk : string * ekind) : Prop :=
  let made t m names := exists o, tab_setup o = Ok t /\ dwf (tab_inflow o) /\ sorted (dkeys (tab_inflow o)) = keys /\ t_mode o = m /\ t_names o = names in
  match snd nk with
  | ECombustor a _ => exists t, a = ATab t /\ made t (TReactant (fuel (fst nk))) ("mix" :: nil)
  | ETurbine _ a bs _ => exists t, a = ATab t /\ made t TFlow bs
  | EMixer a _ => exists t, a = ATab t /\ made t TFlow ("mix" :: nil)
  | _ => True
  end.
(* flows of air and of constituent k through a port *)
Definition air_flow (n : nat) (w : state) (p : port) : R := air n (mass_flow w p) (composition w p).
Definition const_flow (n : nat) (k : nat) (w : state) (p : port) : R := air_flow n w p * composition w p k.
Definition air_in (n : nat) (w : state) (nk : string * ekind) : R := if starts (snd nk) then air_flow n w (fst nk, "Fl_O") else 0.
Definition const_in (keys : list string) (fuel : string -> string) (k : nat) (w : state) (nk : string * ekind) : R :=
  match snd nk with
  | EStart _ | EFlight _ | ECfd => const_flow (List.length keys) k w (fst nk, "Fl_O")
  | ECombustor _ _ => if string_dec (nth k keys "") (fuel (fst nk)) then val (local w (fst nk)) "Wfuel" else 0
  | _ => 0
  end.
(* streams that are mixed: no negative flow, main stream flowing, no negative ratios *)
Definition mixable (n : nat) (w : state) (nk : string * ekind) : Prop :=
  match snd nk with
  | ECombustor _ _ | ETurbine _ _ _ _ | EMixer _ _ =>
    (forall p, In p (e_in (snd nk)) -> 0 <= mass_flow w (fst nk, p) /\ forall j, (j < n)%nat -> 0 <= composition w (fst nk, p) j) /\ 0 < mass_flow w (fst nk, hd "" (e_in (snd nk)))
  | _ => True
  end.
Lemma ratio_pos n c : (forall j, (j < n)%nat -> 0 <= c j) -> 0 < 1 + lsum c (seq 0 n).
Proof. intros H. assert (0 <= lsum c (seq 0 n)) by (apply lsum_nonneg; intros j Hj; apply in_seq in Hj; apply H; lia). lra. Qed.
Lemma air_pos n W c : 0 < W -> (forall j, (j < n)%nat -> 0 <= c j) -> 0 < air n W c.
Proof. intros HW H. unfold air. apply Rdiv_lt_0_compat; [exact HW|apply ratio_pos; exact H]. Qed.
Lemma air_nonneg n W c : 0 <= W -> (forall j, (j < n)%nat -> 0 <= c j) -> 0 <= air n W c.
Proof. intros HW H. unfold air. apply Rmult_le_pos; [exact HW|]. apply Rlt_le, Rinv_0_lt_compat, ratio_pos. exact H. Qed.
Lemma keys_length o keys : sorted (dkeys (tab_inflow o)) = keys -> List.length (tab_inflow o) = List.length keys.
Proof. intros <-. rewrite <- (Permutation_length (sorted_perm _)). unfold dkeys. rewrite map_length. reflexivity. Qed.
Lemma elem_constituents tp me design keys fuel w n k : options_ok k -> solves (egroup tp me design k) (local w n) -> regular w (n, k) -> tab_built keys fuel (n, k) -> mixable (List.length keys) w (n, k) ->
  lsum (fun p => air_flow (List.length keys) w (n, p)) (e_out k) = lsum (fun p => air_flow (List.length keys) w (n, p)) (e_in k) + air_in (List.length keys) w (n, k) /\
  forall j, (j < List.length keys)%nat ->
    lsum (fun p => const_flow (List.length keys) j w (n, p)) (e_out k) = lsum (fun p => const_flow (List.length keys) j w (n, p)) (e_in k) + const_in keys fuel j w (n, k).
Proof.
  intros O S Rg Bt Mx. assert (Mass := elem_mass tp me design w n k O S Rg). set (v := local w n) in *. set (N := List.length keys) in *.
  assert (AX : forall p, air_flow N w (n, p) = air N (val v (p ++ ":stat:W")) (v (p ++ ":tot:composition")%string)) by reflexivity.
  assert (CX : forall j p, const_flow N j w (n, p) = air N (val v (p ++ ":stat:W")) (v (p ++ ":tot:composition")%string) * v (p ++ ":tot:composition")%string j) by reflexivity.
  assert (Pass : (forall p, In p (e_out k) -> same v (p ++ ":tot:composition") "Fl_I:tot:composition") -> e_in k = "Fl_I" :: nil -> mass_in w (n, k) = 0 ->
     lsum (fun p => air_flow N w (n, p)) (e_out k) = lsum (fun p => air_flow N w (n, p)) (e_in k) + 0 /\
     forall j, (j < N)%nat -> lsum (fun p => const_flow N j w (n, p)) (e_out k) = lsum (fun p => const_flow N j w (n, p)) (e_in k) + 0).
  { intros P Ei M0. rewrite Ei, M0, lsum1 in Mass. rewrite Ei, lsum1.
    assert (PC : forall p, In p (e_out k) -> v (p ++ ":tot:composition")%string = v "Fl_I:tot:composition") by (intros p Hp; apply functional_extensionality; exact (P p Hp)).
    assert (A : lsum (fun p => air_flow N w (n, p)) (e_out k) = air_flow N w (n, "Fl_I")).
    { rewrite (lsum_ext _ (fun p => mass_flow w (n, p) * / (1 + lsum (v "Fl_I:tot:composition") (seq 0 N)))).
      - rewrite lsum_scal_r, Mass, Rplus_0_r. reflexivity.
      - intros p Hp. rewrite AX, (PC p Hp). reflexivity. }
    split; [rewrite A; ring|]. intros j Hj. rewrite lsum1.
    rewrite (lsum_ext _ (fun p => air_flow N w (n, p) * v "Fl_I:tot:composition" j)) by (intros p Hp; rewrite CX, <- AX, (PC p Hp); reflexivity).
    rewrite lsum_scal_r, A, CX, AX. cbn [append]. ring. }
  destruct k; cbn [egroup e_in e_out options_ok air_in const_in snd fst starts] in *.
  - split; [|intros j Hj]; rewrite lsum1; change (lsum _ nil) with 0; rewrite Rplus_0_l; reflexivity.
  - split; [|intros j Hj]; rewrite lsum1; change (lsum _ nil) with 0; rewrite Rplus_0_l; reflexivity.
  - split; [|intros j Hj]; rewrite lsum1; change (lsum _ nil) with 0; rewrite Rplus_0_l; reflexivity.
  - apply Pass; [|reflexivity|reflexivity]. intros p [<-|[]]. apply C48_inlet in S. apply S.
  - apply Pass; [|reflexivity|reflexivity]. intros p [<-|[]]. apply C48_duct in S. apply S.
  - apply Pass; [|reflexivity|reflexivity]. apply C48_splitter in S as [S _]. intros p [<-|[<-|[]]]; [apply (S "1"); cbn; auto|apply (S "2"); cbn; auto].
  - apply Pass; [|reflexivity|reflexivity]. destruct O as [O _]. apply (C48_bleed_out _ _ _ _ _ _ O) in S. intros p [<-|Hp]; [exact (proj1 (proj2 S))|]. destruct S as (_ & _ & _ & _ & S & _). apply S. exact Hp.
  - destruct Bt as (t & -> & o & SU & DW & KY & MX & NM). cbn [fst] in MX. destruct Mx as [M1 M2]. cbn [fst snd e_in hd] in M1, M2. destruct (M1 "Fl_I" (or_introl eq_refl)) as [_ M3].
    pose proof (C48_combustor_constituents tp me t statics design v o (fuel n) SU DW MX NM S) as H. cbv zeta in H. rewrite KY in H. fold N in H.
    destruct H as [H1 H2]; [apply Rgt_not_eq; exact M2|apply Rgt_not_eq, ratio_pos; exact M3|exact Rg|].
    rewrite !lsum1, !AX. cbn [append]. split; [rewrite H1; ring|]. intros j Hj. rewrite !lsum1, !CX. cbn [append]. apply H2. exact Hj.
  - apply Pass; [|reflexivity|reflexivity]. destruct O as [O _]. apply (C48_compressor _ _ _ _ _ _ _ _ O) in S. intros p [<-|Hp]; [exact (proj1 (proj2 S))|]. destruct S as (_ & _ & _ & _ & _ & S & _). apply S. exact Hp.
  - destruct Bt as (t & -> & o & SU & DW & KY & MX & NM). cbn [fst] in MX. destruct Mx as [M1 M2]. cbn [fst snd e_in hd] in M1, M2. destruct O as (O & _).
    pose proof (C48_turbine_constituents tp me mp t bs statics design v o O SU MX NM S) as H. cbv zeta in H. rewrite (keys_length o keys KY) in H. fold N in H.
    destruct H as [H1 H2].
    { apply Rgt_not_eq, ratio_pos. apply (M1 "Fl_I"). left. reflexivity. }
    { intros b Hb. apply Rgt_not_eq, ratio_pos. apply (M1 b). right. exact Hb. }
    { apply Rgt_not_eq. apply Rplus_lt_le_0_compat; [apply air_pos; [exact M2|apply (M1 "Fl_I"); left; reflexivity]|]. apply lsum_nonneg. intros b Hb. destruct (M1 b (or_intror Hb)). apply air_nonneg; assumption. }
    { exact Rg. }
    rewrite lsum1, lsum_c, !AX, Rplus_0_r. cbn [append]. split; [exact H1|]. intros j Hj. rewrite lsum1, lsum_c, !CX, Rplus_0_r. cbn [append]. apply H2. exact Hj.
  - apply Pass; [|reflexivity|reflexivity]. intros p [<-|[]]. apply C48_nozzle in S. apply S.
  - destruct Bt as (t & -> & o & SU & DW & KY & MX & NM). cbn [fst] in MX. destruct Mx as [M1 M2]. cbn [fst snd e_in hd] in M1, M2.
    pose proof (C48_mixer_constituents tp me t one design v o SU MX NM S) as H. cbv zeta in H. rewrite (keys_length o keys KY) in H. fold N in H.
    destruct H as [H1 H2].
    { apply Rgt_not_eq, ratio_pos. apply (M1 "Fl_I1"). left. reflexivity. }
    { apply Rgt_not_eq, ratio_pos. apply (M1 "Fl_I2"). right. left. reflexivity. }
    { apply Rgt_not_eq. apply Rplus_lt_le_0_compat; [apply air_pos; [exact M2|apply (M1 "Fl_I1"); left; reflexivity]|]. destruct (M1 "Fl_I2" (or_intror (or_introl eq_refl))). apply air_nonneg; assumption. }
    { exact Rg. }
    rewrite lsum1, lsum2, !AX, Rplus_0_r. cbn [append]. split; [exact H1|]. intros j Hj. rewrite lsum1, lsum2, !CX, Rplus_0_r. cbn [append]. apply H2. exact Hj.
Qed.
Theorem C66_constituents tp me design keys fuel els links w : network els links -> (forall nk, In nk els -> tab_built keys fuel nk) -> (forall l, In l links -> l_w l = true) ->
  running tp me design els links w -> (forall nk, In nk els -> regular w nk) -> (forall nk, In nk els -> mixable (List.length keys) w nk) ->
  let n := List.length keys in
  lsum (air_flow n w) (open_in els links) + lsum (air_in n w) els = lsum (air_flow n w) (open_out els links) /\
  forall k, (k < n)%nat -> lsum (const_flow n k w) (open_in els links) + lsum (const_in keys fuel k w) els = lsum (const_flow n k w) (open_out els links).
Proof.
  intros N Bt Lw Rn Rg Mx n.
  assert (E : forall nm k, In (nm, k) els -> _) by (intros nm k Hk; exact (elem_constituents tp me design keys fuel w nm k (proj1 (proj2 N) nm k Hk) (proj1 Rn nm k Hk) (Rg _ Hk) (Bt _ Hk) (Mx _ Hk))).
  split; [|intros j Hj].
  - apply net_balance; [exact N|intros nm k Hk; apply (E nm k Hk)|].
    intros l Hl. unfold air_flow. rewrite (link_mass tp me design els links w l Rn Hl (Lw l Hl)), (link_comp tp me design els links w l Rn Hl). reflexivity.
  - apply net_balance; [exact N|intros nm k Hk; apply (E nm k Hk); exact Hj|].
    intros l Hl. unfold const_flow, air_flow. rewrite (link_mass tp me design els links w l Rn Hl (Lw l Hl)), (link_comp tp me design els links w l Rn Hl). reflexivity.
Qed.
Print Assumptions C66_constituents.
