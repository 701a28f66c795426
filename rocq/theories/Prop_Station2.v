(* Claim C48, continued: flow sources (FlowStart, FlightConditions, CFDStart). *)
From Coq Require Import FunctionalExtensionality Lia.
From Verif Require Import Lib_R Spec_Wire Model_Thermo Proofs_Wire Prop_Static Prop_Thermo Prop_Atm Model_Elem1 Proofs_Elem Prop_Station.
Open Scope string_scope. Open Scope list_scope. Open Scope R_scope.

(* stations seen from the enclosing group *)
Lemma total_ok_ext tp me w w' fl : (forall x, In x (station_vars total_TP) -> forall k, w' (at_ fl x) k = w (at_ fl x) k) -> total_ok tp me w' fl -> total_ok tp me w fl.
Proof.
  intros E H. unfold total_ok in *. replace (w (at_ fl "composition")) with (w' (at_ fl "composition")) by (apply functional_extensionality; apply E; inp).
  eapply station_move; [|exact H]. intros x Hx. apply E. cbn in Hx |- *. tauto.
Qed.
Lemma outlet_ok_ext tp me design w w' tot stat given given' : (forall x, In x (station_vars total_TP) -> forall k, w' (at_ tot x) k = w (at_ tot x) k) ->
  (forall x, In x (station_vars static_MN) -> forall k, w' (at_ stat x) k = w (at_ stat x) k) -> w' given' 0%nat = w given 0%nat ->
  outlet_ok tp me design w' tot stat given' -> outlet_ok tp me design w tot stat given.
Proof.
  intros E1 E2 E3 (H1 & H2 & H3 & H4).
  replace (w' (at_ tot "composition")) with (w (at_ tot "composition")) in H1 by (apply functional_extensionality; intros; symmetry; apply E1; inp).
  unfold outlet_ok, val, static_ok in *.
  repeat match goal with |- _ /\ _ => split end.
  - eapply station_move; [|exact H1]. intros x Hx. apply E2. cbn in Hx |- *. tauto.
  - rewrite <- E1, <- E2 by inp. exact H2.
  - destruct design; rewrite <- E3, <- E2 by inp; exact H3.
  - rewrite E3 in H4. rewrite !E2, !E1 in H4 by inp. exact H4.
Qed.

(* ---------- FlowStart: the given temperature, pressure, composition, mass flow and Mach number are those of the outlet ---------- *)
Theorem C48_flow_start tp me add w : solves (flow_start tp me add) w ->
  total_ok tp me w "Fl_O:tot" /\ same w "Fl_O:tot:composition" "composition" /\ val w "Fl_O:tot:T" = val w "T" /\ val w "Fl_O:tot:P" = val w "P" /\
  val w "Fl_O:stat:W" = val w "W" /\ outlet_ok tp me true w "Fl_O:tot" "Fl_O:stat" "MN".
Proof.
  intros [Hs Hc]. unfold flow_start in Hs, Hc. cbn [subs conns] in Hs, Hc.
  assert (Hs' : forall s, In s [tsub tp me "totals" total_TP "Fl_O:tot" [PN "T"; PN "P"; PN "composition"] [PG "Fl_O:tot:"];
      tsub tp me "exit_static" static_MN "Fl_O:stat" [PN "MN"; PN "W"; PN "composition"] [PG "Fl_O:stat:"]] -> srel s (lin s w) (lout s w)) by (intros s H; apply Hs; apply in_or_app; right; exact H).
  destruct (sub_TP tp me "totals" "Fl_O:tot" "Fl_O:tot" [PN "T"; PN "P"; PN "composition"] [PG "Fl_O:tot:"] w) as ((T1 & T2 & T3) & T4 & T5); [okn|shw|apply Hs'; insub|].
  assert (O : outlet_ok tp me true w "Fl_O:tot" "Fl_O:stat" "MN" /\ val w "Fl_O:stat:W" = val w "W").
  { eapply (outlet_of tp me true "exit_static" "Fl_O:tot" "Fl_O:stat"); [okn| |apply Hs'; insub|apply same_sym, T2| | |reflexivity|reflexivity|reflexivity]; [shw| |]; unfold val.
    - rewrite <- (T5 "S") by inp. apply Hc. insub.
    - rewrite <- (T5 "h") by inp. apply Hc. insub. }
  destruct O as [O1 O2]. split; [exact T1|]. split; [exact T2|]. split; [apply T4|]. split; [apply T3|]. auto.
Qed.
Print Assumptions C48_flow_start.

(* a solved FlowStart inside another group, seen through fs's promotions *)
Definition start_ok (add : option (adder * string)) : Prop :=
  match add with
  | Some (a, ratio) => add_reacting a = true /\ add_names a = ["mix"] /\ ~ In ratio ["MN"; "W"; "T"; "P"; "composition"]
  | None => True
  end.
Definition adder_outs : list string := ["composition"; "thermo_add.mass_avg_h"; "thermo_add.Wout"; "thermo_add.mix:W"].
Lemma start_outs tp me add : start_ok add -> g_outs (flow_start tp me add) = (match add with Some _ => adder_outs | None => [] end) ++ g_outs (flow_start tp me None).
Proof.
  destruct add as [[a ratio]|]; [|reflexivity]. intros (H1 & H2 & _). unfold flow_start, g_outs. cbn [subs flat_map app]. f_equal.
  unfold out_names, add_sub, add_outs. cbn [souts sname pout]. rewrite H1, H2. reflexivity.
Qed.
Lemma start_stations tp me x : In x (map (at_ "Fl_O:tot") (station_vars total_TP) ++ map (at_ "Fl_O:stat") (station_vars static_MN)) -> In x (g_outs (flow_start tp me None)).
Proof.
  assert (K : forallb (fun x => memb x (g_outs (flow_start tp me None))) (map (at_ "Fl_O:tot") (station_vars total_TP) ++ map (at_ "Fl_O:stat") (station_vars static_MN)) = true)
    by (destruct me; vm_compute; reflexivity).
  rewrite forallb_forall in K. intros H. apply memb_in. apply K. exact H.
Qed.
Lemma start_given tp me add x : start_ok add -> In x ["MN"; "W"; "T"; "P"] -> In x (g_ins (flow_start tp me add)).
Proof.
  intros Ha Hx. apply in_g_ins. rewrite (start_outs tp me add Ha).
  assert (K : forallb (fun x => memb x (flat_map in_names (subs (flow_start tp me None))) && negb (memb x (adder_outs ++ g_outs (flow_start tp me None))) &&
    negb (memb x (map snd (conns (flow_start tp me None))))) ["MN"; "W"; "T"; "P"] = true) by (destruct me; vm_compute; reflexivity).
  rewrite forallb_forall in K. specialize (K x Hx). apply andb_prop in K as [K K3]. apply andb_prop in K as [K1 K2]. apply memb_in in K1.
  apply negb_true_iff, memb_not in K2, K3. split; [|split; [|exact K3]].
  - unfold flow_start in *. cbn [subs] in *. rewrite flat_map_app. apply in_or_app. right. exact K1.
  - rewrite in_app_iff in K2 |- *. intros [H|H]; [|tauto]. apply K2. destruct add; [left; exact H|contradiction].
Qed.
Lemma start_composition tp me add : start_ok add -> In "composition" (g_ins (flow_start tp me add)) \/ In "composition" (g_outs (flow_start tp me add)).
Proof.
  intros Ha. destruct add as [[a r]|].
  - right. rewrite (start_outs tp me (Some (a, r)) Ha). left. reflexivity.
  - left. destruct me; apply memb_in; vm_compute; reflexivity.
Qed.
Lemma fs_fact tp me add pi w : start_ok add -> gname "fs" pi "composition" = "fs.composition" ->
  srel (group_sub "fs" (flow_start tp me add) pi [PG "Fl_O:"]) (lin (group_sub "fs" (flow_start tp me add) pi [PG "Fl_O:"]) w) (lout (group_sub "fs" (flow_start tp me add) pi [PG "Fl_O:"]) w) ->
  total_ok tp me w "Fl_O:tot" /\ same w "Fl_O:tot:composition" "fs.composition" /\ val w "Fl_O:tot:T" = val w (gname "fs" pi "T") /\ val w "Fl_O:tot:P" = val w (gname "fs" pi "P") /\
  val w "Fl_O:stat:W" = val w (gname "fs" pi "W") /\ outlet_ok tp me true w "Fl_O:tot" "Fl_O:stat" (gname "fs" pi "MN").
Proof.
  intros Ha Hp H. destruct (group_open _ _ _ _ _ H) as (w' & Hw & Hi & Ho).
  assert (E : forall x, In x (map (at_ "Fl_O:tot") (station_vars total_TP) ++ map (at_ "Fl_O:stat") (station_vars static_MN)) -> forall k, w' x k = w x k).
  { intros x Hx k. rewrite Ho by (rewrite (start_outs tp me add Ha); apply in_or_app; right; apply start_stations; exact Hx).
    f_equal. unfold gname, pname. replace (prefix "Fl_O:" x) with true; [reflexivity|].
    assert (K : forallb (prefix "Fl_O:") (map (at_ "Fl_O:tot") (station_vars total_TP) ++ map (at_ "Fl_O:stat") (station_vars static_MN)) = true) by reflexivity.
    rewrite forallb_forall in K. symmetry. apply K. exact Hx. }
  assert (Et : forall x, In x (station_vars total_TP) -> forall k, w' (at_ "Fl_O:tot" x) k = w (at_ "Fl_O:tot" x) k) by (intros x Hx k; apply E; apply in_or_app; left; apply in_map; exact Hx).
  assert (Es : forall x, In x (station_vars static_MN) -> forall k, w' (at_ "Fl_O:stat" x) k = w (at_ "Fl_O:stat" x) k) by (intros x Hx k; apply E; apply in_or_app; right; apply in_map; exact Hx).
  assert (Eg : forall x, In x ["MN"; "W"; "T"; "P"] -> forall k, w' x k = w (gname "fs" pi x) k) by (intros x Hx k; apply Hi; apply start_given; assumption).
  assert (Ec : same w "fs.composition" "fs.composition" /\ forall k, w' "composition" k = w "fs.composition" k).
  { split; [apply same_refl|]. intros k. destruct (start_composition tp me add Ha) as [C|C]; [rewrite (Hi _ _ C), Hp; reflexivity|rewrite (Ho _ _ C); reflexivity]. }
  destruct Ec as [_ Ec]. destruct (C48_flow_start tp me add w' Hw) as (H1 & H2 & H3 & H4 & H5 & H6).
  split; [eapply total_ok_ext; [exact Et|exact H1]|]. split; [intros k; rewrite <- Ec; change "Fl_O:tot:composition" with (at_ "Fl_O:tot" "composition"); rewrite <- Et by inp; apply H2|].
  unfold val in *. rewrite <- !Eg by inp.
  split; [change "Fl_O:tot:T" with (at_ "Fl_O:tot" "T"); rewrite <- Et by inp; exact H3|].
  split; [change "Fl_O:tot:P" with (at_ "Fl_O:tot" "P"); rewrite <- Et by inp; exact H4|].
  split; [change "Fl_O:stat:W" with (at_ "Fl_O:stat" "W"); rewrite <- Es by inp; exact H5|].
  eapply outlet_ok_ext; [exact Et|exact Es| |exact H6]. apply Eg. inp.
Qed.

(* ---------- CFDStart: total state, Mach number and temperature are found so that static pressure, velocity and area are the given ones ---------- *)
Theorem C48_cfd_start tp me w : solves (cfd_start tp me) w ->
  total_ok tp me w "Fl_O:tot" /\ same w "Fl_O:tot:composition" "fs.composition" /\ val w "Fl_O:stat:P" = val w "Ps" /\ val w "Fl_O:stat:V" = val w "V" /\
  val w "Fl_O:stat:area" = val w "area" /\ val w "Fl_O:stat:W" = val w "W" /\
  val w "Fl_O:tot:P" = val w "balance.P" /\ val w "Fl_O:tot:T" = val w "balance.T" /\ outlet_ok tp me true w "Fl_O:tot" "Fl_O:stat" "balance.MN".
Proof.
  intros [Hs Hc]. unfold cfd_start in Hs, Hc. cbn [subs conns] in Hs, Hc.
  pose proof (Hs _ (or_introl eq_refl)) as Hf. pose proof (Hs _ (or_intror (or_introl eq_refl))) as Hb.
  destruct (fs_fact tp me None [PN "W"] w Logic.I eq_refl Hf) as (H1 & H2 & H3 & H4 & H5 & H6).
  cbn [bal_sub srel] in Hb.
  pose proof (Hb _ (or_introl eq_refl)) as B1. pose proof (Hb _ (or_intror (or_introl eq_refl))) as B2. pose proof (Hb _ (or_intror (or_intror (or_introl eq_refl)))) as B3.
  change (w "balance.Ps_computed" 0%nat / ufac "psi" = w "Ps" 0%nat / ufac "psi") in B1. change (w "balance.V_computed" 0%nat / ufac "ft/s" = w "V" 0%nat / ufac "ft/s") in B2.
  change (w "balance.area_computed" 0%nat / ufac "inch**2" = w "area" 0%nat / ufac "inch**2") in B3. apply udiv_eq in B1, B2, B3.
  rewrite (Hc "Fl_O:stat:P" "balance.Ps_computed" ltac:(insub)) in B1. rewrite (Hc "Fl_O:stat:V" "balance.V_computed" ltac:(insub)) in B2. rewrite (Hc "Fl_O:stat:area" "balance.area_computed" ltac:(insub)) in B3.
  split; [exact H1|]. split; [exact H2|]. split; [exact B1|]. split; [exact B2|]. split; [exact B3|]. split; [exact H5|].
  split; [rewrite H4; apply (Hc "balance.P" "fs.P"); insub|]. split; [rewrite H3; apply (Hc "balance.T" "fs.T"); insub|].
  eapply outlet_ok_ext; [reflexivity|reflexivity| |exact H6]. apply (Hc "balance.MN" "fs.MN"). insub.
Qed.
Print Assumptions C48_cfd_start.

(* ---------- FlightConditions: the static state of the free stream is that of the standard atmosphere at the altitude, plus the temperature offset ---------- *)
Lemma ambient_fact w : solves ambient w ->
  val w "Ts" = compute usatm (fun _ => val w "alt" / ufac "ft") (fun _ => 0) (V "Ts") * ufac "degR" + val w "dTs" /\
  val w "Ps" = compute usatm (fun _ => val w "alt" / ufac "ft") (fun _ => 0) (V "Ps") * ufac "psi".
Proof.
  intros [Hs Hc]. unfold ambient in Hs, Hc. cbn [subs conns] in Hs, Hc. pose proof (Hs _ (or_introl eq_refl)) as H1. pose proof (Hs _ (or_intror (or_introl eq_refl))) as H2.
  pose proof (Hc "readAtmTable.Ts" "dTs.Ts_in" ltac:(insub) 0%nat) as C.
  pose proof (H1 (V "Ts") ltac:(inp)) as T. pose proof (H1 (V "Ps") ltac:(inp)) as P. pose proof (H2 (V "Ts") ltac:(inp)) as D.
  rewrite Ts_val in T |- *. rewrite Ps_val in P |- *.
  change (w "readAtmTable.Ts" 0%nat / ufac "degR" = interp T_knots (val w "alt" / ufac "ft")) in T.
  change (w "Ps" 0%nat / ufac "psi" = interp P_knots (val w "alt" / ufac "ft")) in P.
  change (w "Ts" 0%nat / ufac "degR" = w "dTs.Ts_in" 0%nat / ufac "degR" + w "dTs" 0%nat / ufac "degR") in D.
  assert (N1 : ufac "degR" <> 0) by apply ufac_n0. assert (N2 : ufac "psi" <> 0) by apply ufac_n0. unfold val in *. rewrite <- T, <- P, <- C. split; [|field; exact N2].
  replace (w "Ts" 0%nat) with (w "Ts" 0%nat / ufac "degR" * ufac "degR") by (field; exact N1). rewrite D. field. exact N1.
Qed.
Theorem C48_flight_conditions tp me add w : start_ok add -> solves (flight_conditions tp me add) w ->
  total_ok tp me w "Fl_O:tot" /\ same w "Fl_O:tot:composition" "fs.composition" /\ val w "Fl_O:stat:W" = val w "W" /\
  outlet_ok tp me true w "Fl_O:tot" "Fl_O:stat" "MN" /\
  (forall e old, e (V "alt") = val w "alt" / ufac "ft" ->
     val w "Fl_O:stat:T" = compute usatm e old (V "Ts") * ufac "degR" + val w "dTs" /\ val w "Fl_O:stat:P" = compute usatm e old (V "Ps") * ufac "psi").
Proof.
  intros Ha [Hs Hc]. unfold flight_conditions in Hs, Hc. cbn [subs conns] in Hs, Hc.
  pose proof (Hs _ (or_introl eq_refl)) as HA. pose proof (Hs _ (or_intror (or_introl eq_refl))) as HC.
  destruct (group_open _ _ _ _ _ HA) as (wa & Sa & Ia & Oa). destruct (group_open _ _ _ _ _ HC) as (wc & Sc & Ic & Oc).
  assert (G : forall x, gname "conv" [PG ""] x = x) by (intros x; unfold gname, pname; destruct x; reflexivity).
  destruct Sc as [Sc _]. unfold fc_conv in Sc. cbn [subs] in Sc. pose proof (Sc _ (or_introl eq_refl)) as Hf. pose proof (Sc _ (or_intror (or_introl eq_refl))) as Hb.
  set (pi := [PN "MN"; PN "W"] ++ match add with Some (_, ratio) => [PN ratio] | None => [] end) in *.
  assert (Gp : forall x, In x ["T"; "P"; "composition"] -> gname "fs" pi x = ("fs." ++ x)%string).
  { intros x Hx. unfold pi, gname. destruct add as [[a r]|]; cbn [app pname].
    - destruct Ha as (_ & _ & Hr). destruct (String.eqb x "MN") eqn:E1; [apply String.eqb_eq in E1; subst; cbn in Hx; intuition discriminate|].
      destruct (String.eqb x "W") eqn:E2; [apply String.eqb_eq in E2; subst; cbn in Hx; intuition discriminate|].
      destruct (String.eqb x r) eqn:E3; [apply String.eqb_eq in E3; subst; exfalso; apply Hr; cbn in Hx |- *; tauto|]. reflexivity.
    - cbn in Hx. repeat destruct Hx as [<-|Hx]; try reflexivity. contradiction. }
  destruct (fs_fact tp me add pi wc Ha (Gp "composition" ltac:(inp)) Hf) as (H1 & H2 & H3 & H4 & H5 & H6).
  assert (Gw : gname "fs" pi "W" = "W" /\ gname "fs" pi "MN" = "MN") by (split; reflexivity). destruct Gw as [Gw Gm]. rewrite Gw in H5. rewrite Gm in H6.
  (* names of conv *)
  assert (CO : forall x, In x (map (at_ "Fl_O:tot") (station_vars total_TP) ++ map (at_ "Fl_O:stat") (station_vars static_MN)) -> In x (g_outs (fc_conv tp me add))).
  { intros x Hx. unfold fc_conv, g_outs. cbn [subs flat_map]. apply in_or_app. left. unfold out_names, group_sub. cbn [souts sname pout]. unfold plain, names. rewrite (map_map _ fst). cbn [fst].
    replace x with (gname "fs" [PG "Fl_O:"] x).
    - apply in_map_iff. exists x. split; [reflexivity|]. rewrite map_id. rewrite (start_outs tp me add Ha). apply in_or_app. right. apply start_stations. exact Hx.
    - unfold gname, pname. replace (prefix "Fl_O:" x) with true; [reflexivity|].
      assert (K : forallb (prefix "Fl_O:") (map (at_ "Fl_O:tot") (station_vars total_TP) ++ map (at_ "Fl_O:stat") (station_vars static_MN)) = true) by reflexivity.
      rewrite forallb_forall in K. symmetry. apply K. exact Hx. }
  assert (NO : forall x, In x ["MN"; "W"; "balance.lhs:Tt"; "balance.rhs:Tt"; "balance.lhs:Pt"; "balance.rhs:Pt"] -> ~ In x (g_outs (fc_conv tp me add))).
  { intros x Hx. assert (K : forallb (fun x => negb (memb x (map (gname "fs" [PG "Fl_O:"]) (adder_outs ++ g_outs (flow_start tp me None)) ++ ["balance.Tt"; "balance.Pt"])))
      ["MN"; "W"; "balance.lhs:Tt"; "balance.rhs:Tt"; "balance.lhs:Pt"; "balance.rhs:Pt"] = true) by (destruct me; vm_compute; reflexivity).
    rewrite forallb_forall in K. specialize (K x Hx). apply negb_true_iff, memb_not in K. intros H. apply K. clear K. unfold fc_conv, g_outs in H. cbn [subs flat_map] in H.
    rewrite app_nil_r in H. apply in_app_or in H as [H|H]; apply in_or_app; [left|right; exact H]. unfold out_names, group_sub in H. cbn [souts sname pout] in H. unfold plain, names in H.
    rewrite (map_map _ fst) in H. cbn [fst] in H. rewrite map_id in H. apply in_map_iff in H as [y [<- Hy]]. apply in_map. rewrite (start_outs tp me add Ha) in Hy. apply in_app_or in Hy as [Hy|Hy]; apply in_or_app; [left|right; exact Hy].
    destruct add; [exact Hy|contradiction]. }
  assert (CI : forall x, In x ["MN"; "W"; "balance.lhs:Tt"; "balance.rhs:Tt"; "balance.lhs:Pt"; "balance.rhs:Pt"] -> In x (g_ins (fc_conv tp me add))).
  { intros x Hx. apply in_g_ins. split; [|split; [apply NO; exact Hx|intros []]]. unfold fc_conv. cbn [subs flat_map]. rewrite app_nil_r. apply in_or_app.
    assert (FI : forall y, In y ["MN"; "W"] -> In y (in_names (group_sub "fs" (flow_start tp me add) pi [PG "Fl_O:"]))).
    { intros y Hy. unfold in_names, group_sub. cbn [sins sname pin]. unfold plain, names. rewrite (map_map _ fst). cbn [fst]. rewrite map_id. apply in_map_iff. exists y.
      split; [cbn in Hy; destruct Hy as [<-|[<-|[]]]; assumption|]. apply start_given; [exact Ha|]. cbn in Hy |- *. tauto. }
    cbn in Hx. destruct Hx as [<-|[<-|Hx]]; [left; apply FI; inp|left; apply FI; inp|right; inp]. }
  assert (E : forall x, In x (map (at_ "Fl_O:tot") (station_vars total_TP) ++ map (at_ "Fl_O:stat") (station_vars static_MN)) -> forall k, wc x k = w x k)
    by (intros x Hx k; rewrite Oc, G by (apply CO; exact Hx); reflexivity).
  assert (EI : forall x, In x ["MN"; "W"; "balance.lhs:Tt"; "balance.rhs:Tt"; "balance.lhs:Pt"; "balance.rhs:Pt"] -> forall k, wc x k = w x k)
    by (intros x Hx k; rewrite Ic, G by (apply CI; exact Hx); reflexivity).
  assert (Et : forall x, In x (station_vars total_TP) -> forall k, wc (at_ "Fl_O:tot" x) k = w (at_ "Fl_O:tot" x) k) by (intros x Hx k; apply E; apply in_or_app; left; apply in_map; exact Hx).
  assert (Es : forall x, In x (station_vars static_MN) -> forall k, wc (at_ "Fl_O:stat" x) k = w (at_ "Fl_O:stat" x) k) by (intros x Hx k; apply E; apply in_or_app; right; apply in_map; exact Hx).
  assert (Ec : forall k, wc "fs.composition" k = w "fs.composition" k).
  { intros k. assert (C : In "fs.composition" (g_ins (fc_conv tp me add)) \/ In "fs.composition" (g_outs (fc_conv tp me add))).
    { destruct (in_dec string_dec "fs.composition" (g_outs (fc_conv tp me add))) as [D|D]; [right; exact D|left]. apply in_g_ins. split; [|split; [exact D|intros []]].
      unfold fc_conv. cbn [subs flat_map]. apply in_or_app. left. unfold in_names, group_sub. cbn [sins sname pin]. unfold plain, names. rewrite (map_map _ fst). cbn [fst]. rewrite map_id. apply in_map_iff.
      exists "composition". split; [apply (Gp "composition"); inp|]. destruct (start_composition tp me add Ha) as [K|K]; [exact K|]. exfalso. apply D.
      unfold fc_conv, g_outs. cbn [subs flat_map]. apply in_or_app. left. unfold out_names, group_sub. cbn [souts sname pout]. unfold plain, names. rewrite (map_map _ fst). cbn [fst]. rewrite map_id.
      apply in_map_iff. exists "composition". split; [reflexivity|exact K]. }
    destruct C as [C|C]; [rewrite (Ic _ _ C), G; reflexivity|rewrite (Oc _ _ C), G; reflexivity]. }
  split; [eapply total_ok_ext; [exact Et|exact H1]|].
  split; [intros k; rewrite <- Ec; change "Fl_O:tot:composition" with (at_ "Fl_O:tot" "composition"); rewrite <- Et by inp; apply H2|].
  split; [unfold val in *; rewrite <- (EI "W") by inp; change "Fl_O:stat:W" with (at_ "Fl_O:stat" "W"); rewrite <- Es by inp; exact H5|].
  split; [eapply outlet_ok_ext; [exact Et|exact Es|apply EI; inp|exact H6]|].
  intros e old He. rewrite Ts_val, Ps_val, He. destruct (ambient_fact wa Sa) as [A1 A2]. rewrite Ts_val in A1. rewrite Ps_val in A2.
  assert (AI : forall x, In x ["alt"; "dTs"] -> In x (g_ins ambient)) by (intros x Hx; apply memb_in; cbn in Hx; repeat destruct Hx as [<-|Hx]; try contradiction; vm_compute; reflexivity).
  assert (AO : forall x, In x ["Ps"; "Ts"] -> In x (g_outs ambient)) by (intros x Hx; apply memb_in; cbn in Hx; repeat destruct Hx as [<-|Hx]; try contradiction; vm_compute; reflexivity).
  unfold val in A1, A2. rewrite (Ia "alt" _ (AI "alt" ltac:(inp))) in A1, A2. rewrite (Ia "dTs" _ (AI "dTs" ltac:(inp))) in A1.
  rewrite (Oa "Ts" _ (AO "Ts" ltac:(inp))) in A1. rewrite (Oa "Ps" _ (AO "Ps" ltac:(inp))) in A2.
  change (gname "ambient" [PN "alt"; PN "dTs"] "alt") with "alt" in A1, A2. change (gname "ambient" [PN "alt"; PN "dTs"] "dTs") with "dTs" in A1.
  change (gname "ambient" [] "Ts") with "ambient.Ts" in A1. change (gname "ambient" [] "Ps") with "ambient.Ps" in A2.
  cbn [bal_sub srel] in Hb. pose proof (Hb _ (or_introl eq_refl)) as B1. pose proof (Hb _ (or_intror (or_introl eq_refl))) as B2.
  change (wc "balance.lhs:Tt" 0%nat / ufac "degR" = wc "balance.rhs:Tt" 0%nat / ufac "degR") in B1. change (wc "balance.lhs:Pt" 0%nat / ufac "psi" = wc "balance.rhs:Pt" 0%nat / ufac "psi") in B2.
  apply udiv_eq in B1, B2. rewrite !EI in B1, B2 by inp.
  rewrite (Hc "Fl_O:stat:T" "balance.lhs:Tt" ltac:(insub)), (Hc "ambient.Ts" "balance.rhs:Tt" ltac:(insub)) in B1.
  rewrite (Hc "Fl_O:stat:P" "balance.lhs:Pt" ltac:(insub)), (Hc "ambient.Ps" "balance.rhs:Pt" ltac:(insub)) in B2.
  unfold val. split; [rewrite B1; exact A1|rewrite B2; exact A2].
Qed.
Print Assumptions C48_flight_conditions.
