(* Claim C48, continued: the turbine. *)
From Coq Require Import FunctionalExtensionality Lia.
From Verif Require Import Lib_R Lib_Loop Spec_Wire Model_Thermo Proofs_Wire Prop_Static Prop_Thermo Prop_Turbo Proofs_TurboLoop Spec_Mix Model_Species Model_ThermoAdd Proofs_ThermoAdd Prop_Mix Model_Elem1 Model_Elem2 Proofs_Elem Prop_Station Prop_Station3 Proofs_Elem3 Prop_Station4 Prop_Station5.
Open Scope string_scope. Open Scope list_scope. Open Scope R_scope.

Lemma bleed_pressure_fact bs w b : In b bs -> srel (blds_sub bs) (lin (blds_sub bs) w) (lout (blds_sub bs) w) ->
  val w ("blds." ++ b ++ ":Pt") = val w "blds.Pt_out" + val w (b ++ ":frac_P") * (val w "Fl_I:tot:P" - val w "blds.Pt_out").
Proof.
  intros Hb H. set (e := vget (lin (blds_sub bs) w)). set (up := ufac "psi"). assert (N : up <> 0) by apply ufac_n0.
  assert (K : vget (lout (blds_sub bs) w) (B b "Pt") = e (V "Pt_out") + e (B b "frac_P") * (e (V "Pt_in") - e (V "Pt_out"))).
  { rewrite <- (blp_Pt bs e (fun _ => 0) b Hb). apply H. cbn [bleed_pressure outs]. apply in_flat_map. exists b. split; [exact Hb|left; reflexivity]. }
  assert (E1 : e (V "Pt_in") = val w "Fl_I:tot:P" / up) by reflexivity.
  assert (E2 : e (V "Pt_out") = val w "blds.Pt_out" / up).
  { unfold e, vget, lin, blds_sub. cbn [sname pin sins]. unfold gname. cbn [pname String.eqb Ascii.eqb Bool.eqb].
    rewrite <- (map_map (fun b => (b ++ ":frac_P")%string) PN), <- (app_nil_r (map PN _)), pname_skip_PN; [reflexivity|]. intros Q. apply in_map_iff in Q. destruct Q as [d [Q _]]. revert Q. apply neq_suffix'. reflexivity. }
  assert (E3 : e (B b "frac_P") = val w (b ++ ":frac_P")).
  { unfold e, vget, lin, blds_sub. cbn [sname pin sins]. change (b ++ ":" ++ "frac_P")%string with (b ++ ":frac_P")%string. unfold gname. cbn [pname].
    rewrite (String.eqb_sym (b ++ ":frac_P")), (eqb_suffix b ":frac_P" "Pt_in") by reflexivity.
    rewrite <- (map_map (fun b => (b ++ ":frac_P")%string) PN), <- (app_nil_r (map PN _)), pname_in_PN by (apply (in_map (fun b => (b ++ ":frac_P")%string)); exact Hb).
    unfold val. replace (ufac (unit_of _ _)) with 1; [field|]. symmetry. unfold unit_of. erewrite lookup_uniq; [| |].
    - rewrite <- ufac_none. f_equal. instantiate (1 := ("", "0.0")). reflexivity.
    - intros p Hp Ef. apply in_app_or in Hp. destruct Hp as [Hp|Hp].
      + exfalso. revert Ef. cbn in Hp. repeat destruct Hp as [<-|Hp]; try contradiction; cbn [fst]; apply neq_suffix; reflexivity.
      + apply in_flat_map in Hp. destruct Hp as [c [_ Hp]]. cbn in Hp. repeat destruct Hp as [<-|Hp]; try contradiction; [reflexivity|]. exfalso. revert Ef. cbn [fst]. apply suffix_clash; reflexivity.
    - rewrite map_app. apply in_or_app. right. apply in_map_iff. exists ((b ++ ":frac_P")%string, ("", "0.0")). split; [reflexivity|]. apply in_flat_map. exists b. split; [exact Hb|left; reflexivity]. }
  assert (E4 : vget (lout (blds_sub bs) w) (B b "Pt") = val w ("blds." ++ b ++ ":Pt") / up).
  { unfold vget, lout, blds_sub. cbn [sname pout souts]. change (b ++ ":" ++ "Pt")%string with (b ++ ":Pt")%string. unfold gname, pname.
    assert (U : unit_of (flat_map (fun b => [((b ++ ":Pt")%string, ("psi", ""))]) bs) (b ++ ":Pt") = "psi").
    { unfold unit_of. erewrite lookup_uniq; [| |]. - instantiate (1 := ("psi", "")). reflexivity.
      - intros p Hp _. apply in_flat_map in Hp. destruct Hp as [c [_ [<-|[]]]]. reflexivity.
      - apply in_map_iff. exists ((b ++ ":Pt")%string, ("psi", "")). split; [reflexivity|]. apply in_flat_map. exists b. split; [exact Hb|left; reflexivity]. }
    rewrite U. reflexivity. }
  rewrite E1, E2, E3, E4 in K. apply (Rmult_eq_reg_r (/ up)); [|apply Rinv_neq_0_compat; exact N]. unfold Rdiv in K. rewrite K. ring.
Qed.
Lemma bld_add_gname bs b x y : (forall b, In b bs -> contains ":" b = false) -> In b bs -> In (x, y) [(":W", ":stat:W"); (":composition", ":tot:composition")] ->
  gname "bld_add" ([PN "Fl_I:stat:W"; PN "Fl_I:tot:composition"] ++ map (fun b => PA (b ++ ":W")%string (b ++ ":stat:W")%string) bs ++
                   map (fun b => PA (b ++ ":composition")%string (b ++ ":tot:composition")%string) bs) (b ++ x) = (b ++ y)%string.
Proof.
  intros Hn Hb Hx. unfold gname. cbn [pname app].
  assert (F : forall z, In z ["Fl_I:stat:W"; "Fl_I:tot:composition"] -> String.eqb (b ++ x) z = false).
  { intros z Hz. apply String.eqb_neq. intros E. specialize (Hn b Hb). cbn in Hx, Hz. repeat destruct Hx as [Hx|Hx]; try contradiction; injection Hx as <- <-; repeat destruct Hz as [<-|Hz]; try contradiction.
    - change "Fl_I:stat:W" with ("Fl_I:stat" ++ ":W")%string in E. apply sapp_inj_r in E. subst b. discriminate.
    - revert E. apply neq_suffix'. reflexivity.
    - revert E. apply neq_suffix'. reflexivity.
    - change "Fl_I:tot:composition" with ("Fl_I:tot" ++ ":composition")%string in E. apply sapp_inj_r in E. subst b. discriminate. }
  rewrite !F by inp. cbn in Hx. repeat destruct Hx as [Hx|Hx]; try contradiction; injection Hx as <- <-.
  - rewrite (pname_in_PA (fun b => (b ++ ":W")%string) (fun b => (b ++ ":stat:W")%string)); [reflexivity|exact Hb|]. intros c _ E. apply sapp_inj_r in E. congruence.
  - rewrite (pname_skip_PA (fun b => (b ++ ":W")%string)) by (intros c _; apply suffix_clash; reflexivity).
    rewrite <- (app_nil_r (map _ _)). rewrite (pname_in_PA (fun b => (b ++ ":composition")%string) (fun b => (b ++ ":tot:composition")%string)); [reflexivity|exact Hb|]. intros c _ E. apply sapp_inj_r in E. congruence.
Qed.

Theorem C48_turbine tp me mp a bs statics design w : (forall b, In b bs -> contains ":" b = false) -> flow_adder a bs -> solves (turbine tp me mp a bs statics design) w ->
  total_ok tp me w "Fl_O:tot" /\ same w "Fl_O:tot:composition" "bld_add.composition_out" /\ (val w "PR" <> 0 -> val w "PR" * val w "Fl_O:tot:P" = val w "Fl_I:tot:P") /\
  (* the isentropic expansion of the main stream, and the stream before the cooling flows are added *)
  (total_ok tp me w "ideal_flow.flow" /\ same w "ideal_flow.flow:composition" "Fl_I:tot:composition" /\ val w "ideal_flow.flow:S" = val w "Fl_I:tot:S" /\ val w "ideal_flow.flow:P" = val w "Fl_O:tot:P") /\
  (total_ok tp me w "real_flow_b4bld.Fl_O_b4bld:tot" /\ same w "real_flow_b4bld.Fl_O_b4bld:tot:composition" "Fl_I:tot:composition" /\
   val w "real_flow_b4bld.Fl_O_b4bld:tot:P" = val w "Fl_O:tot:P" /\
   val w "Fl_I:tot:h" - val w "real_flow_b4bld.Fl_O_b4bld:tot:h" = val w "eff" * (val w "Fl_I:tot:h" - val w "ideal_flow.flow:h")) /\
  (* every cooling flow enters between outlet and inlet pressure with its own enthalpy, and its isentropic expansion to the outlet pressure *)
  (forall b, In b bs ->
     (total_ok tp me w (b ++ "_inflow.flow") /\ same w (b ++ "_inflow.flow:composition") (b ++ ":tot:composition") /\ val w (b ++ "_inflow.flow:h") = val w (b ++ ":tot:h") /\
      val w (b ++ "_inflow.flow:P") = val w "Fl_O:tot:P" + val w (b ++ ":frac_P") * (val w "Fl_I:tot:P" - val w "Fl_O:tot:P")) /\
     (total_ok tp me w (b ++ "_ideal.flow") /\ same w (b ++ "_ideal.flow:composition") (b ++ ":tot:composition") /\ val w (b ++ "_ideal.flow:S") = val w (b ++ "_inflow.flow:S") /\
      val w (b ++ "_ideal.flow:P") = val w "Fl_O:tot:P")) /\
  (* mass, energy, torque *)
  (val w "Fl_O:stat:W" <> 0 ->
     val w "Fl_O:stat:W" = val w "Fl_I:stat:W" + lsum (fun b => val w (b ++ ":stat:W")) bs /\
     val w "Fl_O:stat:W" * val w "Fl_O:tot:h" = val w "Fl_I:stat:W" * val w "real_flow_b4bld.Fl_O_b4bld:tot:h" +
       lsum (fun b => val w (b ++ ":stat:W") * (val w (b ++ ":tot:h") - val w "eff" * (val w (b ++ ":tot:h") - val w (b ++ "_ideal.flow:h")))) bs /\
     val w "power" / ufac "hp" = BTU_s2HP * ((val w "Fl_I:stat:W" * val w "Fl_I:tot:h" + lsum (fun b => val w (b ++ ":stat:W") * val w (b ++ ":tot:h")) bs - val w "Fl_O:stat:W" * val w "Fl_O:tot:h") / ufac "Btu/s")) /\
  (val w "Nmech" <> 0 -> val w "trq" / ufac "ft*lbf" * val w "Nmech" = HP_per_RPM_to_FT_LBF * (val w "power" / ufac "hp")) /\
  (statics = true -> outlet_ok tp me design w "Fl_O:tot" "Fl_O:stat" (if design then "MN" else "area")).
Proof.
  intros Hn Ha [Hs Hc]. unfold turbine in Hs, Hc. cbn [subs conns] in Hs, Hc.
  set (cm := [PA "composition" "Fl_I:tot:composition"]) in *.
  set (pa := [PN "Fl_I:stat:W"; PN "Fl_I:tot:composition"] ++ map (fun b => PA (b ++ ":W")%string (b ++ ":stat:W")%string) bs ++ map (fun b => PA (b ++ ":composition")%string (b ++ ":tot:composition")%string) bs) in *.
  assert (Hs' : forall s, In s (if statics then [tsub tp me "out_stat" (stat_mode design) "Fl_O:stat" [PN (if design then "MN" else "area")] [PG "Fl_O:stat:"]] else [pass_sub "W_passthru" "W_out" "Fl_O:stat:W"]) -> srel s (lin s w) (lout s w))
    by (intros s H; apply Hs; do 5 (apply in_or_app; right); exact H).
  assert (Hc' : forall x y, In (x, y) (if statics then [("bld_add.composition_out", "out_stat.composition")] ++ stat_conns "Fl_O:tot" "out_stat" ++ [("W_out", "out_stat.W")] else []) -> forall k, w y k = w x k)
    by (intros x y H; apply Hc; do 3 (apply in_or_app; right); exact H).
  assert (Hs1 : forall s, In s [press_drop_sub; tsub tp me "ideal_flow" total_SP "flow" [PA "S" "Fl_I:tot:S"; PA "composition" "Fl_I:tot:composition"] []] -> srel s (lin s w) (lout s w))
    by (intros s H; apply Hs; apply in_or_app; left; cbn in H |- *; repeat destruct H as [<-|H]; try contradiction; auto 12).
  assert (Hs2 : forall s, In s [add_sub "bld_add" a pa [PA "Wout" "W_out"]; blds_sub bs] -> srel s (lin s w) (lout s w)) by (intros s H; apply Hs; do 2 (apply in_or_app; right); apply in_or_app; left; exact H).
  assert (Hs3 : forall s, In s [pwr_turb_sub bs; tsub tp me "real_flow_b4bld" total_hP "Fl_O_b4bld:tot" cm []; t_eff_poly_sub; tsub tp me "real_flow" total_hP "Fl_O:tot" [] [PG "Fl_O:tot:"]] -> srel s (lin s w) (lout s w))
    by (intros s H; apply Hs; do 4 (apply in_or_app; right); apply in_or_app; left; exact H).
  assert (Hc1 : forall x y, In (x, y) [("press_drop.Pt_out", "ideal_flow.P"); ("press_drop.Pt_out", "blds.Pt_out")] -> forall k, w y k = w x k) by (intros x y H; apply Hc; apply in_or_app; left; exact H).
  assert (Hc2 : forall x y, In (x, y) [("ideal_flow.h", "pwr_turb.ht_out_ideal"); ("ht_out_b4bld", "real_flow_b4bld.h"); ("press_drop.Pt_out", "real_flow_b4bld.P");
      ("real_flow_b4bld.Fl_O_b4bld:tot:S", "eff_poly_calc.S_out"); ("pwr_turb.ht_out", "real_flow.h"); ("press_drop.Pt_out", "real_flow.P"); ("bld_add.composition_out", "real_flow.composition")] -> forall k, w y k = w x k)
    by (intros x y H; apply Hc; do 2 (apply in_or_app; right); apply in_or_app; left; exact H).
  destruct (sub_hP tp me "real_flow" "Fl_O:tot" "Fl_O:tot" [] [PG "Fl_O:tot:"] w) as ((T1 & T2 & T3) & T4); [okn|shw|apply Hs3; insub|].
  destruct (sub_hP tp me "real_flow_b4bld" "Fl_O_b4bld:tot" "real_flow_b4bld.Fl_O_b4bld:tot" cm [] w) as ((U1 & U2 & U3) & U4); [okn|shw|apply Hs3; insub|].
  destruct (sub_SP tp me "ideal_flow" "flow" "ideal_flow.flow" [PA "S" "Fl_I:tot:S"; PA "composition" "Fl_I:tot:composition"] [] w) as ((D1 & D2 & D3) & D4 & D5); [okn|shw|apply Hs1; insub|].
  destruct (ep_facts bs w (Hs3 (pwr_turb_sub bs) ltac:(insub))) as (F1 & F2 & F3).
  pose proof (Hs1 press_drop_sub ltac:(insub) (V "Pt_out") ltac:(inp)) as HP. set (up := ufac "psi") in *. assert (Np : up <> 0) by apply ufac_n0.
  change (w "press_drop.Pt_out" 0%nat / up = w "Fl_I:tot:P" 0%nat / up / (w "PR" 0%nat / 1)) in HP.
  assert (Po : val w "Fl_O:tot:P" = val w "press_drop.Pt_out") by (unfold val; rewrite <- (Hc2 "press_drop.Pt_out" "real_flow.P") by insub; apply T3).
  assert (Ho : val w "Fl_O:tot:h" = val w "pwr_turb.ht_out") by (unfold val; rewrite <- (Hc2 "pwr_turb.ht_out" "real_flow.h") by insub; exact T4).
  assert (Hi : val w "pwr_turb.ht_out_ideal" = val w "ideal_flow.flow:h") by (unfold val; rewrite (Hc2 "ideal_flow.h" "pwr_turb.ht_out_ideal") by insub; apply (D5 0%nat)).
  assert (Hb4 : val w "real_flow_b4bld.Fl_O_b4bld:tot:h" = val w "ht_out_b4bld") by (unfold val; rewrite <- (Hc2 "ht_out_b4bld" "real_flow_b4bld.h") by insub; exact U4).
  assert (Co : same w "Fl_O:tot:composition" "bld_add.composition_out").
  { intros k. rewrite <- (Hc2 "bld_add.composition_out" "real_flow.composition") by insub. apply T2. }
  assert (Z : val w "Fl_O:stat:W" = val w "W_out" /\ (statics = true -> outlet_ok tp me design w "Fl_O:tot" "Fl_O:stat" (if design then "MN" else "area"))).
  { destruct statics; cbn [app] in Hs', Hc'.
    - assert (O : outlet_ok tp me design w "Fl_O:tot" "Fl_O:stat" (if design then "MN" else "area") /\ val w "Fl_O:stat:W" = val w "out_stat.W").
      { assert (K : same w "out_stat.composition" "Fl_O:tot:composition"). { eapply same_trans; [|apply same_sym, Co]. intros k. apply Hc'. insub. }
        destruct design; outl tp me Hs' Hc' "out_stat" "Fl_O:tot" "Fl_O:stat" ltac:(exact K). }
      destruct O as [O1 O2]. split; [|auto]. rewrite O2. apply (Hc' "W_out" "out_stat.W"). insub.
    - split; [|discriminate]. apply (pass_fact w "W_passthru"). apply Hs'. insub. }
  destruct Z as [Z1 Z2].
  assert (Bl : forall b, In b bs ->
     (total_ok tp me w (b ++ "_inflow.flow") /\ same w (b ++ "_inflow.flow:composition") (b ++ ":tot:composition") /\ val w (b ++ "_inflow.flow:h") = val w (b ++ ":tot:h") /\
      val w (b ++ "_inflow.flow:P") = val w "Fl_O:tot:P" + val w (b ++ ":frac_P") * (val w "Fl_I:tot:P" - val w "Fl_O:tot:P")) /\
     (total_ok tp me w (b ++ "_ideal.flow") /\ same w (b ++ "_ideal.flow:composition") (b ++ ":tot:composition") /\ val w (b ++ "_ideal.flow:S") = val w (b ++ "_inflow.flow:S") /\
      val w (b ++ "_ideal.flow:P") = val w "Fl_O:tot:P") /\ val w (b ++ "_ideal.h") = val w (b ++ "_ideal.flow:h")).
  { intros b Ib.
    assert (Q : forall s, In s [tsub tp me (b ++ "_inflow")%string total_hP "flow" [PA "composition" (b ++ ":tot:composition")%string; PA "h" (b ++ ":tot:h")%string] [];
                         tsub tp me (b ++ "_ideal")%string total_SP "flow" [PA "composition" (b ++ ":tot:composition")%string] []] -> srel s (lin s w) (lout s w)).
    { intros s H. apply Hs. do 3 (apply in_or_app; right). apply in_or_app. left. apply in_flat_map. exists b. split; [exact Ib|exact H]. }
    assert (Qc : forall x y, In (x, y) [(("blds." ++ b ++ ":Pt")%string, (b ++ "_inflow.P")%string); ((b ++ "_inflow.flow:S")%string, (b ++ "_ideal.S")%string); ("press_drop.Pt_out", (b ++ "_ideal.P")%string)] -> forall k, w y k = w x k).
    { intros x y H. apply Hc. apply in_or_app. right. apply in_or_app. left. apply in_flat_map. exists b. split; [exact Ib|exact H]. }
    destruct (sub_hP tp me (b ++ "_inflow") "flow" ((b ++ "_inflow") ++ "." ++ "flow") [PA "composition" (b ++ ":tot:composition")%string; PA "h" (b ++ ":tot:h")%string] [] w) as ((A1 & A2 & A3) & A4); [okn|shw|apply Q; left; reflexivity|].
    destruct (sub_SP tp me (b ++ "_ideal") "flow" ((b ++ "_ideal") ++ "." ++ "flow") [PA "composition" (b ++ ":tot:composition")%string] [] w) as ((G1 & G2 & G3) & G4 & G5); [okn|shw|apply Q; right; left; reflexivity|].
    assert (N1 : ((b ++ "_inflow") ++ "." ++ "flow")%string = (b ++ "_inflow.flow")%string) by (rewrite sapp_assoc; reflexivity). rewrite N1 in *.
    assert (N2 : ((b ++ "_ideal") ++ "." ++ "flow")%string = (b ++ "_ideal.flow")%string) by (rewrite sapp_assoc; reflexivity). rewrite N2 in *.
    assert (At : forall x, at_ (b ++ "_inflow.flow") x = (b ++ "_inflow.flow:" ++ x)%string) by (intros; unfold at_; rewrite sapp_assoc; reflexivity).
    assert (At2 : forall x, at_ (b ++ "_ideal.flow") x = (b ++ "_ideal.flow:" ++ x)%string) by (intros; unfold at_; rewrite sapp_assoc; reflexivity).
    rewrite At in A2, A3, A4. rewrite At2 in G2, G3, G4, G5.
    assert (M1 : gname (b ++ "_inflow") [PA "composition" (b ++ ":tot:composition")%string; PA "h" (b ++ ":tot:h")%string] "P" = (b ++ "_inflow.P")%string) by (unfold gname; cbn [pname String.eqb Ascii.eqb Bool.eqb]; rewrite sapp_assoc; reflexivity).
    assert (M2 : forall x, In x ["S"; "P"] -> gname (b ++ "_ideal") [PA "composition" (b ++ ":tot:composition")%string] x = (b ++ "_ideal." ++ x)%string)
      by (intros x Hx; cbn in Hx; repeat destruct Hx as [<-|Hx]; try contradiction; unfold gname; cbn [pname String.eqb Ascii.eqb Bool.eqb]; rewrite sapp_assoc; reflexivity).
    assert (M3 : gname (b ++ "_ideal") [] "h" = (b ++ "_ideal.h")%string) by (unfold gname, pname; rewrite sapp_assoc; reflexivity).
    rewrite M1 in A3. rewrite !M2 in * by inp. rewrite M3 in G5.
    split; [|split].
    - split; [exact A1|]. split; [exact A2|]. split; [exact A4|]. change (b ++ "_inflow.flow:P")%string with (b ++ "_inflow.flow:" ++ "P")%string. unfold val at 1. rewrite (A3 0%nat).
      rewrite (Qc ("blds." ++ b ++ ":Pt")%string (b ++ "_inflow.P")%string) by (left; reflexivity).
      pose proof (bleed_pressure_fact bs w b Ib (Hs2 (blds_sub bs) ltac:(insub))) as P. unfold val in P |- *. rewrite P. unfold val in Po. rewrite Po, (Hc1 "press_drop.Pt_out" "blds.Pt_out") by insub. reflexivity.
    - split; [exact G1|]. split; [exact G2|]. unfold val in *. split.
      + change (b ++ "_ideal.flow:S")%string with (b ++ "_ideal.flow:" ++ "S")%string. rewrite G4. apply Qc. right. left. reflexivity.
      + change (b ++ "_ideal.flow:P")%string with (b ++ "_ideal.flow:" ++ "P")%string. rewrite (G3 0%nat), Po. apply Qc. right. right. left. reflexivity.
    - apply (G5 0%nat). }
  split; [exact T1|]. split; [exact Co|]. split.
  { intros NR. rewrite Po. unfold val in *. replace (w "press_drop.Pt_out" 0%nat) with (w "press_drop.Pt_out" 0%nat / up * up) by (field; exact Np). rewrite HP. field. auto. }
  split; [split; [exact D1|split; [exact D2|split; [exact D4|]]]; rewrite Po; unfold val; rewrite <- (Hc1 "press_drop.Pt_out" "ideal_flow.P") by insub; apply D3|].
  split; [split; [exact U1|split; [exact U2|split; [rewrite Po; unfold val; rewrite <- (Hc2 "press_drop.Pt_out" "real_flow_b4bld.P") by insub; apply U3|rewrite Hb4, <- Hi; exact F1]]]|].
  split; [intros b Ib; destruct (Bl b Ib) as (B1 & B2 & _); split; [exact B1|exact B2]|].
  split; [|split; [exact F2|exact Z2]]. rewrite Z1. intros HW. specialize (F3 HW). destruct F3 as [F3 F4].
  destruct (add_flow_facts "bld_add" a pa [PA "Wout" "W_out"] bs w Ha (Hs2 _ ltac:(insub))) as [Q1 _]; [exact HW|].
  change (gname "bld_add" [PA "Wout" "W_out"] "Wout") with "W_out" in Q1. change (gname "bld_add" pa "Fl_I:stat:W") with "Fl_I:stat:W" in Q1.
  rewrite (lsum_ext _ (fun b => val w (b ++ ":stat:W")) bs) in Q1 by (intros b Ib; unfold pa; rewrite (bld_add_gname bs b ":W" ":stat:W" Hn Ib) by inp; reflexivity).
  rewrite Ho, Hb4. split; [exact Q1|]. split; [|exact F4]. rewrite F3. f_equal. apply lsum_ext. intros b Ib. destruct (Bl b Ib) as (_ & _ & ->). reflexivity.
Qed.
Print Assumptions C48_turbine.

(* chemical elements (CEA): of every element the outlet carries what the main stream and the cooling flows bring in *)
Theorem C48_turbine_elements tp me mp c bs statics design w o ds d_in m : (forall b, In b bs -> contains ":" b = false) ->
  cea_setup o = Ok c -> wf_opts o -> o_mix o = Flows ds -> o_names o = bs -> o_inflow o = Some d_in -> cea_port_data o = Ok m ->
  solves (turbine tp me mp (ACea c) bs statics design) w ->
  let wt := weight (o_spec o) in
  (forall x, In x (dkeys m) -> wt x <> 0) -> mass wt (sorted (dkeys d_in)) (w "Fl_I:tot:composition") <> 0 ->
  (forall b d, In (b, d) (combine bs ds) -> mass wt (sorted (dkeys d)) (w (b ++ ":tot:composition")%string) <> 0) ->
  val w "Fl_I:stat:W" + lsum (fun b => val w (b ++ ":stat:W")) bs <> 0 ->
  mass wt (sorted (dkeys m)) (w "Fl_O:tot:composition") = 1 /\
  forall x, val w "Fl_O:stat:W" * mass_fraction wt (sorted (dkeys m)) (w "Fl_O:tot:composition") x =
    val w "Fl_I:stat:W" * mass_fraction wt (sorted (dkeys d_in)) (w "Fl_I:tot:composition") x +
    lsum (fun bd => val w (fst bd ++ ":stat:W") * mass_fraction wt (sorted (dkeys (snd bd))) (w (fst bd ++ ":tot:composition")%string) x) (combine bs ds).
Proof.
  intros Hn SU WF MX NM IN PD Hsol wt Hw Hm Hd HW.
  assert (Ha : flow_adder (ACea c) bs) by (exists o, ds; auto).
  destruct (C48_turbine tp me mp (ACea c) bs statics design w Hn Ha Hsol) as (_ & Co & _).
  destruct Hsol as [Hs Hc]. unfold turbine in Hs, Hc. cbn [subs conns] in Hs, Hc.
  set (pa := [PN "Fl_I:stat:W"; PN "Fl_I:tot:composition"] ++ map (fun b => PA (b ++ ":W")%string (b ++ ":stat:W")%string) bs ++ map (fun b => PA (b ++ ":composition")%string (b ++ ":tot:composition")%string) bs) in *.
  assert (HA := Hs (add_sub "bld_add" (ACea c) pa [PA "Wout" "W_out"]) ltac:(do 2 (apply in_or_app; right); apply in_or_app; left; left; reflexivity)).
  assert (Cb : forall nd, In nd (combine bs ds) -> In (fst nd) bs) by (intros [n d] H; apply in_combine_l in H; exact H).
  assert (GW : forall b, In b bs -> gname "bld_add" pa (b ++ ":W") = (b ++ ":stat:W")%string) by (intros b Ib; apply bld_add_gname; [exact Hn|exact Ib|inp]).
  assert (GC : forall b, In b bs -> gname "bld_add" pa (b ++ ":composition") = (b ++ ":tot:composition")%string) by (intros b Ib; apply bld_add_gname; [exact Hn|exact Ib|inp]).
  assert (S : lsum (fun n => val w (gname "bld_add" pa (n ++ ":W"))) bs = lsum (fun b => val w (b ++ ":stat:W")) bs) by (apply lsum_ext; intros b Ib; rewrite GW by exact Ib; reflexivity).
  destruct (add_flow_elements "bld_add" (ACea c) pa [PA "Wout" "W_out"] bs w Ha HA o c ds d_in m eq_refl SU WF MX NM IN PD Hw Hm) as (E1 & E3 & E2).
  - intros [b d] Hbd. cbn [fst snd]. rewrite GC by exact (Cb _ Hbd). apply Hd. exact Hbd.
  - rewrite S. exact HW.
  - change (gname "bld_add" [PA "Wout" "W_out"] "Wout") with "W_out" in *. change (gname "bld_add" pa "Fl_I:stat:W") with "Fl_I:stat:W" in *. change (gname "bld_add" pa "Fl_I:tot:composition") with "Fl_I:tot:composition" in *.
    assert (Z : val w "Fl_O:stat:W" = val w "W_out").
    { destruct statics.
      - assert (O := Hs (tsub tp me "out_stat" (stat_mode design) "Fl_O:stat" [PN (if design then "MN" else "area")] [PG "Fl_O:stat:"]) ltac:(do 5 (apply in_or_app; right); left; reflexivity)).
        assert (Q : val w "out_stat.W" = val w "W_out") by (apply (Hc "W_out" "out_stat.W"); do 4 (apply in_or_app; right); insub). rewrite <- Q.
        destruct design; cbn [stat_mode] in O.
        + destruct (sub_MN tp me "out_stat" "Fl_O:stat" "Fl_O:stat" [PN "MN"] [PG "Fl_O:stat:"] w ltac:(okn) ltac:(shw) O) as ((_ & _ & K) & _). apply (K 0%nat).
        + destruct (sub_A tp me "out_stat" "Fl_O:stat" "Fl_O:stat" [PN "area"] [PG "Fl_O:stat:"] w ltac:(okn) ltac:(shw) O) as ((_ & _ & K) & _). apply (K 0%nat).
      - apply (pass_fact w "W_passthru"). apply Hs. do 5 (apply in_or_app; right). insub. }
    assert (Cf : w "Fl_O:tot:composition" = w "bld_add.composition_out") by (apply functional_extensionality; exact Co). rewrite Cf. fold wt in E2, E3.
    change (gname "bld_add" [PA "Wout" "W_out"] "composition_out") with "bld_add.composition_out" in E2, E3. split; [exact E3|]. intros x. rewrite Z, E2. f_equal. apply lsum_ext. intros [b d] Hbd. cbn [fst snd]. rewrite (GW b), (GC b) by exact (Cb _ Hbd). reflexivity.
Qed.
