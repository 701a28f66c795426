(* Claim C48, continued: the mixer. *)
From Coq Require Import FunctionalExtensionality Lia.
From Verif Require Import Lib_R Lib_Loop Spec_Wire Model_Thermo Proofs_Wire Prop_Static Prop_Thermo Model_Flow Spec_Mix Model_Species Model_ThermoAdd Proofs_ThermoAdd Prop_Mix Model_Elem1 Model_Elem2 Proofs_Elem Prop_Station Prop_Station2 Prop_Station3 Proofs_Elem3 Prop_Station5 Prop_Station7.
Open Scope string_scope. Open Scope list_scope. Open Scope R_scope.

(* impulse function of a stream: pressure force plus momentum flow (SI) *)
Definition impulse_of (w : state) (st : string) : R := val w (at_ st "P") * val w (at_ st "area") + val w (at_ st "W") * val w (at_ st "V").

(* the convergence group: total enthalpy and composition given; the total pressure is the one whose static state at the given area has the given impulse *)
Lemma mix_conv_fact tp me w : srel (group_sub "impulse_converge" (mix_conv tp me) [PG ""] [PG ""]) (lin (group_sub "impulse_converge" (mix_conv tp me) [PG ""] [PG ""]) w) (lout (group_sub "impulse_converge" (mix_conv tp me) [PG ""] [PG ""]) w) ->
  same w "out_stat.composition" "out_tot.composition" -> val w "out_stat.ht" = val w "out_tot.h" ->
  total_ok tp me w "Fl_O:tot" /\ same w "Fl_O:tot:composition" "out_tot.composition" /\ val w "Fl_O:tot:h" = val w "out_tot.h" /\ val w "Fl_O:tot:P" = val w "balance.P_tot" /\
  outlet_ok tp me false w "Fl_O:tot" "Fl_O:stat" "area" /\ val w "Fl_O:stat:W" = val w "out_stat.W" /\ impulse_of w "Fl_O:stat" = val w "balance.rhs:P_tot".
Proof.
  intros H Hc1 Hh1. destruct (group_open _ _ _ _ _ H) as (v & [Sv Cv] & Iv & Ov). clear H.
  assert (G : forall x, gname "impulse_converge" [PG ""] x = x) by (intros x; unfold gname, pname; destruct x; reflexivity).
  set (LI := ["out_tot.composition"; "out_tot.h"; "out_stat.composition"; "out_stat.W"; "out_stat.ht"; "area"; "balance.rhs:P_tot"]).
  set (LO := map (at_ "Fl_O:tot") (station_vars total_TP) ++ map (at_ "Fl_O:stat") (station_vars static_MN) ++ ["balance.P_tot"]).
  assert (EI : forall x, In x LI -> forall k, v x k = w x k).
  { assert (K : forallb (fun x => memb x (g_ins (mix_conv tp me))) LI = true) by (destruct me; vm_compute; reflexivity).
    rewrite forallb_forall in K. intros x Hx k. rewrite Iv, G by (apply memb_in, K, Hx). reflexivity. }
  assert (EO : forall x, In x LO -> forall k, v x k = w x k).
  { assert (K : forallb (fun x => memb x (g_outs (mix_conv tp me))) LO = true) by (destruct me; vm_compute; reflexivity).
    rewrite forallb_forall in K. intros x Hx k. rewrite Ov, G by (apply memb_in, K, Hx). reflexivity. }
  clear Iv Ov. unfold mix_conv in Sv, Cv. cbn [subs conns] in Sv, Cv.
  assert (Et : forall x, In x (station_vars total_TP) -> forall k, v (at_ "Fl_O:tot" x) k = w (at_ "Fl_O:tot" x) k) by (intros x Hx k; apply EO; apply in_or_app; left; apply in_map; exact Hx).
  assert (Es : forall x, In x (station_vars static_MN) -> forall k, v (at_ "Fl_O:stat" x) k = w (at_ "Fl_O:stat" x) k) by (intros x Hx k; apply EO; apply in_or_app; right; apply in_or_app; left; apply in_map; exact Hx).
  destruct (sub_hP tp me "out_tot" "Fl_O:tot" "Fl_O:tot" [] [PG "Fl_O:tot:"] v) as ((T1 & T2 & T3) & T4); [okn|shw|apply Sv; insub|].
  change (gname "out_tot" [] "composition") with "out_tot.composition" in T2. change (gname "out_tot" [] "h") with "out_tot.h" in T4. change (gname "out_tot" [] "P") with "out_tot.P" in T3.
  assert (O : outlet_ok tp me false v "Fl_O:tot" "Fl_O:stat" "area" /\ val v "Fl_O:stat:W" = val v "out_stat.W").
  { eapply (outlet_of tp me false "out_stat" "Fl_O:tot" "Fl_O:stat" [PN "area"] [PG "Fl_O:stat:"]); [okn|shw|apply Sv; insub| | | |reflexivity|reflexivity|reflexivity].
    - intros k. change (v "out_stat.composition" k = v "Fl_O:tot:composition" k). rewrite (T2 k : v "Fl_O:tot:composition" k = _), !EI by (unfold LI; mem). apply Hc1.
    - apply (Cv "Fl_O:tot:S" "out_stat.S"). insub.
    - change (v "out_stat.ht" 0%nat = v "Fl_O:tot:h" 0%nat). rewrite (T4 : v "Fl_O:tot:h" 0%nat = _), !EI by (unfold LI; mem). exact Hh1. }
  destruct O as [O1 O2]. split; [eapply total_ok_ext; [exact Et|exact T1]|].
  split; [intros k; rewrite <- (EI "out_tot.composition") by (unfold LI; mem); rewrite <- (Et "composition" : forall _ k, _ = w "Fl_O:tot:composition" k) by mem; apply T2|].
  split; [unfold val; rewrite <- (EI "out_tot.h") by (unfold LI; mem); rewrite <- (Et "h" : forall _ k, _ = w "Fl_O:tot:h" k) by mem; exact T4|].
  split; [unfold val; rewrite <- (EO "balance.P_tot") by (unfold LO; cbn [station_vars map app]; mem); rewrite <- (Cv "balance.P_tot" "out_tot.P") by insub; rewrite <- (Et "P" : forall _ k, _ = w "Fl_O:tot:P" k) by mem; apply T3|].
  split; [eapply outlet_ok_ext; [exact Et|exact Es|apply EI; unfold LI; mem|exact O1]|].
  split; [unfold val in *; rewrite <- (EI "out_stat.W") by (unfold LI; mem); rewrite <- (Es "W" : forall _ k, _ = w "Fl_O:stat:W" k) by mem; exact O2|].
  pose proof (Sv imp_out_sub ltac:(insub) (V "impulse") ltac:(inp)) as HI.
  change (v "imp_out.impulse" 0%nat / 1 = v "imp_out.P" 0%nat / 1 * (v "imp_out.area" 0%nat / 1) + v "imp_out.W" 0%nat / 1 * (v "imp_out.V" 0%nat / 1)) in HI.
  pose proof (Sv (bal_sub "balance" [mkBal "P_tot" "psi" "N" "lhs:P_tot" "rhs:P_tot"] [] []) ltac:(insub) _ (or_introl eq_refl)) as HB.
  change (v "balance.lhs:P_tot" 0%nat / 1 = v "balance.rhs:P_tot" 0%nat / 1) in HB.
  rewrite (Cv "imp_out.impulse" "balance.lhs:P_tot"), HI in HB by insub. clear HI.
  rewrite (Cv "Fl_O:stat:P" "imp_out.P"), (Cv "Fl_O:stat:area" "imp_out.area"), (Cv "Fl_O:stat:W" "imp_out.W"), (Cv "Fl_O:stat:V" "imp_out.V") in HB by insub.
  rewrite (EI "balance.rhs:P_tot") in HB by (unfold LI; mem).
  rewrite (Es "P" ltac:(mem) : forall k, v "Fl_O:stat:P" k = _), (Es "area" ltac:(mem) : forall k, v "Fl_O:stat:area" k = _), (Es "W" ltac:(mem) : forall k, v "Fl_O:stat:W" k = _), (Es "V" ltac:(mem) : forall k, v "Fl_O:stat:V" k = _) in HB.
  unfold impulse_of, val. unfold Rdiv in HB. rewrite !Rinv_1, !Rmult_1_r in HB. exact HB.
Qed.

(* ---------- mixer: mass, energy and impulse are conserved; in design the designed stream is expanded to the other stream's static pressure ---------- *)
Theorem C48_mixer tp me a one design w : flow_adder a ["mix"] -> solves (mixer tp me a one design) w ->
  let i := if one then "Fl_I1" else "Fl_I2" in let j := if one then "Fl_I2" else "Fl_I1" in
  let calc := (i ++ "_calc:stat")%string in                          (* the designed stream at the mixing plane *)
  let h_i := val w (i ++ ":tot:h") in
  total_ok tp me w "Fl_O:tot" /\ same w "Fl_O:tot:composition" "flow_add.composition_out" /\
  (val w "Fl_O:stat:W" <> 0 -> val w "Fl_O:stat:W" = val w "Fl_I1:stat:W" + val w "Fl_I2:stat:W" /\
     val w "Fl_O:stat:W" * val w "Fl_O:tot:h" = val w "Fl_I1:stat:W" * val w "Fl_I1:tot:h" + val w "Fl_I2:stat:W" * val w "Fl_I2:tot:h") /\
  outlet_ok tp me false w "Fl_O:tot" "Fl_O:stat" "area" /\
  impulse_of w "Fl_O:stat" = impulse_of w calc + impulse_of w (j ++ ":stat") /\
  val w "ER" = val w "Fl_I1:tot:P" / val w "Fl_I2:tot:P" /\
  (* the designed stream *)
  station tp me (w (i ++ ":tot:composition")%string) w calc /\ val w (at_ calc "S") = val w (i ++ ":tot:S") /\ val w (at_ calc "W") = val w (i ++ ":stat:W") /\
  (design = true -> val w (at_ calc "P") = val w (j ++ ":stat:P") /\ val w "Fl_O:stat:area" = val w (at_ calc "area") + val w (j ++ ":stat:area") /\
     (0 < val w (at_ calc "gamma") -> 0 < val w (at_ calc "R") -> 0 < val w (at_ calc "T") -> val w (at_ calc "rho") <> 0 -> val w (at_ calc "h") < h_i -> static_ok w calc h_i)) /\
  (design = false -> let ar := val w (i ++ "_stat_calc.area") in val w (at_ calc "area") = ar /\
     (0 < val w (at_ calc "gamma") * val w (at_ calc "R") * val w (at_ calc "T") -> val w (at_ calc "rho") <> 0 -> h_i <> 0 -> ar <> 0 -> static_ok w calc h_i)).
Proof.
  intros Ha [Hs Hc] i j calc h_i. unfold mixer in Hs, Hc. cbn [subs conns] in Hs, Hc. fold i j in Hs, Hc.
  set (pa := [PA "Fl_I:stat:W" "Fl_I1:stat:W"; PA "Fl_I:tot:composition" "Fl_I1:tot:composition"; PA "Fl_I:tot:h" "Fl_I1:tot:h"; PA "mix:W" "Fl_I2:stat:W"; PA "mix:composition" "Fl_I2:tot:composition"; PA "mix:h" "Fl_I2:tot:h"]) in *.
  assert (Hs2 : forall s, In s [er_sub; add_sub "flow_add" a pa []; mix_impulse_sub one; group_sub "impulse_converge" (mix_conv tp me) [PG ""] [PG ""]] -> srel s (lin s w) (lout s w)) by (intros s H; apply Hs; do 2 (apply in_or_app; right); exact H).
  assert (Hc2 : forall x y, In (x, y) [("flow_add.composition_out", "out_tot.composition"); ("flow_add.mass_avg_h", "out_tot.h"); ("flow_add.composition_out", "out_stat.composition"); ("flow_add.Wout", "out_stat.W");
      ("flow_add.mass_avg_h", "out_stat.ht"); ("impulse_mix.impulse_mix", "balance.rhs:P_tot")] -> same w y x) by (intros x y H k; apply Hc; apply in_or_app; right; exact H).
  destruct (mix_conv_fact tp me w) as (T1 & T2 & T3 & T4 & T5 & T6 & T7).
  { apply Hs2. insub. }
  { intros k. rewrite (Hc2 "flow_add.composition_out" "out_stat.composition"), (Hc2 "flow_add.composition_out" "out_tot.composition") by mem. reflexivity. }
  { unfold val. rewrite (Hc2 "flow_add.mass_avg_h" "out_stat.ht"), (Hc2 "flow_add.mass_avg_h" "out_tot.h") by mem. reflexivity. }
  assert (EW : val w "Fl_O:stat:W" = val w "flow_add.Wout") by (rewrite T6; apply (Hc2 "flow_add.Wout" "out_stat.W"); mem).
  assert (Eh : val w "Fl_O:tot:h" = val w "flow_add.mass_avg_h") by (rewrite T3; apply (Hc2 "flow_add.mass_avg_h" "out_tot.h"); mem).
  assert (FA : val w "Fl_O:stat:W" <> 0 -> val w "Fl_O:stat:W" = val w "Fl_I1:stat:W" + val w "Fl_I2:stat:W" /\
     val w "Fl_O:stat:W" * val w "Fl_O:tot:h" = val w "Fl_I1:stat:W" * val w "Fl_I1:tot:h" + val w "Fl_I2:stat:W" * val w "Fl_I2:tot:h").
  { rewrite EW, Eh. intros HW. destruct (add_flow_facts "flow_add" a pa [] ["mix"] w Ha (Hs2 (add_sub "flow_add" a pa []) ltac:(insub)) HW) as [F1 F2]. cbn [lsum] in F1, F2.
    change (val w "flow_add.Wout" = val w "Fl_I1:stat:W" + (val w "Fl_I2:stat:W" + 0)) in F1.
    change (val w "flow_add.Wout" * val w "flow_add.mass_avg_h" = val w "Fl_I1:stat:W" * val w "Fl_I1:tot:h" + (val w "Fl_I2:stat:W" * val w "Fl_I2:tot:h" + 0)) in F2. lra. }
  assert (IM : impulse_of w "Fl_O:stat" = impulse_of w calc + impulse_of w (j ++ ":stat")).
  { rewrite T7. unfold val. rewrite (Hc2 "impulse_mix.impulse_mix" "balance.rhs:P_tot") by mem. pose proof (Hs2 (mix_impulse_sub one) ltac:(insub) (V "impulse_mix") ltac:(inp)) as HI. subst i j calc. destruct one.
    - change (w "impulse_mix.impulse_mix" 0%nat / 1 = (w "Fl_I1_calc:stat:P" 0%nat / 1 * (w "Fl_I1_calc:stat:area" 0%nat / 1) + w "Fl_I1_calc:stat:W" 0%nat / 1 * (w "Fl_I1_calc:stat:V" 0%nat / 1)) +
        (w "Fl_I2:stat:P" 0%nat / 1 * (w "Fl_I2:stat:area" 0%nat / 1) + w "Fl_I2:stat:W" 0%nat / 1 * (w "Fl_I2:stat:V" 0%nat / 1))) in HI.
      unfold Rdiv in HI. rewrite !Rinv_1, !Rmult_1_r in HI. exact HI.
    - change (w "impulse_mix.impulse_mix" 0%nat / 1 = (w "Fl_I1:stat:P" 0%nat / 1 * (w "Fl_I1:stat:area" 0%nat / 1) + w "Fl_I1:stat:W" 0%nat / 1 * (w "Fl_I1:stat:V" 0%nat / 1)) +
        (w "Fl_I2_calc:stat:P" 0%nat / 1 * (w "Fl_I2_calc:stat:area" 0%nat / 1) + w "Fl_I2_calc:stat:W" 0%nat / 1 * (w "Fl_I2_calc:stat:V" 0%nat / 1))) in HI.
      unfold Rdiv in HI. rewrite !Rinv_1, !Rmult_1_r in HI. rewrite HI. apply Rplus_comm. }
  assert (ER : val w "ER" = val w "Fl_I1:tot:P" / val w "Fl_I2:tot:P").
  { pose proof (Hs2 er_sub ltac:(insub)) as HE. change (w "ER" 0%nat / 1 = w "Fl_I1:tot:P" 0%nat / 1 / (w "Fl_I2:tot:P" 0%nat / 1)) in HE. unfold Rdiv in HE. rewrite !Rinv_1, !Rmult_1_r in HE. exact HE. }
  split; [exact T1|]. split; [intros k; rewrite T2; apply (Hc2 "flow_add.composition_out" "out_tot.composition"); mem|]. split; [exact FA|]. split; [exact T5|]. split; [exact IM|]. split; [exact ER|].
  clear FA IM ER T1 T2 T3 T4 T6 T7 EW Eh Hs2 Hc2. destruct T5 as (_ & _ & T5 & _). cbn [at_] in T5. change (val w "Fl_O:stat:area" = val w "area") in T5.
  destruct design.
  - assert (AR : val w "Fl_O:stat:area" = val w (at_ calc "area") + val w (j ++ ":stat:area")).
    { rewrite T5. pose proof (Hs (area_calc_sub one) ltac:(apply in_or_app; right; apply in_or_app; left; insub) (V "area_sum") ltac:(inp)) as HA. clear Hs. subst i j calc. destruct one.
      - change (w "area" 0%nat / 1 = w "area_calc.Fl_I1:stat:area" 0%nat / 1 + w "Fl_I2:stat:area" 0%nat / 1) in HA. rewrite (Hc "Fl_I1_calc:stat:area" "area_calc.Fl_I1:stat:area") in HA by insub.
        unfold Rdiv in HA. rewrite !Rinv_1, !Rmult_1_r in HA. exact HA.
      - change (w "area" 0%nat / 1 = w "Fl_I1:stat:area" 0%nat / 1 + w "area_calc.Fl_I2:stat:area" 0%nat / 1) in HA. rewrite (Hc "Fl_I2_calc:stat:area" "area_calc.Fl_I2:stat:area") in HA by insub.
        unfold Rdiv in HA. rewrite !Rinv_1, !Rmult_1_r in HA. rewrite Rplus_comm in HA. exact HA. }
    subst i j calc h_i. destruct one.
    + destruct (sub_Ps tp me "Fl_I1_stat_calc" "Fl_I1_calc:stat" "Fl_I1_calc:stat" ([PA "composition" "Fl_I1:tot:composition"; PA "S" "Fl_I1:tot:S"; PA "ht" "Fl_I1:tot:h"; PA "W" "Fl_I1:stat:W"] ++ [PA "Ps" "Fl_I2:stat:P"]) [PG "Fl_I1_calc:stat"] w) as ((P1 & P2 & P3) & P4 & P5);
        [okn|shw|apply Hs; apply in_or_app; right; apply in_or_app; left; left; reflexivity|].
      split; [exact P1|]. split; [exact P2|]. split; [apply (P3 0%nat)|]. split; [intros _|discriminate]. split; [apply (P4 0%nat)|]. split; [exact AR|exact P5].
    + destruct (sub_Ps tp me "Fl_I2_stat_calc" "Fl_I2_calc:stat" "Fl_I2_calc:stat" ([PA "composition" "Fl_I2:tot:composition"; PA "S" "Fl_I2:tot:S"; PA "ht" "Fl_I2:tot:h"; PA "W" "Fl_I2:stat:W"] ++ [PA "Ps" "Fl_I1:stat:P"]) [PG "Fl_I2_calc:stat:"] w) as ((P1 & P2 & P3) & P4 & P5);
        [okn|shw|apply Hs; apply in_or_app; right; apply in_or_app; left; left; reflexivity|].
      split; [exact P1|]. split; [exact P2|]. split; [apply (P3 0%nat)|]. split; [intros _|discriminate]. split; [apply (P4 0%nat)|]. split; [exact AR|exact P5].
  - subst i j calc h_i. destruct one.
    + destruct (sub_A tp me "Fl_I1_stat_calc" "Fl_I1_calc:stat" "Fl_I1_calc:stat" ([PA "composition" "Fl_I1:tot:composition"; PA "S" "Fl_I1:tot:S"; PA "ht" "Fl_I1:tot:h"; PA "W" "Fl_I1:stat:W"] ++ [PA "guess:Pt" "Fl_I1:tot:P"; PA "guess:gamt" "Fl_I1:tot:gamma"]) [PG "Fl_I1_calc:stat"] w) as ((P1 & P2 & P3) & P4 & P5);
        [okn|shw|apply Hs; apply in_or_app; right; apply in_or_app; left; left; reflexivity|].
      split; [exact P1|]. split; [exact P2|]. split; [apply (P3 0%nat)|]. split; [discriminate|]. intros _. split; [apply (P4 0%nat)|]. intros G1 G2 G3 G4. apply P5; [split; assumption|assumption|assumption].
    + destruct (sub_A tp me "Fl_I2_stat_calc" "Fl_I2_calc:stat" "Fl_I2_calc:stat" ([PA "composition" "Fl_I2:tot:composition"; PA "S" "Fl_I2:tot:S"; PA "ht" "Fl_I2:tot:h"; PA "W" "Fl_I2:stat:W"] ++ [PA "guess:Pt" "Fl_I2:tot:P"; PA "guess:gamt" "Fl_I2:tot:gamma"]) [PG "Fl_I2_calc:stat"] w) as ((P1 & P2 & P3) & P4 & P5);
        [okn|shw|apply Hs; apply in_or_app; right; apply in_or_app; left; left; reflexivity|].
      split; [exact P1|]. split; [exact P2|]. split; [apply (P3 0%nat)|]. split; [discriminate|]. intros _. split; [apply (P4 0%nat)|]. intros G1 G2 G3 G4. apply P5; [split; assumption|assumption|assumption].
Qed.
Print Assumptions C48_mixer.

(* chemical elements (CEA): of every element the outlet carries what the two streams bring in *)
Theorem C48_mixer_elements tp me c one design w o d1 d2 m :
  cea_setup o = Ok c -> wf_opts o -> o_mix o = Flows [d2] -> o_names o = ["mix"] -> o_inflow o = Some d1 -> cea_port_data o = Ok m ->
  solves (mixer tp me (ACea c) one design) w ->
  let wt := weight (o_spec o) in
  (forall x, In x (dkeys m) -> wt x <> 0) -> mass wt (sorted (dkeys d1)) (w "Fl_I1:tot:composition") <> 0 -> mass wt (sorted (dkeys d2)) (w "Fl_I2:tot:composition") <> 0 ->
  val w "Fl_I1:stat:W" + val w "Fl_I2:stat:W" <> 0 ->
  mass wt (sorted (dkeys m)) (w "Fl_O:tot:composition") = 1 /\
  forall x, val w "Fl_O:stat:W" * mass_fraction wt (sorted (dkeys m)) (w "Fl_O:tot:composition") x =
    val w "Fl_I1:stat:W" * mass_fraction wt (sorted (dkeys d1)) (w "Fl_I1:tot:composition") x + val w "Fl_I2:stat:W" * mass_fraction wt (sorted (dkeys d2)) (w "Fl_I2:tot:composition") x.
Proof.
  intros SU WF MX NM IN PD Hsol wt Hw Hm1 Hm2 HW.
  assert (Ha : flow_adder (ACea c) ["mix"]) by (exists o, [d2]; auto).
  destruct (C48_mixer tp me (ACea c) one design w Ha Hsol) as (_ & Co & _).
  destruct Hsol as [Hs Hc]. unfold mixer in Hs, Hc. cbn [subs conns] in Hs, Hc.
  set (pa := [PA "Fl_I:stat:W" "Fl_I1:stat:W"; PA "Fl_I:tot:composition" "Fl_I1:tot:composition"; PA "Fl_I:tot:h" "Fl_I1:tot:h"; PA "mix:W" "Fl_I2:stat:W"; PA "mix:composition" "Fl_I2:tot:composition"; PA "mix:h" "Fl_I2:tot:h"]) in *.
  assert (HA := Hs (add_sub "flow_add" (ACea c) pa []) ltac:(do 2 (apply in_or_app; right); insub)).
  assert (HG := Hs (group_sub "impulse_converge" (mix_conv tp me) [PG ""] [PG ""]) ltac:(do 2 (apply in_or_app; right); insub)).
  assert (Hc2 : forall x y, In (x, y) [("flow_add.composition_out", "out_tot.composition"); ("flow_add.mass_avg_h", "out_tot.h"); ("flow_add.composition_out", "out_stat.composition"); ("flow_add.Wout", "out_stat.W");
      ("flow_add.mass_avg_h", "out_stat.ht"); ("impulse_mix.impulse_mix", "balance.rhs:P_tot")] -> same w y x) by (intros x' y' H k; apply Hc; apply in_or_app; right; exact H).
  destruct (mix_conv_fact tp me w HG) as (_ & _ & _ & _ & _ & T6 & _).
  { intros k. rewrite (Hc2 "flow_add.composition_out" "out_stat.composition"), (Hc2 "flow_add.composition_out" "out_tot.composition") by mem. reflexivity. }
  { unfold val. rewrite (Hc2 "flow_add.mass_avg_h" "out_stat.ht"), (Hc2 "flow_add.mass_avg_h" "out_tot.h") by mem. reflexivity. }
  assert (EW : val w "Fl_O:stat:W" = val w "flow_add.Wout") by (rewrite T6; apply (Hc2 "flow_add.Wout" "out_stat.W"); mem).
  destruct (add_flow_elements "flow_add" (ACea c) pa [] ["mix"] w Ha HA o c [d2] d1 m eq_refl SU WF MX NM IN PD Hw Hm1) as (E1 & E3 & E2).
  - intros nd [<-|[]]. exact Hm2.
  - change (val w "Fl_I1:stat:W" + (val w "Fl_I2:stat:W" + 0) <> 0). rewrite Rplus_0_r. exact HW.
  - fold wt in E2, E3. assert (Cf : w "Fl_O:tot:composition" = w "flow_add.composition_out") by (apply functional_extensionality; exact Co). rewrite Cf.
    change (gname "flow_add" [] "Wout") with "flow_add.Wout" in E2. change (gname "flow_add" [] "composition_out") with "flow_add.composition_out" in E2, E3.
    split; [exact E3|]. intros x. rewrite EW, E2. cbn [combine lsum fst snd].
    change (gname "flow_add" pa ("mix" ++ ":W")) with "Fl_I2:stat:W". change (gname "flow_add" pa ("mix" ++ ":composition")) with "Fl_I2:tot:composition". rewrite Rplus_0_r. reflexivity.
Qed.
Print Assumptions C48_mixer_elements.
