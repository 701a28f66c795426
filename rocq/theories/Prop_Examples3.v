(* C67 concluded: targets met, and the first law, for the shipped engines. *)
From Coq Require Import Permutation Lia.
From Verif Require Import Lib_R Lib_Loop Spec_Wire Model_Thermo Proofs_Wire Prop_Static Prop_Thermo Prop_Elem1 Model_Elem1 Model_Elem2 Proofs_Elem Prop_Station Prop_Station2 Prop_Station3 Prop_Station4 Prop_Station5 Prop_Station6 Prop_Station7 Prop_Station8 Model_Cycle Prop_Cycle Model_Examples Data_Examples Prop_Examples Prop_Examples2.
Open Scope string_scope. Open Scope list_scope. Open Scope R_scope.

(* ---------- targets: (quantity, what it is to be equal to) ---------- *)
Definition T4 := "burner.Fl_O:tot:T".
Definition targets : list (example * list (string * string)) := [
  (x_Turbojet, [("perf.Fn", "balance.Fn_target"); (T4, "balance.T4_target")]); (x_Turbojet_od, [("perf.Fn", "balance.Fn_target"); ("nozz.Throat:stat:area", "balance.rhs:W")]);
  (x_WetTurbojet, [("perf.Fn", "balance.rhs:W"); (T4, "balance.rhs:FAR")]); (x_WetTurbojet_od, [("perf.Fn", "balance.rhs:FAR"); ("nozz.Throat:stat:area", "balance.rhs:W")]);
  (x_ABTurbojet, [("perf.Fn", "balance.rhs:W"); (T4, "balance.rhs:FAR")]); (x_ABTurbojet_od, [(T4, "balance.rhs:FAR"); ("comp.map.RlineMap", "balance.rhs:W")]);
  (x_Propulsor, [("fan.power", "pwr_target")]); (x_Propulsor_od, [("fan.power", "pwr_target"); ("nozz.Throat:stat:area", "balance.rhs:W")]);
  (x_WetPropulsor, [("fan.power", "pwr_target")]); (x_WetPropulsor_od, [("fan.power", "pwr_target"); ("nozz.Throat:stat:area", "balance.rhs:W")]);
  (x_SingleSpoolTurboshaft, [("nozz.PR", "balance.nozz_PR_target"); (T4, "balance.T4_target"); ("LP_shaft.pwr_net", "balance.pwr_target")]);
  (x_SingleSpoolTurboshaft_od, [("LP_shaft.pwr_net", "balance.pwr_target"); ("nozz.Throat:stat:area", "balance.rhs:W")]);
  (x_MultiSpoolTurboshaft, [("nozzle.PR", "balance.rhs:W"); (T4, "balance.rhs:FAR")]);
  (x_MultiSpoolTurboshaft_od, [("lp_shaft.pwr_net", "balance.rhs:FAR"); ("nozzle.Throat:stat:area", "balance.rhs:W")]);
  (x_HBTF, [("perf.Fn", "Fn_DES"); (T4, "T4_MAX")]); (x_HBTF_od, [(T4, "T4_MAX"); ("core_nozz.Throat:stat:area", "balance.rhs:W"); ("byp_nozz.Throat:stat:area", "balance.rhs:BPR")]);
  (x_HBTF_od_pc, [("core_nozz.Throat:stat:area", "balance.rhs:W"); ("byp_nozz.Throat:stat:area", "balance.rhs:BPR")]);
  (x_MixedFlowTurbofan, [("perf.Fn", "balance.rhs:W"); ("mixer.ER", "balance.rhs:BPR"); (T4, "balance.rhs:FAR_core"); ("afterburner.Fl_O:tot:T", "balance.rhs:FAR_ab")]);
  (x_MixedFlowTurbofan_od, [("mixed_nozz.Throat:stat:area", "balance.rhs:W"); ("mixer.Fl_I1_calc:stat:P", "bypass_duct.Fl_O:stat:P"); (T4, "balance.rhs:FAR_core"); ("afterburner.Fl_O:tot:T", "balance.rhs:FAR_ab")]);
  (x_N3, [(T4, "balance.rhs:FAR"); ("fan.eff_poly", "balance.rhs:fan_eff"); ("lpc.eff_poly", "balance.rhs:lpc_eff"); ("hpt.eff_poly", "balance.rhs:hpt_eff"); ("lpt.eff_poly", "balance.rhs:lpt_eff")]);
  (x_N3_cooling, [(T4, "balance.rhs:FAR"); ("fan.eff_poly", "balance.rhs:fan_eff"); ("lpc.eff_poly", "balance.rhs:lpc_eff"); ("hpt.eff_poly", "balance.rhs:hpt_eff"); ("lpt.eff_poly", "balance.rhs:lpt_eff");
                  ("bld3.bld_inlet:stat:W", "hpt_cooling.row_0.W_cool"); ("bld3.bld_exit:stat:W", "hpt_chargable.W_cool")]);
  (x_N3_od, [("perf.Fn", "balance.rhs:FAR"); ("core_nozz.Throat:stat:area", "balance.rhs:W"); ("fan.map.RlineMap", "balance.rhs:BPR")]);
  (x_N3_od_cooling, [("perf.Fn", "balance.rhs:FAR"); ("core_nozz.Throat:stat:area", "balance.rhs:W"); ("fan.map.RlineMap", "balance.rhs:BPR");
                  ("bld3.bld_inlet:stat:W", "hpt_cooling.row_0.W_cool"); ("bld3.bld_exit:stat:W", "hpt_chargable.W_cool")]) ].
Definition rhs_b (x : example) (b : xbal) (t : string) : bool :=
  let r := ("balance." ++ xb_rhs b)%string in
  if String.eqb t r then true else if conn_b x t r then true else existsb (promo_eqb ("balance", (xb_rhs b, t))) (x_promos x).
Definition target_b (x : example) (qt : string * string) : bool := bal_b x (fst qt) (fun b => if xb_mult b then false else rhs_b x b (snd qt)).
Lemma targets_ok : forallb (fun xt => forallb (target_b (fst xt)) (snd xt)) targets = true. Proof. vm_compute. match goal with |- true = true => reflexivity end. Qed.
(* a converged example meets the targets its balances are there for *)
Theorem C67_targets : map fst targets = examples /\ forall tp x ts q t els w, In (x, ts) targets -> In (q, t) ts -> cycle_converged tp x els w -> w q 0%nat = w t 0%nat.
Proof.
  split; [reflexivity|]. intros tp x ts q t els w Hx Ht C. assert (K := targets_ok). rewrite forallb_forall in K. specialize (K _ Hx). cbn [fst snd] in K. rewrite forallb_forall in K. specialize (K _ Ht).
  unfold target_b in K. cbn [fst snd] in K. destruct (bal_ok _ _ _ _ _ _ C K) as (b & Hb & E). destruct (xb_mult b); [discriminate|]. unfold rhs_b in Hb. cbv zeta in Hb. rewrite Rmult_1_l in E. rewrite E. clear E.
  destruct (String.eqb t _) eqn:E1; [apply String.eqb_eq in E1; subst; reflexivity|]. destruct (conn_b x t _) eqn:E2; [apply conn_ok in E2; apply (cv_conn _ _ _ _ C _ _ E2)|].
  apply existsb_exists in Hb as ([n [v a]] & Hp & E). unfold promo_eqb in E. cbn [fst snd] in E. stepk E X. apply String.eqb_eq in X. apply port_eqb_eq in E. injection E as <- <-. subst n. exact (cv_promo _ _ _ _ C _ _ _ Hp 0%nat).
Qed.
(* the high-bypass turbofan in part-power mode delivers the fraction PC of Fn_max *)
Theorem C67_part_power tp els w : cycle_converged tp x_HBTF_od_pc els w -> w "perf.Fn" 0%nat = w "PC" 0%nat * w "Fn_max" 0%nat.
Proof.
  intros C. assert (E := cv_bal _ _ _ _ C (mkXBal "FAR" "" "lbf" "rhs:FAR" true) ltac:(left; reflexivity)). cbn [xb_mult xb_name xb_rhs] in E.
  assert (E1 := cv_promo _ _ _ _ C "balance" "mult:FAR" "PC" ltac:(cbn; tauto) 0%nat). assert (E2 := cv_promo _ _ _ _ C "balance" "lhs:FAR" "Fn_max" ltac:(cbn; tauto) 0%nat).
  assert (E3 := cv_conn _ _ _ _ C "perf.Fn" "balance.rhs:FAR" ltac:(cbn; tauto) 0%nat). rewrite <- E1, <- E2, <- E3. symmetry. exact E.
Qed.

(* ---------- the first law ---------- *)
(* what an element puts into the gas, in W: heat of a duct, enthalpy of the fuel, minus the power of a compressor or turbine *)
Definition power_W (w : state) (n : string) : R := power_hp w n / BTU_s2HP * ufac "Btu/s".
Definition x_energy (w : state) (nc : string * eclass) : R :=
  let v := local w (fst nc) in
  match snd nc with
  | XDuct _ => val v "Q_dot" | XCombustor _ => val v "Wfuel" * val v "mix_fuel.mix:h"
  | XCompressor _ | XTurbine _ => - power_W w (fst nc) | _ => 0 end.
Definition after (links : list link) : list link := filter (fun k => if String.eqb (fst (l_src k)) "fc" then false else negb (String.eqb (fst (l_src k)) "inlet")) links.
Definition energy_b (g : engine) : bool :=
  let x := g_ex g in let ks := after (x_links x) in let l := skipn 2 (x_els x) in
  match x_els x with
  | ("fc", XFlight _) :: ("inlet", XInlet) :: l =>
      if forallb (fun nc => match snd nc with XFlight _ | XInlet => false | _ => true end) l then
      if net_b l ks then if forallb l_w ks then if forallb l_tot ks then
      if exit_b (filter (fun p => negb (used p (map l_src ks))) (x_ports x_out l)) (g_exits g) then
      existsb (fun k => if port_eqb (l_src k) ("inlet", "Fl_O") then if l_w k then if l_tot k then exit_b (filter (fun p => negb (used p (map l_tgt ks))) (x_ports x_in l)) (l_tgt k :: nil) else false else false else false) (x_links x)
      else false else false else false else false else false
  | _ => false end.
Lemma energies_ok : forallb energy_b engines = true. Proof. vm_compute. match goal with |- true = true => reflexivity end. Qed.
Lemma energy_sum w l els : Forall2 rel l els -> (forall nc, In nc l -> match snd nc with XFlight _ | XInlet => False | _ => True end) -> lsum (energy_in w) els = lsum (x_energy w) l.
Proof.
  induction 1 as [|[n c] [m k] l els [E C] _ IH]; intros NF; [reflexivity|]. cbn in E. subst m. rewrite !lsum_c, IH by (intros; apply NF; right; assumption). f_equal.
  specialize (NF (n, c) (or_introl eq_refl)). cbn in NF. destruct c as [[[rt ra]|]| | | | | | | | |]; try contradiction NF; cbn in C; unclass C; reflexivity.
Qed.
(* the enthalpy that leaves through nozzles and overboard bleeds is that of the air behind the inlet plus fuel and heat, less shaft power *)
Theorem C67_energy tp g els w : one_enthalpy tp -> In g engines -> at_point tp (g_ex g) els w ->
  enth_flow w ("inlet", "Fl_O") + lsum (x_energy w) (x_els (g_ex g)) = lsum (enth_flow w) (g_exits g).
Proof.
  intros OE Hg (B & M & C & Rg). assert (K := energies_ok). rewrite forallb_forall in K. specialize (K g Hg). unfold energy_b in K. cbv zeta in K.
  assert (N := proj1 (proj2 C67_network g els Hg B M)). destruct (cv_run _ _ _ _ C) as [R1 R2]. set (ks := after (x_links (g_ex g))) in *. unfold builds in B.
  assert (exists rt l, x_els (g_ex g) = ("fc", XFlight rt) :: ("inlet", XInlet) :: l /\ forallb (fun nc => match snd nc with XFlight _ | XInlet => false | _ => true end) l = true /\ net_b l ks = true /\ forallb l_w ks = true /\ forallb l_tot ks = true /\
     filter (fun p => negb (used p (map l_src ks))) (x_ports x_out l) = g_exits g /\ exists k, In k (x_links (g_ex g)) /\ l_src k = ("inlet", "Fl_O") /\ l_w k = true /\ l_tot k = true /\ filter (fun p => negb (used p (map l_tgt ks))) (x_ports x_in l) = l_tgt k :: nil) as (rt & l & El & F1 & F2 & F3 & F4 & F5 & k & Hk & F6 & F7 & F8 & F9).
  { clear - K. destruct (x_els (g_ex g)) as [|[n c] [|[n2 c2] l]]; try discriminate K.
    { exfalso. revert K. repeat (destruct n as [|[[|] [|] [|] [|] [|] [|] [|] [|]] n]; try discriminate). destruct c; discriminate. }
    assert (n = "fc" /\ (exists rt, c = XFlight rt) /\ n2 = "inlet" /\ c2 = XInlet) as (-> & [rt ->] & -> & ->).
    { revert K. repeat (destruct n as [|[[|] [|] [|] [|] [|] [|] [|] [|]] n]; try discriminate). destruct c; try discriminate.
      repeat (destruct n2 as [|[[|] [|] [|] [|] [|] [|] [|] [|]] n2]; try discriminate). destruct c2; try discriminate. eauto 6. }
    exists rt, l. stepk K X1. stepk K X2. stepk K X3. stepk K X4. stepk K X5. apply exit_ok in X5. repeat (match goal with |- _ /\ _ => split end; [first [reflexivity|assumption]|]).
    apply existsb_exists in K as (k & Hk & K). stepk K Y1. stepk K Y2. stepk K Y3. apply exit_ok in K. apply port_eqb_eq in Y1. exists k. auto. }
  rewrite El in B |- *. inversion B as [|a [m kf] l' els' [Ef Ck] F]; subst. inversion F as [|a [m2 k2] l2 els2 [Ef2 Ck2] F']; subst. cbn in Ef, Ef2. subst m m2.
  assert (N2 : network els2 ks) by (apply (net_ok l); [exact F2|exact F'|intros nk Hn; apply M; right; right; exact Hn]).
  assert (Rn : running tp (x_method (g_ex g)) (x_design (g_ex g)) els2 ks w).
  { split; [intros n c Hn; apply R1; right; right; exact Hn|]. intros k' Hk'. apply R2. unfold ks, after in Hk'. apply filter_In in Hk'. tauto. }
  rewrite forallb_forall in F3, F4.
  assert (P : port_ok tp (x_method (g_ex g)) w (l_tgt k)) by (apply (proj2 (C41_stations _ _ _ _ _ _ N (conj R1 R2)) k Hk F8)).
  assert (O1 : open_in els2 ks = l_tgt k :: nil) by (rewrite (open_in_x _ _ _ F'); exact F9). assert (O2 : open_out els2 ks = g_exits g) by (rewrite (open_out_x _ _ _ F'); exact F5).
  assert (E := C41_energy tp (x_method (g_ex g)) (x_design (g_ex g)) els2 ks w OE N2 ltac:(intros k' Hk'; split; [apply F3|apply F4]; exact Hk') Rn ltac:(intros nk Hn; apply Rg; right; right; exact Hn)
     ltac:(intros n c Hn _ Ho; rewrite O1 in Ho; destruct Ho as [Ho|[]]; rewrite <- Ho; exact P)).
  rewrite O1, O2, lsum1 in E. rewrite !lsum_c. rewrite (energy_sum w l els2 F') in E.
  2: { rewrite forallb_forall in F1. intros nc Hn. specialize (F1 nc Hn). destruct (snd nc); try discriminate; exact Logic.I. }
  rewrite (link_enth tp (x_method (g_ex g)) (x_design (g_ex g)) _ (x_links (g_ex g)) w k (conj R1 R2) Hk F7 F8), F6 in E. unfold x_energy at 1 2. cbn [snd]. lra.
Qed.
