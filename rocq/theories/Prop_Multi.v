(* C68: the off-design point of a shipped multi-point engine, run at the design condition, is solved by the design solution. *)
From Coq Require Import FunctionalExtensionality Lia.
From Verif Require Import Lib_R Lib_Loop Spec_Wire Model_Thermo Proofs_Wire Prop_Static Prop_Thermo Prop_Elem1 Model_Elem1 Model_Elem2 Proofs_Elem Proofs_Elem2 Prop_Station Prop_Station2 Prop_Station3 Prop_Station8 Model_Cycle Prop_Cycle Proofs_OD Prop_OD Prop_Map Prop_OD2 Prop_OD3 Model_Shaft Model_Examples Data_Examples Prop_Examples Prop_Examples2 Model_Multi Data_Multi Proofs_Multi.
Open Scope string_scope. Open Scope list_scope. Open Scope R_scope.

(* ---------- the values of the off-design point's balances and inputs: for each a variable of the design point with the same value, or a number ---------- *)
Open Scope Z_scope.
Definition witness : list (multi * list (string * src)) := [
  (m_Turbojet, [("balance.FAR", SV "burner.Fl_I:FAR"); ("balance.lhs:FAR", SV "perf.Fn"); ("balance.Fn_target", SV "perf.Fn"); ("balance.Nmech", SV "Nmech"); ("balance.lhs:Nmech", SV "shaft.pwr_net"); ("balance.rhs:Nmech", SV "balance.rhs:turb_PR"); ("balance.W", SV "inlet.Fl_I:stat:W"); ("balance.lhs:W", SV "nozz.Throat:stat:area"); ("balance.rhs:W", SV "nozz.Throat:stat:area")]);
  (m_WetTurbojet, [("balance.FAR", SV "burner.Fl_I:FAR"); ("balance.lhs:FAR", SV "perf.Fn"); ("balance.rhs:FAR", SV "perf.Fn"); ("balance.Nmech", SV "Nmech"); ("balance.lhs:Nmech", SV "shaft.pwr_net"); ("balance.rhs:Nmech", SV "balance.rhs:turb_PR"); ("balance.W", SV "inlet.Fl_I:stat:W"); ("balance.lhs:W", SV "nozz.Throat:stat:area"); ("balance.rhs:W", SV "nozz.Throat:stat:area")]);
  (m_ABTurbojet, [("balance.FAR", SV "burner.Fl_I:FAR"); ("balance.lhs:FAR", SV "burner.Fl_O:tot:T"); ("balance.rhs:FAR", SV "burner.Fl_O:tot:T"); ("balance.Nmech", SV "Nmech"); ("balance.lhs:Nmech", SV "shaft.pwr_in"); ("balance.rhs:Nmech", SV "shaft.pwr_out"); ("balance.mult:Nmech", SC (-1, 0)); ("balance.W", SV "inlet.Fl_I:stat:W"); ("balance.lhs:W", SV "comp.map.RlineMap"); ("balance.rhs:W", SC (2, 0))]);
  (m_Propulsor, [("balance.W", SV "fc.W"); ("balance.lhs:W", SV "nozz.Throat:stat:area"); ("balance.rhs:W", SV "nozz.Throat:stat:area"); ("balance.Nmech", SV "fan.Nmech"); ("balance.lhs:Nmech", SV "fan.power"); ("balance.rhs:Nmech", SV "pwr_target")]);
  (m_WetPropulsor, [("balance.W", SV "fc.W"); ("balance.lhs:W", SV "nozz.Throat:stat:area"); ("balance.rhs:W", SV "nozz.Throat:stat:area"); ("balance.Nmech", SV "fan.Nmech"); ("balance.lhs:Nmech", SV "fan.power"); ("balance.rhs:Nmech", SV "pwr_target")]);
  (m_SingleSpoolTurboshaft, [("balance.FAR", SV "burner.Fl_I:FAR"); ("balance.lhs:FAR", SV "LP_shaft.pwr_net"); ("balance.pwr_target", SV "LP_shaft.pwr_net"); ("balance.HP_Nmech", SV "HP_Nmech"); ("balance.lhs:HP_Nmech", SV "HP_shaft.pwr_net"); ("balance.rhs:HP_Nmech", SV "balance.rhs:turb_PR"); ("balance.W", SV "inlet.Fl_I:stat:W"); ("balance.lhs:W", SV "nozz.Throat:stat:area"); ("balance.rhs:W", SV "nozz.Throat:stat:area")]);
  (m_MultiSpoolTurboshaft, [("balance.FAR", SV "burner.Fl_I:FAR"); ("balance.lhs:FAR", SV "lp_shaft.pwr_net"); ("balance.rhs:FAR", SV "lp_shaft.pwr_net"); ("balance.W", SV "inlet.Fl_I:stat:W"); ("balance.lhs:W", SV "nozzle.Throat:stat:area"); ("balance.rhs:W", SV "nozzle.Throat:stat:area"); ("balance.IP_Nmech", SV "IP_Nmech"); ("balance.lhs:IP_Nmech", SV "ip_shaft.pwr_net"); ("balance.rhs:IP_Nmech", SV "balance.rhs:lpt_PR"); ("balance.HP_Nmech", SV "HP_Nmech"); ("balance.lhs:HP_Nmech", SV "hp_shaft.pwr_net"); ("balance.rhs:HP_Nmech", SV "balance.rhs:hpt_PR")]);
  (m_HBTF, [("balance.FAR", SV "burner.Fl_I:FAR"); ("balance.lhs:FAR", SV "burner.Fl_O:tot:T"); ("balance.rhs:FAR", SV "T4_MAX"); ("balance.W", SV "fc.W"); ("balance.lhs:W", SV "core_nozz.Throat:stat:area"); ("balance.rhs:W", SV "core_nozz.Throat:stat:area"); ("balance.BPR", SV "splitter.BPR"); ("balance.lhs:BPR", SV "byp_nozz.Throat:stat:area"); ("balance.rhs:BPR", SV "byp_nozz.Throat:stat:area"); ("balance.lp_Nmech", SV "LP_Nmech"); ("balance.lhs:lp_Nmech", SV "lp_shaft.pwr_in_real"); ("balance.rhs:lp_Nmech", SV "lp_shaft.pwr_out_real"); ("balance.mult:lp_Nmech", SV "balance.mult:lpt_PR"); ("balance.hp_Nmech", SV "HP_Nmech"); ("balance.lhs:hp_Nmech", SV "hp_shaft.pwr_in_real"); ("balance.rhs:hp_Nmech", SV "hp_shaft.pwr_out_real"); ("balance.mult:hp_Nmech", SV "balance.mult:hpt_PR")]);
  (m_HBTF_od_pc, [("balance.FAR", SV "burner.Fl_I:FAR"); ("balance.lhs:FAR", SV "perf.Fn"); ("Fn_max", SV "perf.Fn"); ("balance.rhs:FAR", SV "perf.Fn"); ("balance.mult:FAR", SC (1, 0)); ("PC", SC (1, 0)); ("balance.W", SV "fc.W"); ("balance.lhs:W", SV "core_nozz.Throat:stat:area"); ("balance.rhs:W", SV "core_nozz.Throat:stat:area"); ("balance.BPR", SV "splitter.BPR"); ("balance.lhs:BPR", SV "byp_nozz.Throat:stat:area"); ("balance.rhs:BPR", SV "byp_nozz.Throat:stat:area"); ("balance.lp_Nmech", SV "LP_Nmech"); ("balance.lhs:lp_Nmech", SV "lp_shaft.pwr_in_real"); ("balance.rhs:lp_Nmech", SV "lp_shaft.pwr_out_real"); ("balance.mult:lp_Nmech", SV "balance.mult:lpt_PR"); ("balance.hp_Nmech", SV "HP_Nmech"); ("balance.lhs:hp_Nmech", SV "hp_shaft.pwr_in_real"); ("balance.rhs:hp_Nmech", SV "hp_shaft.pwr_out_real"); ("balance.mult:hp_Nmech", SV "balance.mult:hpt_PR")]);
  (m_MixedFlowTurbofan, [("balance.W", SV "fc.W"); ("balance.lhs:W", SV "mixed_nozz.Throat:stat:area"); ("balance.rhs:W", SV "mixed_nozz.Throat:stat:area"); ("balance.BPR", SV "splitter.BPR"); ("balance.lhs:BPR", SV "mixer.Fl_I1_calc:stat:P"); ("balance.rhs:BPR", SV "bypass_duct.Fl_O:stat:P"); ("balance.FAR_core", SV "burner.Fl_I:FAR"); ("balance.lhs:FAR_core", SV "burner.Fl_O:tot:T"); ("balance.rhs:FAR_core", SV "burner.Fl_O:tot:T"); ("balance.FAR_ab", SV "afterburner.Fl_I:FAR"); ("balance.lhs:FAR_ab", SV "afterburner.Fl_O:tot:T"); ("balance.LP_Nmech", SV "LP_Nmech"); ("balance.lhs:LP_Nmech", SV "lp_shaft.pwr_in"); ("balance.rhs:LP_Nmech", SV "lp_shaft.pwr_out"); ("balance.mult:LP_Nmech", SV "balance.mult:lpt_PR"); ("balance.HP_Nmech", SV "HP_Nmech"); ("balance.lhs:HP_Nmech", SV "hp_shaft.pwr_in"); ("balance.rhs:HP_Nmech", SV "hp_shaft.pwr_out"); ("balance.mult:HP_Nmech", SV "balance.mult:hpt_PR")]);
  (m_N3, [("balance.FAR", SV "burner.Fl_I:FAR"); ("balance.lhs:FAR", SV "perf.Fn"); ("balance.rhs:FAR", SV "perf.Fn"); ("balance.W", SV "fc.W"); ("balance.lhs:W", SV "core_nozz.Throat:stat:area"); ("balance.rhs:W", SV "core_nozz.Throat:stat:area"); ("balance.BPR", SV "splitter.BPR"); ("balance.lhs:BPR", SV "fan.map.RlineMap"); ("balance.rhs:BPR", SV "fan.map.RlineMap"); ("balance.fan_Nmech", SV "Fan_Nmech"); ("balance.lhs:fan_Nmech", SV "fan_shaft.pwr_net"); ("balance.rhs:fan_Nmech", SV "balance.rhs:gb_trq"); ("balance.lp_Nmech", SV "LP_Nmech"); ("balance.lhs:lp_Nmech", SV "lp_shaft.pwr_net"); ("balance.rhs:lp_Nmech", SV "balance.rhs:lpt_PR"); ("balance.hp_Nmech", SV "HP_Nmech"); ("balance.lhs:hp_Nmech", SV "hp_shaft.pwr_net"); ("balance.rhs:hp_Nmech", SV "balance.rhs:hpt_PR")])].
Open Scope R_scope.
Definition full (p : multi * list (string * src)) : list (string * src) := flat_map elem_T (x_els (m_des (fst p))) ++ snd p.
Definition specials (m : multi) : list string := if String.eqb (m_name m) "MPABTurbojet" then ["Nmech"; "W"] else [].
Definition extras (m : multi) : list (string * string) :=
  if String.eqb (m_name m) "MPMixedFlowTurbofan" then [("mixer.Fl_I2:stat:P", "mixer.Fl_I1_calc:stat:P"); ("mixer.area", "mixer.Fl_O:stat:area")] else [].

(* ---------- the statement ---------- *)
(* the inputs that only the off-design elements have, and that hold what the design point found (areas), and, for outlets and maps, the internal names
   of quantities which are outputs of the element in one kind of point and inputs of its parts in the other *)
Definition sizing (c : eclass) : list string :=
  match c with
  | XFlight _ | XNozzle _ _ => []
  | XInlet | XDuct _ | XBleedOut _ | XCombustor _ => ["area"; "out_stat.MN"]
  | XSplitter => ["area1"; "area2"; "out1_stat.MN"; "out2_stat.MN"]
  | XCompressor _ => ["area"; "out_stat.MN"; "map.scaledOutput.Nc"; "map.scaledOutput.Wc"]
  | XTurbine _ => ["area"; "out_stat.MN"; "map.scaledOutput.Np"; "map.scaledOutput.Wp"]
  | XMixer one => if one then ["Fl_I1_stat_calc.area"; "Fl_I1_stat_calc.Ps"] else ["Fl_I2_stat_calc.area"; "Fl_I2_stat_calc.Ps"]
  end.
(* both points show the same engine at the same condition: every variable of every element (but those), shaft, gearbox and performance summary is the same *)
Definition same_engine (x : example) (w w' : state) : Prop :=
  (forall n c, In (n, c) (x_els x) -> forall v, ~ In v (sizing c) -> forall i, local w' n v i = local w n v i) /\
  (forall n, In n (map fst (x_shafts x) ++ x_gears x ++ map fst (x_perfs x)) -> forall v i, local w' n v i = local w n v i).
(* the afterburning turbojet's off-design point fixes the compressor's R-line at 2 and leaves power extraction and friction out of its shaft balance *)
Definition ab_point (w : state) : Prop := w "shaft.HPX" 0%nat + w "shaft.fracLoss" 0%nat * w "shaft.pwr_in" 0%nat = 0 /\ w "comp.map.RlineMap" 0%nat = 2.

(* ---------- checks ---------- *)
Definition eqs (a b : list string) : bool := same_b String.eqb a b.
Definition sys_b (p : multi * list (string * src)) : bool :=
  let m := fst p in let xd := m_des m in let xo := m_od m in let T := full p in
  if forallb (fun nc => bleeds_b (snd nc)) (x_els xd) then if edges_b xd xo T then if names_b xo T then if bals_b xd xo T (extras m) (specials m) then if free_b xd xo T then
  if (let E := edges xd ++ extras m in forallb (fun c => eq_b E (tv T (snd c)) (SV (fst c))) (des_od m)) then
  (let E := edges xd ++ extras m in forallb (fun c => eq_b E (tv T c) (SV c)) (m_params m)) else false else false else false else false else false else false.
Definition rest_of (m : multi) : list (string * src) := match find (fun p => String.eqb (x_name (m_od (fst p))) (x_name (m_od m))) witness with Some p => snd p | None => [] end.
Lemma sys_all : forallb (fun m => sys_b (m, rest_of m)) multis = true. Proof. vm_compute. match goal with |- true = true => reflexivity end. Qed.
Ltac each_multi H := unfold multis in H; cbn [In] in H; repeat destruct H as [<-|H]; try contradiction.
Lemma multi_mf m : In m multis -> String.eqb (m_name m) "MPMixedFlowTurbofan" = true -> m = m_MixedFlowTurbofan.
Proof. intros H E. each_multi H; try discriminate E; reflexivity. Qed.
Lemma multi_ab m : In m multis -> String.eqb (m_name m) "MPABTurbojet" = true -> m = m_ABTurbojet.
Proof. intros H E. each_multi H; try discriminate E; reflexivity. Qed.
Lemma multi_pc m : In m multis -> x_name (m_od m) = "HBTF_od_pc" -> m = m_HBTF_od_pc.
Proof. intros H E. each_multi H; try discriminate E; reflexivity. Qed.
Lemma multi_same m : In m multis -> x_els (m_od m) = x_els (m_des m) /\ x_method (m_od m) = x_method (m_des m) /\ x_shafts (m_od m) = x_shafts (m_des m) /\ x_gears (m_od m) = x_gears (m_des m) /\ x_perfs (m_od m) = x_perfs (m_des m) /\
  x_design (m_des m) = true /\ x_design (m_od m) = false.
Proof. intros H. each_multi H; repeat split. Qed.
Lemma class_sizing c : map snd (class_conns c) = sizing c.
Proof. destruct c as [| | | | | | | | |[]]; reflexivity. Qed.

(* ---------- the two engines that need an argument of their own ---------- *)
Lemma mixer_extra tp els w : builds x_MixedFlowTurbofan els -> (forall nk, In nk els -> made nk) -> cycle_converged tp x_MixedFlowTurbofan els w -> tp_local tp -> (forall n k, In (n, k) els -> runs k (local w n)) ->
  w "mixer.Fl_I1_calc:stat:P" 0%nat = w "mixer.Fl_I2:stat:P" 0%nat /\ w "mixer.Fl_O:stat:area" 0%nat = w "mixer.area" 0%nat.
Proof.
  intros B M C L Rn. assert (exists k, In ("mixer", k) els /\ is_class (XMixer true) k) as (k & Hk & Ck). { apply (rel_has _ _ _ _ B). cbn. tauto. }
  cbn in Ck. destruct Ck as [a ->]. assert (S := proj1 (cv_run _ _ _ _ C) _ _ Hk). assert (Hm := M _ Hk). assert (Hr := Rn _ _ Hk). cbn [egroup] in S. cbn in Hm, Hr.
  split; [|exact (proj2 (C54_mixer tp _ a true _ L Hr S))].
  destruct (C48_mixer tp _ a true true _ Hm S) as (_ & _ & _ & _ & _ & _ & _ & _ & _ & H & _). exact (proj1 (H eq_refl)).
Qed.
Lemma ab_net tp els w : cycle_converged tp x_ABTurbojet els w ->
  (w "shaft.HPX" 0%nat + w "shaft.fracLoss" 0%nat * w "shaft.pwr_in" 0%nat = 0 -> w "shaft.pwr_in" 0%nat + w "shaft.pwr_out" 0%nat = 0) /\
  (w "shaft.Nmech" 0%nat <> 0 -> w "shaft.pwr_in" 0%nat + w "shaft.pwr_out" 0%nat = 0 -> w "shaft.HPX" 0%nat + w "shaft.fracLoss" 0%nat * w "shaft.pwr_in" 0%nat = 0).
Proof.
  intros C. assert (S := cv_shaft _ _ _ _ C "shaft" 2%nat ltac:(cbn; tauto)). set (e := comp_env sh_unit w "shaft") in *.
  assert (E1 := S (V "pwr_in") ltac:(cbn; tauto)). assert (E2 := S (V "pwr_out") ltac:(cbn; tauto)). assert (E3 := S (V "pwr_net") ltac:(cbn; tauto)).
  cbn [shaft compute] in E1, E2, E3. unfold sh_compute in E1, E2, E3. cbv zeta in E1, E2, E3. revert E1 E2 E3. vsimp. intros E1 E2 E3.
  assert (Bal := cv_bal _ _ _ _ C (mkXBal "turb_PR" "" "hp" "rhs:turb_PR" false) ltac:(cbn; tauto)). cbn [xb_mult xb_name xb_rhs] in Bal.
  assert (Fr := cv_free _ _ _ _ C "balance.rhs:turb_PR" "hp" (0, 0)%Z ltac:(cbn; tauto)). assert (Cn := cv_conn _ _ _ _ C "shaft.pwr_net" "balance.lhs:turb_PR" ltac:(cbn; tauto) 0%nat).
  change ("balance." ++ "rhs:turb_PR")%string with "balance.rhs:turb_PR" in Bal. change ("balance.lhs:" ++ "turb_PR")%string with "balance.lhs:turb_PR" in Bal. rewrite Cn, Fr in Bal. unfold dR in Bal. cbn in Bal.
  assert (U := ufac_n0 "hp"). assert (Z : e (V "pwr_net") = 0) by (change (w "shaft.pwr_net" 0%nat / ufac "hp" = 0); replace (w "shaft.pwr_net" 0%nat) with 0 by lra; unfold Rdiv; ring).
  assert (F : w "shaft.fracLoss" 0%nat = e (V "fracLoss")) by (change (w "shaft.fracLoss" 0%nat = w "shaft.fracLoss" 0%nat / 1); field).
  assert (G : forall x, sh_unit x = "hp" -> w ("shaft." ++ x)%string 0%nat = e (V x) * ufac "hp").
  { intros x Hx. change (e (V x)) with (w ("shaft." ++ x)%string 0%nat / ufac (sh_unit x)). rewrite Hx. field. exact U. }
  assert (G1 := G "pwr_in" eq_refl). assert (G2 := G "pwr_out" eq_refl). assert (G3 := G "HPX" eq_refl). cbn [String.append] in G1, G2, G3. rewrite F, G1, G2, G3.
  assert (Nn : w "shaft.Nmech" 0%nat = e (V "Nmech") * ufac "rpm") by (change (w "shaft.Nmech" 0%nat = w "shaft.Nmech" 0%nat / ufac "rpm" * ufac "rpm"); field; apply ufac_n0).
  assert (Hc : sh_convert <> 0) by (pose proof PI_RGT_0; unfold sh_convert; lra).
  destruct (Req_dec (e (V "Nmech")) 0) as [N0|N0].
  - rewrite N0 in E1, E2. assert (e (V "pwr_in") = 0) by (rewrite E1; ring). assert (e (V "pwr_out") = 0) by (rewrite E2; ring). split; [intros _; rewrite H, H0; ring|]. intros K. exfalso. apply K. rewrite Nn, N0. ring.
  - assert (D : 0 = (e (V "pwr_in") + e (V "pwr_out")) - (e (V "HPX") + e (V "fracLoss") * e (V "pwr_in"))) by (rewrite <- Z, E3, E1, E2; field; auto).
    split; [intros H|intros _ H].
    + assert (K : (e (V "HPX") + e (V "fracLoss") * e (V "pwr_in")) * ufac "hp" = 0) by (rewrite <- H; ring). apply Rmult_integral in K as [K|K]; [|contradiction]. replace (e (V "pwr_in") * ufac "hp" + e (V "pwr_out") * ufac "hp") with ((e (V "pwr_in") + e (V "pwr_out")) * ufac "hp") by ring. replace (e (V "pwr_in") + e (V "pwr_out")) with 0 by lra. ring.
    + assert (K : (e (V "pwr_in") + e (V "pwr_out")) * ufac "hp" = 0) by (rewrite <- H; ring). apply Rmult_integral in K as [K|K]; [|contradiction]. replace (e (V "HPX") * ufac "hp" + e (V "fracLoss") * (e (V "pwr_in") * ufac "hp")) with ((e (V "HPX") + e (V "fracLoss") * e (V "pwr_in")) * ufac "hp") by ring. replace (e (V "HPX") + e (V "fracLoss") * e (V "pwr_in")) with 0 by lra. ring.
Qed.

(* ---------- C68 ---------- *)
Theorem C68_design_is_off_design tp m els w : In m multis -> tp_local tp -> builds (m_des m) els -> (forall nk, In nk els -> made nk) -> cycle_converged tp (m_des m) els w ->
  (forall n k, In (n, k) els -> runs k (local w n)) -> (forall n, In n (x_gears (m_des m)) -> local w n "N_in" 0%nat <> 0) -> (m_name m = "MPABTurbojet" -> ab_point w) ->
  exists w', multi_converged tp m els w w' /\ same_engine (m_des m) w w' /\
             (x_name (m_od m) = "HBTF_od_pc" -> w' "PC" 0%nat = 1 /\ w' "Fn_max" 0%nat = w "perf.Fn" 0%nat).
Proof.
  intros Hm L B M C Rn Gn Ab.
  assert (Sy := sys_all). rewrite forallb_forall in Sy. specialize (Sy _ Hm). unfold sys_b in Sy. cbn [fst] in Sy. stepk Sy Y1. stepk Sy Y2. stepk Sy Y3. stepk Sy Y4. stepk Sy Y5. stepk Sy Y6. cbv zeta in Y6, Sy. rewrite forallb_forall in Y6, Sy.
  destruct (multi_same m Hm) as (Q1 & Q2 & Q3 & Q4 & Q5 & Q6 & Q7). remember (full (m, rest_of m)) as T eqn:ET.
  assert (Hx : forall a b, In (a, b) (extras m) -> w b 0%nat = w a 0%nat).
  { unfold extras. destruct (String.eqb (m_name m) "MPMixedFlowTurbofan") eqn:En; [|intros a b []]. apply (multi_mf m Hm) in En. subst m.
    destruct (mixer_extra tp els w B M C L Rn) as [X1 X2]. intros a b [H|[H|[]]]; injection H as <- <-; assumption. }
  assert (Hsp : forall b, In b (x_bals (m_od m)) -> In (xb_name b) (specials m) -> (if xb_mult b then ev w (tv T (b_mult b)) 0%nat else 1) * ev w (tv T (b_lhs b)) 0%nat = ev w (tv T (b_rhs b)) 0%nat).
  { unfold specials. destruct (String.eqb (m_name m) "MPABTurbojet") eqn:En; [|intros b _ []]. apply (multi_ab m Hm) in En. subst m.
    destruct (Ab eq_refl) as (A1 & A3). assert (Pw := proj1 (ab_net tp els w C) A1).
    clear - Pw A3 ET. intros b Hb Hn. cbn in Hb. repeat destruct Hb as [<-|Hb]; try contradiction; cbn in Hn; (destruct Hn as [Hn|[Hn|[]]]; try discriminate Hn); cbn [xb_mult].
    - assert (F1 : tv T "balance.mult:Nmech" = SC (-1, 0)%Z) by (rewrite ET; vm_compute; reflexivity). assert (F2 : tv T "balance.lhs:Nmech" = SV "shaft.pwr_in") by (rewrite ET; vm_compute; reflexivity). assert (F3 : tv T "balance.rhs:Nmech" = SV "shaft.pwr_out") by (rewrite ET; vm_compute; reflexivity).
      unfold b_mult, b_lhs, b_rhs. cbn [xb_name xb_rhs String.append]. rewrite F1, F2, F3. cbn [ev]. unfold dR. cbn. lra.
    - assert (F2 : tv T "balance.lhs:W" = SV "comp.map.RlineMap") by (rewrite ET; vm_compute; reflexivity). assert (F3 : tv T "balance.rhs:W" = SC (2, 0)%Z) by (rewrite ET; vm_compute; reflexivity).
      unfold b_mult, b_lhs, b_rhs. cbn [xb_name xb_rhs String.append]. rewrite F2, F3. cbn [ev]. rewrite A3. unfold dR. cbn. lra. }
  assert (HC := moved_converged (m_des m) (m_od m) T (extras m) (specials m) Q1 Q2 Q3 Q4 Q5 Q6 Q7 tp els w L B C Rn Gn Hx Hsp Y1 Y2 Y3 Y4 Y5).
  assert (HE : forall a b, In (a, b) (edges (m_des m) ++ extras m) -> w b 0%nat = w a 0%nat).
  { intros a b H. apply in_app_iff in H as [H|H]; [exact (edges_hold _ _ _ _ C _ _ H 0%nat)|exact (Hx _ _ H)]. }
  exists (moved T w). split; [constructor; [exact C|exact HC| |]|].
  - intros a b H. specialize (Y6 _ H). cbn [fst snd] in Y6. exact (eq_ok w 0%nat _ _ _ HE Y6).
  - intros p H. specialize (Sy _ H). exact (eq_ok w 0%nat _ _ _ HE Sy).
  - unfold names_b in Y3. stepk Y3 N1. stepk Y3 N2. stepk Y3 N3. rewrite forallb_forall in N1, N2, N3, Y3. rewrite Q1 in N1. rewrite Q3 in N2. rewrite Q4 in N3. rewrite Q5 in Y3. split; [split|].
    + intros n c Hn v Hv i. rewrite (local_moved n c) by (apply (list_eqb_eq _ entry_eqb_eq); exact (N1 _ Hn)). rewrite <- class_sizing in Hv. rewrite carry_other by exact Hv. reflexivity.
    + intros n Hn v i. assert (U : under n T = []).
      { apply in_app_iff in Hn as [Hn|Hn]; [|apply in_app_iff in Hn as [Hn|Hn]]; apply (list_eqb_eq _ entry_eqb_eq).
        - apply in_map_iff in Hn as ([n' k] & <- & Hn). exact (N2 _ Hn).
        - exact (N3 _ Hn).
        - apply in_map_iff in Hn as ([n' k] & <- & Hn). exact (Y3 _ Hn). }
      rewrite (local_same n) by exact U. reflexivity.
    + intros En. apply (multi_pc m Hm) in En. subst m. assert (F1 : tv T "PC" = SC (1, 0)%Z) by (rewrite ET; vm_compute; reflexivity). assert (F2 : tv T "Fn_max" = SV "perf.Fn") by (rewrite ET; vm_compute; reflexivity).
      unfold moved. rewrite F1, F2. split; [cbn [ev]; unfold dR; cbn; lra|reflexivity].
Qed.
(* for the afterburning turbojet those conditions are also necessary: its off-design point cannot reproduce a design point with power extraction, or at another R-line *)
Theorem C68_afterburner_condition tp els w w' : multi_converged tp m_ABTurbojet els w w' -> same_engine x_ABTurbojet w w' -> w "shaft.Nmech" 0%nat <> 0 -> ab_point w.
Proof.
  intros [C C' _ _] [Se Ss] N.
  assert (B1 := cv_bal _ _ _ _ C' (mkXBal "Nmech" "rpm" "hp" "rhs:Nmech" true) ltac:(cbn; tauto)). assert (B2 := cv_bal _ _ _ _ C' (mkXBal "W" "lbm/s" "" "rhs:W" false) ltac:(cbn; tauto)).
  assert (F1 := cv_free _ _ _ _ C' "balance.mult:Nmech" "" (-1, 0)%Z ltac:(cbn; tauto)). assert (F2 := cv_free _ _ _ _ C' "balance.rhs:W" "" (2, 0)%Z ltac:(cbn; tauto)).
  assert (K1 := cv_conn _ _ _ _ C' "shaft.pwr_in" "balance.lhs:Nmech" ltac:(cbn; tauto) 0%nat). assert (K2 := cv_conn _ _ _ _ C' "shaft.pwr_out" "balance.rhs:Nmech" ltac:(cbn; tauto) 0%nat). assert (K3 := cv_conn _ _ _ _ C' "comp.map.RlineMap" "balance.lhs:W" ltac:(cbn; tauto) 0%nat).
  cbn [xb_mult xb_name xb_rhs String.append] in B1, B2. rewrite F1, K1, K2 in B1. rewrite F2, K3 in B2. rewrite ufac_none in B1, B2. unfold dR in B1, B2. cbn in B1, B2.
  assert (S1 := Ss "shaft" ltac:(cbn; tauto) "pwr_in" 0%nat). assert (S2 := Ss "shaft" ltac:(cbn; tauto) "pwr_out" 0%nat). unfold local in S1, S2. cbn [String.append] in S1, S2. rewrite S1, S2 in B1.
  assert (S3 := Se "comp" (XCompressor ["cool1"; "cool2"]) ltac:(cbn; tauto) "map.RlineMap" ltac:(cbn; intuition discriminate) 0%nat). unfold local in S3. cbn [String.append] in S3. rewrite S3 in B2.
  split; [|lra]. apply (proj2 (ab_net tp els w C) N). lra.
Qed.

(* ---------- every sizing input of the off-design elements comes from the design point ---------- *)
(* what an element has as input off design only: the areas of its static stations, the scalars of its map, the loss coefficient of a duct whose loss depends on Mach number *)
Definition needs (c : eclass) : list string :=
  match c with
  | XFlight _ | XNozzle _ _ => []
  | XInlet | XBleedOut _ | XCombustor _ => ["area"]
  | XDuct ex => if Z.eqb (fst ex) 0 then ["area"] else ["area"; "s_dPqP"]
  | XSplitter => ["area1"; "area2"]
  | XCompressor _ => ["area"; "s_Wc"; "s_PR"; "s_eff"; "s_Nc"] | XTurbine _ => ["area"; "s_Wp"; "s_PR"; "s_eff"; "s_Np"]
  | XMixer one => [if one then "Fl_I1_stat_calc.area" else "Fl_I2_stat_calc.area"]
  end.
(* the design variable it must be *)
Definition origin (x : string) : list string :=
  if String.eqb x "area" then ["Fl_O:stat:area"] else if String.eqb x "area1" then ["Fl_O1:stat:area"] else if String.eqb x "area2" then ["Fl_O2:stat:area"]
  else if String.eqb x "Fl_I1_stat_calc.area" then ["Fl_I1_calc:stat:area"] else if String.eqb x "Fl_I2_stat_calc.area" then ["Fl_I2_calc:stat:area"] else [x].
Definition dot (n x : string) : string := (n ++ "." ++ x)%string.
Definition need_b (m : multi) (n x : string) : bool := existsb (fun o => existsb (fun p => if String.eqb (fst p) (dot n o) then String.eqb (snd p) (dot n x) else false) (des_od m)) (origin x).
(* two ducts are forgotten *)
Definition forgotten (m n : string) : bool := if String.eqb m "MPMixedFlowTurbofan" then String.eqb n "inlet_duct" else if String.eqb m "MPMultiSpool" then String.eqb n "duct6" else false.
Definition sized_b (m : multi) : bool :=
  if forallb (fun nc => if forgotten (m_name m) (fst nc) then true else forallb (need_b m (fst nc)) (needs (snd nc))) (x_els (m_od m))
  then forallb (fun g => need_b m g "gear_ratio") (x_gears (m_od m)) else false.
Lemma sized_all : forallb sized_b multis = true. Proof. vm_compute. match goal with |- true = true => reflexivity end. Qed.
Lemma need_ok m n x : need_b m n x = true -> exists o, In o (origin x) /\ In (dot n o, dot n x) (des_od m).
Proof.
  intros H. apply existsb_exists in H as (o & Ho & H). apply existsb_exists in H as ([a b] & Hp & H). cbn [fst snd] in H. stepk H X1. apply String.eqb_eq in X1, H. subst. exists o. auto.
Qed.
Theorem C68_sized m : In m multis ->
  (forall n c x, In (n, c) (x_els (m_od m)) -> In x (needs c) -> forgotten (m_name m) n = false -> exists o, In o (origin x) /\ In (dot n o, dot n x) (des_od m)) /\
  (forall g, In g (x_gears (m_od m)) -> exists o, In o (origin "gear_ratio") /\ In (dot g o, dot g "gear_ratio") (des_od m)).
Proof.
  intros Hm. assert (H := sized_all). rewrite forallb_forall in H. specialize (H _ Hm). unfold sized_b in H. stepk H X1. rewrite forallb_forall in X1, H. split.
  - intros n c x Hn Hx Ne. specialize (X1 _ Hn). cbn [fst snd] in X1. rewrite Ne in X1. rewrite forallb_forall in X1. apply need_ok, X1. exact Hx.
  - intros g Hg. apply need_ok, H. exact Hg.
Qed.
(* MPMixedFlowTurbofan connects no area to its inlet duct, MPMultiSpool none to duct6: off design those ducts keep the default area of their input *)
Theorem C68_ducts_refuted : In ("inlet_duct", XDuct (0, 0)%Z) (x_els x_MixedFlowTurbofan_od) /\ (forall a, ~ In (a, "inlet_duct.area") (des_od m_MixedFlowTurbofan)) /\
  In ("duct6", XDuct (0, 0)%Z) (x_els x_MultiSpoolTurboshaft_od) /\ (forall a, ~ In (a, "duct6.area") (des_od m_MultiSpoolTurboshaft)).
Proof.
  assert (G : forall t m, forallb (fun p => negb (String.eqb (snd p) t)) (des_od m) = true -> forall a, ~ In (a, t) (des_od m)).
  { intros t m K a H. rewrite forallb_forall in K. specialize (K _ H). cbn [snd] in K. rewrite String.eqb_refl in K. discriminate K. }
  split; [cbn; tauto|]. split; [apply G; vm_compute; reflexivity|]. split; [cbn; tauto|apply G; vm_compute; reflexivity].
Qed.
