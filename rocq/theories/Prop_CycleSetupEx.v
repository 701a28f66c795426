(* C70: the wet propulsor, CEA method, humid air, converged at a design point: the hypotheses of C70_engine and C70_inert are met. *)
From Coq Require Import FunctionalExtensionality Ascii Lia.
From Verif Require Import Lib_R Lib_Py Lib_Loop Spec_Mix Spec_Wire Model_Thermo Proofs_Wire Prop_Static Prop_Atm Prop_Thermo Model_Nozzle Prop_Elem1 Prop_Elem2 Model_ThermoAdd Proofs_ThermoAdd Prop_Mix Model_Elem1 Model_Elem2 Proofs_Elem Proofs_Elem2 Proofs_ElemEx Proofs_ElemEx2.
From Verif Require Import Prop_Station Prop_Station2 Prop_Station3 Prop_Station5 Prop_Station7 Prop_Station8 Prop_StationEx Prop_StationEx2 Model_Ports Prop_Ports Model_Cycle Prop_Cycle Prop_Cycle2 Prop_Elements Prop_Humid Prop_CycleSetup Model_Examples Data_Examples Prop_Examples Prop_Examples2 Prop_Examples3 Prop_ExamplesEx Prop_CycleSetup2 Proofs_WetEx.
Open Scope string_scope. Open Scope list_scope. Open Scope R_scope.

Section Wet.
Variables (inf mixed : list string) (wts : list R) (rs : list (string * list R)) (fl : dict (list string * list R)) (air : nat -> R).
Notation c := (hc inf mixed wts rs fl).
Notation v := (hv inf mixed wts rs fl air).
Definition wp_state : state := fun x k =>
  if String.eqb x "pwr_target" then ppow * ufac "hp" else
  join [("fc", hflight inf mixed wts rs fl air); ("inlet", wet v cy_inlet); ("fan", wet v pr_fan); ("nozz", wet v pr_nozz); ("perf", pr_perf);
        ("shaft", fun y _ => lookup 0 (("Nmech", 1000 * ufac "rpm") :: nil) y); ("balance", fun y _ => lookup 0 [("W", exW); ("lhs:W", ppow * ufac "hp"); ("rhs:W", ppow * ufac "hp")] y)] x k.
Definition wp_els : list (string * ekind) := [("fc", EFlight (Some (ACea c, "WAR"))); ("inlet", EInlet true); ("fan", ECompressor cmap 1 nil true); ("nozz", ENozzle CV Cv)].
Lemma wp_point : fuel_adder (ACea c) -> Prop_Examples.at_point gasc x_WetPropulsor wp_els wp_state.
Proof.
  intros FA. unfold Prop_Examples.at_point. match goal with |- _ /\ _ => split end.
  { repeat constructor; cbn; eauto. }
  match goal with |- _ /\ _ => split end.
  { intros nk Hk. cbn in Hk. repeat destruct Hk as [<-|Hk]; try contradiction; try exact Logic.I. destruct (fuel_adder_facts _ FA) as (A1 & A2 & _). cbn. repeat split; try assumption; try reflexivity; intuition discriminate. }
  match goal with |- _ /\ _ => split end; [|intros nk Hk; cbn in Hk; repeat destruct Hk as [<-|Hk]; try contradiction; exact Logic.I].
  constructor.
  + split.
    * intros n k Hk. cbn in Hk. repeat destruct Hk as [Hk|Hk]; try contradiction; injection Hk as <- <-; [exact (flight_cea _ _ (hflight_ok inf mixed wts rs fl air))|exact (inlet_cea _ _ _ (wet_inlet_ok v))|exact (fan_cea _ _ (wet_fan_ok v))|exact (nozzle_cea _ (wet_nozz_ok v))].
    * intros l Hl. cbn in Hl. destruct Hl as [<-|[<-|[<-|[]]]]; link_tac; reflexivity.
  + intros a b Hc i. cbn in Hc. repeat destruct Hc as [Hc|Hc]; try contradiction; injection Hc as <- <-; reflexivity.
  + intros n y a Hc i. cbn in Hc. repeat destruct Hc as [Hc|Hc]; try contradiction; injection Hc as <- <- <-; reflexivity.
  + intros n k [].
  + intros n [].
  + intros n i j Hp. cbn in Hp. destruct Hp as [Hp|[]]. injection Hp as <- <- <-. assert (Nl := ufac_n0 "lbf"). assert (Np := ufac_n0 "lbf/inch**2"). pose proof exPt_pos. intros o Ho. cbn in Ho. repeat destruct Ho as [<-|Ho]; try contradiction.
    * change (32 / 1 = 32 * exPt / ufac "lbf/inch**2" / (exPt / ufac "lbf/inch**2")). field. split; [exact Np|lra].
    * change (z_F * ufac "lbf" / ufac "lbf" = 0 + z_F * ufac "lbf" / ufac "lbf"). ring.
    * change ((z_F - pr_Fram) * ufac "lbf" / ufac "lbf" = 0 + z_F * ufac "lbf" / ufac "lbf" - pr_Fram * ufac "lbf" / ufac "lbf"). field. exact Nl.
  + intros b [<-|[]]. cbn [xb_mult]. change (1 * (ppow * ufac "hp") = ppow * ufac "hp"). ring.
  + intros y u d [].
Qed.
End Wet.
(* the point has water in its exhaust: the hydrogen that leaves is not zero *)
Theorem C70_nonvacuous : exists g els w s, In g cea_engines /\ g_ex g = x_WetPropulsor /\ Prop_Examples.at_point gasc x_WetPropulsor els w /\ set_up_as (x_spec x_WetPropulsor) (x_kinds x_WetPropulsor) els (x_links x_WetPropulsor) s /\
  adders_built (x_spec x_WetPropulsor) (x_fuel x_WetPropulsor) (lab_of els s) els /\ air_start x_WetPropulsor els w /\
  0 < element_flow (x_spec x_WetPropulsor) (lab_of els s) w "H" ("nozz", "Fl_O").
Proof.
  set (x := x_WetPropulsor). set (o := mkCea (x_spec x) (Some CEA_AIR_COMPOSITION) (Reactants ("Water" :: nil)) ("mix" :: nil)).
  assert (Wd : dget (reactants (x_spec x)) "Water" = Some [("H", dR (2, 0)%Z); ("O", dR (1, 0)%Z)]) by reflexivity.
  destruct (built_react (x_spec x) CEA_AIR_COMPOSITION "Water" _ (air_good x) Wd (react_good x _ _ Wd)) as [c SU]. fold o in SU.
  destruct (mk_good (x_spec x) CEA_AIR_COMPOSITION (air_good x)) as (p & Hp).
  assert (FA : fuel_adder (ACea c)) by (exists o, "Water"; split; [exact SU|split; reflexivity]).
  destruct (fuel_adder_facts _ FA) as (A1 & A2 & _). destruct c as [inf mixed wts nm rs fl]. cbn in A1, A2. subst nm. destruct rs as [rs|]; [|discriminate]. clear A1.
  set (air := fun i => nth i (p_b0 p) 0). set (w := wp_state inf mixed wts rs fl air). set (els := wp_els inf mixed wts rs fl).
  set (g := mkEngine x_WetPropulsor [("nozz", "Fl_O")] [] ["nozz"]).
  assert (Hg : In g cea_engines) by (apply filter_In; split; [cbn; tauto|reflexivity]).
  pose proof (wp_point inf mixed wts rs fl air FA) as At.
  destruct (C70_returns g els Hg (proj1 At) (proj1 (proj2 At))) as [[s Su] _].
  assert (Ad : adders_built (x_spec x) (x_fuel x) (lab_of els s) els) by (intros n k a o' Hk E; cbn in Hk; repeat destruct Hk as [Hk|Hk]; try contradiction; injection Hk as <- <-; discriminate E).
  assert (HW := exW_pos).
  assert (St : air_start x els w).
  { unfold air_start. change (x_class x "fc") with (XFlight (Some ("Water", "WAR"))). cbv iota. exists (hc inf mixed wts rs fl). split; [left; reflexivity|]. split; [exact SU|]. split; [|split].
    - exists p. split; [exact Hp|]. intros i _. reflexivity.
    - change (exW <> 0). lra.
    - change (1 + / 100 <> 0). lra. }
  exists g, els, w, s. split; [exact Hg|]. split; [reflexivity|]. split; [exact At|]. split; [exact Su|]. split; [exact Ad|]. split; [exact St|].
  pose proof (C70_engine gasc g els w s Hg At Su Ad St "H") as E. cbv zeta in E. change (g_ex g) with x in E. change (g_exits g) with [("nozz", "Fl_O")] in E. change (g_burners g) with (@nil string) in E. rewrite lsum1 in E. rewrite E.
  change (mass_flow w ("inlet", "Fl_I")) with exW. unfold air_fraction. change (x_class x "fc") with (XFlight (Some ("Water", "WAR"))). cbv iota zeta. change (val (local w "fc") "WAR") with (/ 100).
  assert (Fa : dict_fraction (weight (x_spec x)) CEA_AIR_COMPOSITION "H" = 0).
  { unfold dict_fraction, mass_fraction. rewrite amount_miss; [unfold Rdiv; ring|]. cbn. intuition discriminate. }
  rewrite Fa. replace (reactant (x_spec x) "Water") with [("H", dR (2, 0)%Z); ("O", dR (1, 0)%Z)] by reflexivity.
  assert (Fw : 0 < dict_fraction (weight (x_spec x)) [("H", dR (2, 0)%Z); ("O", dR (1, 0)%Z)] "H").
  { pose proof (spec_weight x "H" ltac:(cbn; tauto)). pose proof (spec_weight x "O" ltac:(cbn; tauto)). assert (A := dR_pos 2 0 ltac:(lia)). assert (A' := dR_pos 1 0 ltac:(lia)).
    change (0 < (dR (2, 0)%Z + (0 + 0)) * weight (x_spec x) "H" / (dR (2, 0)%Z * weight (x_spec x) "H" + (dR (1, 0)%Z * weight (x_spec x) "O" + 0))).
    apply Rdiv_lt_0_compat; nra. }
  set (q := dict_fraction (weight (x_spec x)) [("H", dR (2, 0)%Z); ("O", dR (1, 0)%Z)] "H") in *. assert (Q : 0 < exW * q) by (apply Rmult_lt_0_compat; [exact HW|exact Fw]).
  match goal with |- 0 < ?a + lsum _ [] => change (0 < a + 0) end.
  replace (exW * ((0 + / 100 * q) / (1 + / 100)) + 0) with (exW * q / 101) by field. lra.
Qed.
Print Assumptions C70_nonvacuous.
