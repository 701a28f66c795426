(* C73: the table of the generator script exists for every gas whose properties are a function of T, P and composition, and the hypotheses of the
   theorems about an engine that uses it are met. *)
From Coq Require Import FunctionalExtensionality Lia.
From Verif Require Proofs_Species Prop_Species Proofs_ThermoAdd.
From Verif Require Import Lib_R Lib_Py Lib_Loop Spec_Mix Spec_Comp Spec_Wire Model_Thermo Proofs_Wire Prop_Static Prop_Thermo Prop_Elem1 Model_Species Data_Thermo Model_ThermoAdd Prop_Mix Model_Elem1 Model_Elem2 Proofs_Elem Proofs_ElemEx Prop_Station Prop_Station2 Prop_Station3 Prop_Humid.
From Verif Require Import Model_Tab Prop_CycleSetup Model_Examples Data_Examples Prop_CycleSetup2 Proofs_WetEx Model_TabGen Prop_TabGen.
Open Scope string_scope. Open Scope list_scope. Open Scope R_scope.

(* a gas whose properties are given by F (T in K, P in bar) *)
Definition of_fun (F : R -> R -> (nat -> R) -> string -> R) (T P : R) (v : nat -> R) (p : string -> R) : Prop := forall x, In x tab_outputs -> p x = F T P v x.
Section Gen.
Variable F : R -> R -> (nat -> R) -> string -> R.
Definition tg_val (T P : R) (v : nat -> R) (x : string) : R := F T (P / ufac "bar") v x * ufac (prop_unit CEA x).
Definition tg_in (T P : R) (v : nat -> R) : state := fun y k =>
  let z := if orb (prefix "flow:" y) (prefix "flow." y) then substring 5 (String.length y) y else if prefix "vitiated_flow." y then substring 14 (String.length y) y else y in
  if String.eqb z "T" then T else if String.eqb z "P" then P else if String.eqb z "composition" then v k else tg_val T P v z.
Lemma tg_in_ok T P v : solves (thermo (of_fun F) CEA total_TP "flow") (tg_in T P v).
Proof.
  split; [|intros a b []]. intros s Hs. unfold thermo in Hs. cbn [subs] in Hs. change (String.eqb (mode_name total_TP) "total_TP") with true in Hs. change (has "static" total_TP) with false in Hs. cbv iota in Hs. cbn [app] in Hs.
  repeat destruct Hs as [<-|Hs]; try contradiction.
  - unfold base_sub. cbn [srel]. intros x Hx. unfold lin, lout. cbn [sins souts sname pin pout].
    change (unit_of (base_ins CEA) "T") with "degK". change (unit_of (base_ins CEA) "P") with "bar". change (unit_of (base_ins CEA) "composition") with "". rewrite ufac_none. change (ufac "degK") with 1.
    assert (E : (fun k => tg_in T P v (gname "base_thermo" (base_pin total_TP) "composition") k / 1) = v) by (apply functional_extensionality; intros k; change (v k / 1 = v k); field).
    rewrite E. change (tg_in T P v (gname "base_thermo" (base_pin total_TP) "T") 0%nat) with T. change (tg_in T P v (gname "base_thermo" (base_pin total_TP) "P") 0%nat) with P.
    replace (T / 1) with T by field. change (unit_of (base_outs CEA) x) with (prop_unit CEA x). assert (N := ufac_n0 (prop_unit CEA x)).
    transitivity (tg_val T P v x / ufac (prop_unit CEA x)); [|unfold tg_val; field; exact N]. f_equal.
    cbn in Hx. repeat destruct Hx as [<-|Hx]; try contradiction; reflexivity.
  - unfold flow_sub, unit_sub. cbn [srel]. unfold unit_rel. cbn [names unit_outs eng_props map fst snd]. repeat constructor.
Qed.
Definition tg_air (T P : R) (v : nat -> R) : state := fun y k => if String.eqb y "flow.composition" then v k else tg_in T P v y k.
Lemma tg_air_ok T P v : solves (gen_air (of_fun F) CEA) (tg_air T P v).
Proof.
  split; [|intros a b []]. intros s Hs. unfold gen_air in Hs. cbn [subs] in Hs. destruct Hs as [<-|[]]. unfold tsub. apply (group_make _ _ _ _ _ (tg_in T P v) (tg_in_ok T P v)); allx.
Qed.
Section Fuel.
Variables (inf mixed : list string) (wts : list R) (rs : list (string * list R)) (fl : dict (list string * list R)) (air : nat -> R) (far T P : R).
Notation tc := (mkAdder inf mixed wts ["mix"] (Some rs) fl).
Definition tg_env : env := fun x => match x with V "Fl_I:stat:W" => 1 / ufac "lbm/s" | I "Fl_I:tot:composition" i => air i | B "mix" "ratio" => far | _ => 0 end.
Definition tg_out : env := cea_compute tc tg_env (fun _ => 0).
Definition tg_mix (k : nat) : R := tg_out (I "composition_out" k).
Definition tg_fuel : state := fun x k =>
  if String.eqb x "composition" then air k else if String.eqb x "mix_fuel.composition_out" then tg_mix k else if String.eqb x "vitiated_flow.composition" then tg_mix k else
  match find (fun p => String.eqb (fst p) x) [("h", 0); ("mix_fuel.mix:h", 0); ("FAR", far); ("W", 1); ("mix_fuel.mass_avg_h", tg_out (V "mass_avg_h") * ufac "Btu/lbm"); ("Wout", tg_out (V "Wout") * ufac "lbm/s"); ("Wfuel", tg_out (B "mix" "W") * ufac "lbm/s")] with
  | Some p => snd p | None => tg_in T P tg_mix x k end.
Lemma tg_fuel_ok : solves (gen_fuel (of_fun F) CEA (ACea tc)) tg_fuel.
Proof.
  assert (Nl := ufac_n0 "lbm/s"). assert (Nb := ufac_n0 "Btu/lbm"). split; [|ex_conns]. intros s Hs. unfold gen_fuel in Hs. cbn [subs] in Hs. repeat destruct Hs as [<-|Hs]; try contradiction.
  - unfold add_sub. cbn [srel]. intros o Ho. change (add_compute (ACea tc)) with (cea_compute tc). match goal with |- _ = cea_compute tc ?ee _ o => rewrite (cea_ext tc rs ee tg_env) end; try reflexivity.
    + fold tg_out. unfold add_vars in Ho. apply in_app_or in Ho as [[<-|[<-|[]]]|Ho].
      * change (tg_out (V "mass_avg_h") * ufac "Btu/lbm" / ufac "Btu/lbm" = tg_out (V "mass_avg_h")). field. exact Nb.
      * change (tg_out (V "Wout") * ufac "lbm/s" / ufac "lbm/s" = tg_out (V "Wout")). field. exact Nl.
      * apply in_app_or in Ho as [Ho|Ho].
        -- apply in_map_iff in Ho as (j & <- & _). change (tg_out (I "composition_out" j) / 1 = tg_out (I "composition_out" j)). field.
        -- destruct Ho as [<-|[]]. change (tg_out (B "mix" "W") * ufac "lbm/s" / ufac "lbm/s" = tg_out (B "mix" "W")). field. exact Nl.
    + change (0 / ufac "Btu/lbm" = 0). field. exact Nb.
    + intros i. change (air i / 1 = air i). field.
    + intros n [<-|[]]. split; [change (far / 1 = far); field|change (0 / ufac "Btu/lbm" = 0); field; exact Nb].
  - unfold tsub. apply (group_make _ _ _ _ _ (tg_in T P tg_mix) (tg_in_ok T P tg_mix)); allx.
Qed.
End Fuel.
End Gen.
Lemma gen_adder : exists c, cea_setup gen_opts = Ok c.
Proof.
  assert (Wd : dget (reactants (specR wet_air_dec)) "Jet-A(g)" = Some [("C", dR (12, 0)%Z); ("H", dR (23, 0)%Z)]) by reflexivity.
  exact (built_react (specR wet_air_dec) CEA_AIR_COMPOSITION "Jet-A(g)" _ wa_air_good Wd (react_good x_WetPropulsor _ _ Wd)).
Qed.
(* the models the script runs have a solution at every point of the loops, so the table exists *)
Theorem C73_exists Fa Ff c : cea_setup gen_opts = Ok c -> exists sp, generated (of_fun Fa) (of_fun Ff) c sp.
Proof.
  intros SU.
  destruct (mk_good _ _ wa_air_good) as (p & Hp).
  assert (FA : fuel_adder (ACea c)) by (exists gen_opts, "Jet-A(g)"; split; [exact SU|split; reflexivity]).
  destruct (fuel_adder_facts _ FA) as (A1 & A2 & _). destruct c as [inf mixed wts nm rs fl]. cbn in A1, A2. subst nm. destruct rs as [rs|]; [|discriminate]. clear A1.
  set (air := fun i => nth i (p_b0 p) 0).
  assert (D : at_default (specR wet_air_dec) CEA_AIR_COMPOSITION air) by (exists p; split; [exact Hp|intros i _; reflexivity]).
  assert (D' : at_default (specR janaf_dec) CEA_AIR_COMPOSITION air) by (exists p; split; [rewrite C73_same_air by (cbn; intuition discriminate); exact Hp|intros i _; reflexivity]).
  set (grid := fun a => if String.eqb a "FAR" then map gen_far (seq 0 20) else if String.eqb a "P" then map gen_P (seq 0 110) else map gen_T (seq 0 100)).
  set (tab := fun x ix => match ix with [O; j; k] => tg_val Fa (gen_T k) (gen_P j) air x
     | [S i; j; k] => tg_val Ff (gen_T k) (gen_P j) (tg_mix inf mixed wts rs fl air (gen_far (S i))) x | _ => 0 end).
  exists (mkTabSpec grid tab). constructor; try reflexivity.
  - intros j k Hj Hk. exists (tg_air Fa (gen_T k) (gen_P j) air). split; [apply tg_air_ok|]. repeat split; [exact D'|].
    intros x Hx. cbn in Hx. repeat destruct Hx as [<-|Hx]; try contradiction; reflexivity.
  - intros [|i] j k Hi Hj Hk; [lia|]. exists (tg_fuel Ff inf mixed wts rs fl air (gen_far (S i)) (gen_T k) (gen_P j)). split; [apply tg_fuel_ok|]. repeat split; [exact D|].
    intros x Hx. cbn in Hx. repeat destruct Hx as [<-|Hx]; try contradiction; reflexivity.
Qed.
Print Assumptions C73_exists.

(* a combustor that uses a table and ends at a given temperature, pressure and fuel-air ratio *)
Section Burner.
Variable F : R -> R -> (nat -> R) -> string -> R.
Variables (T P far : R).
Hypothesis Hf : 0 <= far.
Definition tb_vec : nat -> R := fun k => match k with O => far | _ => 0 end.
Definition tb_in : state := fun y k =>
  let z := if prefix "Fl_O:tot:" y then substring 9 (String.length y) y else if prefix "base_thermo." y then substring 12 (String.length y) y else y in
  if String.eqb y "balance.lhs:T" then F T P tb_vec "h" else
  if String.eqb z "T" then T else if String.eqb z "P" then P else if String.eqb z "composition" then tb_vec k else F T P tb_vec z.
Lemma tb_in_ok : solves (thermo (of_fun F) TABULAR total_hP "Fl_O:tot") tb_in.
Proof.
  split.
  - intros s Hs. unfold thermo in Hs. cbn [subs] in Hs. change (String.eqb (mode_name total_hP) "total_TP") with false in Hs. change (has "static" total_hP) with false in Hs. cbv iota in Hs. change (static_subs total_hP) with (@nil sub) in Hs. cbn [app] in Hs.
    repeat destruct Hs as [<-|Hs]; try contradiction.
    + unfold base_sub. cbn [srel]. intros x Hx. unfold lin, lout. cbn [sins souts sname pin pout].
      change (unit_of (base_ins TABULAR) "T") with "degK". change (unit_of (base_ins TABULAR) "P") with "Pa". change (unit_of (base_ins TABULAR) "composition") with "". rewrite ufac_none. change (ufac "degK") with 1. change (ufac "Pa") with 1.
      assert (E : (fun k => tb_in (gname "base_thermo" (base_pin total_hP) "composition") k / 1) = tb_vec) by (apply functional_extensionality; intros k; change (tb_vec k / 1 = tb_vec k); field).
      rewrite E. change (tb_in (gname "base_thermo" (base_pin total_hP) "T") 0%nat) with T. change (tb_in (gname "base_thermo" (base_pin total_hP) "P") 0%nat) with P.
      replace (T / 1) with T by field. replace (P / 1) with P by field.
      cbn in Hx. repeat destruct Hx as [<-|Hx]; try contradiction; match goal with |- _ = F T P tb_vec ?x => change (F T P tb_vec x / 1 = F T P tb_vec x); field end.
    + unfold balance_sub. cbn [srel]. reflexivity.
    + unfold flow_sub, unit_sub. cbn [srel]. unfold unit_rel. cbn [names unit_outs eng_props map fst snd]. repeat constructor.
  - intros a b Hc k. cbn in Hc. destruct Hc as [Hc|[]]. injection Hc as <- <-. reflexivity.
Qed.
Definition tb_opts : tab_opts := mkTab None (TReactant "FAR") ["mix"].
Definition tb_add : tab_adder := mkTabAdder 1 (Some 0%nat) ["mix"] [0].
Definition tb_comb : state := fun x k =>
  match find (fun p => String.eqb (fst p) x) [("Fl_I:stat:W", 1); ("Fl_I:FAR", far); ("Fl_I:tot:composition", 0); ("Fl_I:tot:h", (1 + far) * F T P tb_vec "h"); ("mix_fuel.mix:h", 0); ("Wfuel", far); ("Wout", 1 + far); ("Fl_O:stat:W", 1 + far);
    ("mix_fuel.mass_avg_h", F T P tb_vec "h"); ("Fl_I:tot:P", P); ("dPqP", 0); ("p_loss.Pt_out", P)] with
  | Some p => snd p
  | None => if String.eqb x "mix_fuel.composition_out" then tb_vec k else tb_in (if prefix "vitiated_flow." x then substring 14 (String.length x) x else x) k end.
Lemma tb_comb_ok : solves (combustor (of_fun F) TABULAR (ATab tb_add) false true) tb_comb.
Proof.
  split; [|ex_conns]. intros s Hs. unfold combustor in Hs. cbn [subs app] in Hs. repeat destruct Hs as [<-|Hs]; try contradiction.
  - exact Logic.I.
  - cbn [add_sub srel]. intros o Ho. pose proof (ufac_pos "lbm/s"). pose proof (ufac_pos "Btu/lbm"). set (u := ufac "lbm/s") in *. set (v := ufac "Btu/lbm") in *. set (hx := F T P tb_vec "h").
    cbn in Ho. repeat destruct Ho as [<-|Ho]; try contradiction.
    + change (hx / v = (1 / u * ((1 + far) * hx / v) + 1 / u / (1 + (0 / 1 + 0)) * (far / 1) * (0 / v)) / (0 + 1 / u + 1 / u / (1 + (0 / 1 + 0)) * (far / 1))). field. repeat split; lra.
    + change ((1 + far) / u = 0 + 1 / u + 1 / u / (1 + (0 / 1 + 0)) * (far / 1)). field. lra.
    + change (far / 1 = (0 + 1 / u / (1 + (0 / 1 + 0)) * (0 / 1) + 1 / u / (1 + (0 / 1 + 0)) * (far / 1)) / (1 / u / (1 + (0 / 1 + 0)))). field. lra.
    + change (far / u = 1 / u / (1 + (0 / 1 + 0)) * (far / 1)). field. lra.
  - intros o Ho. inlist Ho. change (P / ufac "lbf/inch**2" = P / ufac "lbf/inch**2" * (1 - 0 / 1)). field. apply ufac_n0.
  - unfold tsub. apply (group_make _ _ _ _ _ tb_in tb_in_ok); allx.
  - intros o Ho. inlist Ho. reflexivity.
Qed.
End Burner.
(* both combustors of C73_same_exit: dry air of 1 kg/s, the same fuel-air ratio, ending at a given point of the grid *)
Section Cea.
Variable F : R -> R -> (nat -> R) -> string -> R.
Variables (inf mixed : list string) (wts : list R) (rs : list (string * list R)) (fl : dict (list string * list R)) (air : nat -> R) (far T P : R).
Notation tc := (mkAdder inf mixed wts ["mix"] (Some rs) fl).
Notation out := (tg_out inf mixed wts rs fl air far).
Notation mixv := (tg_mix inf mixed wts rs fl air far).
Hypothesis Hh : tg_val F T P mixv "h" = out (V "mass_avg_h") * ufac "Btu/lbm".
Definition tj_in : state := fun y k =>
  let z := if prefix "Fl_O:tot:" y then substring 9 (String.length y) y else if prefix "base_thermo." y then substring 12 (String.length y) y else y in
  if String.eqb y "balance.lhs:T" then tg_val F T P mixv "h" else
  if String.eqb z "T" then T else if String.eqb z "P" then P else if String.eqb z "composition" then mixv k else tg_val F T P mixv z.
Lemma tj_in_ok : solves (thermo (of_fun F) CEA total_hP "Fl_O:tot") tj_in.
Proof.
  split.
  - intros s Hs. unfold thermo in Hs. cbn [subs] in Hs. change (String.eqb (mode_name total_hP) "total_TP") with false in Hs. change (has "static" total_hP) with false in Hs. cbv iota in Hs. change (static_subs total_hP) with (@nil sub) in Hs. cbn [app] in Hs.
    repeat destruct Hs as [<-|Hs]; try contradiction.
    + unfold base_sub. cbn [srel]. intros x Hx. unfold lin, lout. cbn [sins souts sname pin pout].
      change (unit_of (base_ins CEA) "T") with "degK". change (unit_of (base_ins CEA) "P") with "bar". change (unit_of (base_ins CEA) "composition") with "". rewrite ufac_none. change (ufac "degK") with 1.
      assert (E : (fun k => tj_in (gname "base_thermo" (base_pin total_hP) "composition") k / 1) = mixv) by (apply functional_extensionality; intros k; change (mixv k / 1 = mixv k); field).
      rewrite E. change (tj_in (gname "base_thermo" (base_pin total_hP) "T") 0%nat) with T. change (tj_in (gname "base_thermo" (base_pin total_hP) "P") 0%nat) with P.
      replace (T / 1) with T by field. change (unit_of (base_outs CEA) x) with (prop_unit CEA x). assert (N := ufac_n0 (prop_unit CEA x)).
      transitivity (tg_val F T P mixv x / ufac (prop_unit CEA x)); [|unfold tg_val; field; exact N]. f_equal.
      cbn in Hx. repeat destruct Hx as [<-|Hx]; try contradiction; reflexivity.
    + unfold balance_sub. cbn [srel]. reflexivity.
    + unfold flow_sub, unit_sub. cbn [srel]. unfold unit_rel. cbn [names unit_outs eng_props map fst snd]. repeat constructor.
  - intros a b Hc k. cbn in Hc. destruct Hc as [Hc|[]]. injection Hc as <- <-. reflexivity.
Qed.
Definition tj_comb : state := fun x k =>
  if String.eqb x "Fl_I:tot:composition" then air k else if String.eqb x "mix_fuel.composition_out" then mixv k else
  match find (fun p => String.eqb (fst p) x) [("Fl_I:stat:W", 1); ("Fl_I:FAR", far); ("Fl_I:tot:h", 0); ("mix_fuel.mix:h", 0); ("Wfuel", out (B "mix" "W") * ufac "lbm/s"); ("Wout", out (V "Wout") * ufac "lbm/s"); ("Fl_O:stat:W", out (V "Wout") * ufac "lbm/s");
    ("mix_fuel.mass_avg_h", tg_val F T P mixv "h"); ("Fl_I:tot:P", P); ("dPqP", 0); ("p_loss.Pt_out", P)] with
  | Some p => snd p
  | None => tj_in (if prefix "vitiated_flow." x then substring 14 (String.length x) x else x) k end.
Lemma tj_comb_ok : solves (combustor (of_fun F) CEA (ACea tc) false true) tj_comb.
Proof.
  assert (Nl := ufac_n0 "lbm/s"). assert (Nb := ufac_n0 "Btu/lbm"). split; [|ex_conns]. intros s Hs. unfold combustor in Hs. cbn [subs app] in Hs. repeat destruct Hs as [<-|Hs]; try contradiction.
  - exact Logic.I.
  - unfold add_sub. cbn [srel]. intros o Ho. change (add_compute (ACea tc)) with (cea_compute tc). match goal with |- _ = cea_compute tc ?ee _ o => rewrite (cea_ext tc rs ee (tg_env air far)) end; try reflexivity.
    + fold out. unfold add_vars in Ho. apply in_app_or in Ho as [[<-|[<-|[]]]|Ho].
      * change (tg_val F T P mixv "h" / ufac "Btu/lbm" = out (V "mass_avg_h")). rewrite Hh. field. exact Nb.
      * change (out (V "Wout") * ufac "lbm/s" / ufac "lbm/s" = out (V "Wout")). field. exact Nl.
      * apply in_app_or in Ho as [Ho|Ho].
        -- apply in_map_iff in Ho as (j & <- & _). change (out (I "composition_out" j) / 1 = out (I "composition_out" j)). field.
        -- destruct Ho as [<-|[]]. change (out (B "mix" "W") * ufac "lbm/s" / ufac "lbm/s" = out (B "mix" "W")). field. exact Nl.
    + change (0 / ufac "Btu/lbm" = 0). field. exact Nb.
    + intros i. change (air i / 1 = air i). field.
    + intros n [<-|[]]. split; [change (far / 1 = far); field|change (0 / ufac "Btu/lbm" = 0); field; exact Nb].
  - intros o Ho. inlist Ho. change (P / ufac "lbf/inch**2" = P / ufac "lbf/inch**2" * (1 - 0 / 1)). field. apply ufac_n0.
  - unfold tsub. apply (group_make _ _ _ _ _ tj_in tj_in_ok); allx.
  - intros o Ho. inlist Ho. reflexivity.
Qed.
End Cea.
Theorem C73_nonvacuous i j k : (0 < i < 20)%nat -> (j < 110)%nat -> (k < 100)%nat -> exists tpa tpf c sp t w w' o, determined tpf /\ cea_setup gen_opts = Ok c /\ generated tpa tpf c sp /\
  tab_opts_ok o t /\ solves (combustor (tab_tp sp gen_keys) TABULAR (ATab t) false true) w /\ val w "Fl_I:tot:composition" = 0 /\ val w "Fl_I:stat:W" <> 0 /\ val w "Fl_O:stat:W" <> 0 /\
  val w "Fl_I:FAR" = gen_far i /\ val w "Fl_O:tot:P" = gen_P j /\ val w "Fl_O:tot:T" = gen_T k /\
  solves (combustor tpf CEA (ACea c) false true) w' /\ dry_air (w' "Fl_I:tot:composition") /\ val w' "Fl_I:stat:W" <> 0 /\ val w' "Fl_O:stat:W" <> 0 /\ val w' "Fl_I:FAR" = val w "Fl_I:FAR" /\
  val w' "Fl_O:tot:P" = val w "Fl_O:tot:P" /\ val w' "Fl_O:tot:T" = val w "Fl_O:tot:T".
Proof.
  intros Hi Hj Hk. destruct gen_adder as [c SU]. destruct (mk_good _ _ wa_air_good) as (p & Hp). destruct gen_port as (m & PD & SM).
  assert (FA : fuel_adder (ACea c)) by (exists gen_opts, "Jet-A(g)"; split; [exact SU|split; reflexivity]).
  destruct (fuel_adder_facts _ FA) as (A1 & A2 & _). destruct c as [inf mixed wts nm rs fl]. cbn in A1, A2. subst nm. destruct rs as [rs|]; [|discriminate]. clear A1.
  set (air := fun i => nth i (p_b0 p) 0).
  assert (D : dry_air air) by (exists p; split; [exact Hp|intros a _; reflexivity]).
  set (h0 := tg_out inf mixed wts rs fl air (gen_far i) (V "mass_avg_h") * ufac "Btu/lbm" / ufac (prop_unit CEA "h")).
  set (Ff := fun (T P : R) (v : nat -> R) (x : string) => if String.eqb x "h" then h0 else v 0%nat + T / P).
  destruct (C73_exists Ff Ff _ SU) as (sp & G). set (F := fun T P v x => interpN (map (tb_grid sp) (tab_axes gen_keys)) (tb_val sp x) (tab_point gen_keys T P v)).
  assert (GP := gen_far_pos i).
  assert (Hh : tg_val Ff (gen_T k) (gen_P j) (tg_mix inf mixed wts rs fl air (gen_far i)) "h" = tg_out inf mixed wts rs fl air (gen_far i) (V "mass_avg_h") * ufac "Btu/lbm").
  { unfold tg_val, Ff. cbn [String.eqb]. change (String.eqb "h" "h") with true. cbv iota. unfold h0. generalize (ufac_n0 (prop_unit CEA "h")). generalize (ufac (prop_unit CEA "h")). intros u N. generalize (ufac "Btu/lbm"). intros b. change (tg_out inf mixed wts rs fl air (gen_far i) (V "mass_avg_h") * b / u * u = tg_out inf mixed wts rs fl air (gen_far i) (V "mass_avg_h") * b). field. exact N. }
  assert (Sj := tj_comb_ok Ff inf mixed wts rs fl air (gen_far i) (gen_T k) (gen_P j) Hh).
  exists (of_fun Ff), (of_fun Ff), (mkAdder inf mixed wts ["mix"] (Some rs) fl), sp, tb_add, (tb_comb F (gen_T k) (gen_P j) (gen_far i)), (tj_comb Ff inf mixed wts rs fl air (gen_far i) (gen_T k) (gen_P j)), tb_opts.
  split. { intros T P v v' q q' Hq Hq' E x Hx. rewrite (Hq x Hx), (Hq' x Hx). unfold Ff. rewrite (E 0%nat) by lia. reflexivity. }
  split; [exact SU|]. split; [exact G|]. split; [repeat split|].
  split; [exact (tb_comb_ok F (gen_T k) (gen_P j) (gen_far i) (gen_far_pos i))|]. split; [reflexivity|]. split; [change (1 <> 0); lra|]. split; [change (1 + gen_far i <> 0); lra|].
  split; [reflexivity|]. split; [reflexivity|]. split; [reflexivity|]. split; [exact Sj|]. split; [exact D|]. split; [change (1 <> 0); lra|]. split; [|repeat split].
  destruct (dry_fraction _ D) as [D1 _].
  destruct (C17_reactants gen_opts _ CEA_AIR_COMPOSITION ["Jet-A(g)"] m SU wa_wf eq_refl eq_refl PD eq_refl (tg_env air (gen_far i)) (fun _ => 0)) as (K1 & _).
  - intros x Hx. apply Rgt_not_eq, wa_weight. rewrite <- SM. apply Proofs_Species.in_sorted. exact Hx.
  - change (mass (Prop_Mix.weight (specR wet_air_dec)) (sorted (dkeys CEA_AIR_COMPOSITION)) air <> 0). rewrite D1. lra.
  - intros r [<-|[]]. apply Rgt_not_eq, wa_fuel_mass.
  - change (o_names gen_opts) with ["mix"]. rewrite lsum1. change (1 / ufac "lbm/s" + 1 / ufac "lbm/s" * gen_far i <> 0). pose proof (ufac_pos "lbm/s") as U. apply Rinv_0_lt_compat in U. unfold Rdiv. apply Rgt_not_eq. nra.
  - change (o_names gen_opts) with ["mix"] in K1. rewrite lsum1 in K1. change (tg_out inf mixed wts rs fl air (gen_far i) (V "Wout") = 1 / ufac "lbm/s" + 1 / ufac "lbm/s" * gen_far i) in K1.
    change (tg_out inf mixed wts rs fl air (gen_far i) (V "Wout") * ufac "lbm/s" <> 0). rewrite K1. pose proof (ufac_pos "lbm/s") as U. replace ((1 / ufac "lbm/s" + 1 / ufac "lbm/s" * gen_far i) * ufac "lbm/s") with (1 + gen_far i) by (field; lra). lra.
Qed.
Print Assumptions C73_nonvacuous.
