(* C70: air that starts with a reactant mixed in (FlowStart, FlightConditions with reactant and mix_ratio_name: humid air) contains it in the requested
   mass ratio, and its composition vector is normalised. *)
From Coq Require Import FunctionalExtensionality Permutation Lia.
From Verif Require Proofs_Species Prop_Species Proofs_ThermoAdd.
From Verif Require Import Lib_R Lib_Py Lib_Loop Spec_Mix Spec_Wire Model_Thermo Proofs_Wire Prop_Static Prop_Thermo Prop_Elem1 Model_ThermoAdd Prop_Mix Model_Elem1 Model_Elem2 Proofs_Elem Prop_Station Prop_Station2 Prop_Station3 Prop_Elements.
Open Scope string_scope. Open Scope list_scope. Open Scope R_scope.

(* out: composition vector of the start, over the elements of m; air: of the dry gas, over those of d; one part of dry gas carries `ratio` parts of reactant *)
Definition humid (sp : spec_data) (d m : dict R) (react : string) (ratio : R) (air out : nat -> R) : Prop :=
  mass (weight sp) (sorted (dkeys m)) out = 1 /\
  forall x, (1 + ratio) * mass_fraction (weight sp) (sorted (dkeys m)) out x =
    mass_fraction (weight sp) (sorted (dkeys d)) air x + ratio * dict_fraction (weight sp) (reactant sp react) x.
Lemma humid_ext sp d m r q air out out' : (forall j, out j = out' j) -> humid sp d m r q air out -> humid sp d m r q air out'.
Proof. intros H. replace out' with out; [auto|]. apply functional_extensionality. exact H. Qed.

Theorem C70_humid_start tp me c ratio w sp d react m :
  let o := mkCea sp (Some d) (Reactants [react]) ["mix"] in
  cea_setup o = Ok c -> wf_opts o -> cea_port_data o = Ok m -> (forall x, In x (dkeys m) -> weight sp x <> 0) -> dict_mass (weight sp) (reactant sp react) <> 0 ->
  solves (flow_start tp me (Some (ACea c, ratio))) w -> mass (weight sp) (sorted (dkeys d)) (w "thermo_add.Fl_I:tot:composition") <> 0 -> val w "W" <> 0 -> 1 + val w ratio <> 0 ->
  humid sp d m react (val w ratio) (w "thermo_add.Fl_I:tot:composition") (w "Fl_O:tot:composition").
Proof.
  intros o SU WF PD Hw Hr Hsol Hm HW H1.
  destruct (C48_flow_start tp me _ w Hsol) as (_ & Co & _).
  apply (humid_ext sp d m react (val w ratio) _ (w "composition")); [intros j; symmetry; apply Co|].
  assert (Ha : fuel_adder (ACea c)) by (exists o, react; auto). destruct (fuel_adder_facts (ACea c) Ha) as (R1 & R2 & _).
  destruct Hsol as [Hs _]. unfold flow_start in Hs. cbn [subs app] in Hs. set (ms := add_sub "thermo_add" (ACea c) _ _) in *. pose proof (Hs ms (or_introl eq_refl)) as HM.
  set (uw := ufac "lbm/s"). assert (N2 : uw <> 0) by apply ufac_n0. set (e := vget (lin ms w)).
  assert (EWi : e (V "Fl_I:stat:W") = val w "W" / uw) by reflexivity.
  assert (Er : e (B "mix" "ratio") = val w ratio / 1).
  { unfold e, vget, lin, ms, add_sub; cbn [sins sname pin]. change ("mix" ++ ":" ++ "ratio")%string with "mix:ratio".
    assert (U : unit_of (add_ins (ACea c)) "mix:ratio" = "") by (unfold add_ins; rewrite R1, R2; reflexivity). rewrite U, ufac_none. reflexivity. }
  assert (Ec : (fun i => e (I "Fl_I:tot:composition" i)) = w "thermo_add.Fl_I:tot:composition").
  { apply functional_extensionality. intros i. change (w "thermo_add.Fl_I:tot:composition" i / 1 = w "thermo_add.Fl_I:tot:composition" i). field. }
  assert (OC : forall j, In j (seq 0 (List.length (sorted (dkeys m)))) -> cea_compute c e (fun _ => 0) (I "composition_out" j) = w "composition" j).
  { intros j Hj. unfold e. change (cea_compute c) with (add_compute (ACea c)). rewrite <- (HM (I "composition_out" j)).
    - change (w "composition" j / 1 = w "composition" j). field.
    - unfold add_vars. apply in_or_app. right. apply in_or_app. left. cbn [add_size]. rewrite (proj1 (C19_cea_vector o c m SU WF PD)). apply in_map. exact Hj. }
  pose proof (C17_reactants o c d [react] m SU WF eq_refl eq_refl PD eq_refl e (fun _ => 0)) as H. cbv zeta in H. change (o_names o) with ["mix"] in H. change (o_spec o) with sp in H.
  rewrite Ec in H. rewrite !lsum1 in H. rewrite EWi, Er in H.
  assert (NW : val w "W" / uw <> 0) by (unfold Rdiv; apply Rmult_integral_contrapositive; split; [exact HW|apply Rinv_neq_0_compat; exact N2]).
  destruct H as (K1 & _ & K3 & K4); [exact Hw|exact Hm|intros r [<-|[]]; exact Hr| |].
  { replace (val w "W" / uw + val w "W" / uw * (val w ratio / 1)) with (val w "W" / uw * (1 + val w ratio)) by (field; exact N2). apply Rmult_integral_contrapositive. split; assumption. }
  split.
  - rewrite <- K3. unfold mass. apply lsum_ext. intros j Hj. rewrite (OC j Hj). reflexivity.
  - intros x. specialize (K4 x). rewrite K1 in K4. rewrite (fraction_ext (weight sp) _ _ _ x OC) in K4. cbn [combine] in K4. rewrite lsum1 in K4. cbn [fst snd] in K4. rewrite Er in K4.
    apply (Rmult_eq_reg_l (val w "W" / uw)); [|exact NW].
    replace (val w ratio / 1) with (val w ratio) in K4 by field. set (A := val w "W" / uw) in *. lra.
Qed.
Print Assumptions C70_humid_start.
(* the same through FlightConditions *)
Theorem C70_humid_flight tp me c ratio w sp d react m :
  let o := mkCea sp (Some d) (Reactants [react]) ["mix"] in
  cea_setup o = Ok c -> wf_opts o -> cea_port_data o = Ok m -> (forall x, In x (dkeys m) -> weight sp x <> 0) -> dict_mass (weight sp) (reactant sp react) <> 0 ->
  no_char "." ratio = true -> ~ In ratio ["MN"; "W"; "T"; "P"; "composition"] -> prefix "Fl_O:" ratio = false ->
  solves (flight_conditions tp me (Some (ACea c, ratio))) w -> mass (weight sp) (sorted (dkeys d)) (w "fs.thermo_add.Fl_I:tot:composition") <> 0 -> val w "W" <> 0 -> 1 + val w ratio <> 0 ->
  humid sp d m react (val w ratio) (w "fs.thermo_add.Fl_I:tot:composition") (w "Fl_O:tot:composition").
Proof.
  intros o SU WF PD Hw Hr Nr Nn Np Hsol Hm HW H1.
  assert (Ha : fuel_adder (ACea c)) by (exists o, react; auto). destruct (fuel_adder_facts (ACea c) Ha) as (R1 & R2 & _).
  assert (So : start_ok (Some (ACea c, ratio))) by (split; [exact R1|split; [exact R2|exact Nn]]).
  destruct (C48_flight_conditions tp me _ w So Hsol) as (_ & Co & _).
  destruct Hsol as [Hs Hc]. unfold flight_conditions in Hs, Hc. cbn [subs conns] in Hs, Hc.
  pose proof (Hs _ (or_intror (or_introl eq_refl))) as HC. destruct (group_open _ _ _ _ _ HC) as (wc & Sc & Ic & Oc).
  assert (G : forall x, gname "conv" [PG ""] x = x) by (intros x; unfold gname, pname; destruct x; reflexivity).
  destruct Sc as [Sc _]. unfold fc_conv in Sc. cbn [subs] in Sc. pose proof (Sc _ (or_introl eq_refl)) as Hf.
  set (pi := [PN "MN"; PN "W"] ++ [PN ratio]) in *. destruct (group_open _ _ _ _ _ Hf) as (wf & Sf & If & Of).
  (* what the innermost group sees *)
  set (fs := flow_start tp me (Some (ACea c, ratio))) in *. set (fcc := fc_conv tp me (Some (ACea c, ratio))) in *.
  assert (Outs : g_outs fs = adder_outs ++ g_outs (flow_start tp me None)) by (apply start_outs; exact So).
  set (ad := ["thermo_add.Fl_I:tot:composition"; ratio; "W"]).
  assert (Ins : forall x, In x ad -> In x (flat_map in_names (subs fs))).
  { intros x Hx. unfold fs, flow_start. cbn [subs app flat_map]. apply in_or_app. left. unfold in_names, add_sub. cbn [sins sname pin]. unfold add_ins. rewrite R1, R2. cbn. cbn in Hx. destruct Hx as [<-|[<-|[<-|[]]]]; tauto. }
  (* names that are inner or belong to the station cannot be the ratio *)
  set (inner := fun x => (negb (no_char "." x) || prefix "Fl_O:" x || String.eqb x "composition")%bool).
  assert (NR : forall x, inner x = true -> x <> ratio).
  { intros x Hx ->. unfold inner in Hx. rewrite Nr, Np in Hx. cbn in Hx. apply String.eqb_eq in Hx. subst ratio. apply Nn. cbn. tauto. }
  assert (ON : forall x, In x ad -> ~ In x (g_outs fs)).
  { intros x Hx. rewrite Outs.
    assert (K : forallb (fun y => if inner y then negb (memb y ["thermo_add.Fl_I:tot:composition"; "W"]) else false) (adder_outs ++ g_outs (flow_start tp me None)) = true) by (unfold inner; destruct me; vm_compute; reflexivity).
    rewrite forallb_forall in K. intros Hy. specialize (K x Hy). destruct (inner x) eqn:Ei; [|discriminate]. apply negb_true_iff, memb_not in K. apply NR in Ei. destruct Hx as [<-|[<-|[<-|[]]]]; [apply K; left; reflexivity|exact (Ei eq_refl)|apply K; right; left; reflexivity]. }
  assert (CN : forall x, In x ad -> ~ In x (map snd (conns fs))).
  { intros x Hx Hy. assert (K : forallb (fun y => if inner y then negb (memb y ["thermo_add.Fl_I:tot:composition"; "W"]) else false) (map snd (conns fs)) = true) by (unfold inner, fs; vm_compute; reflexivity).
    rewrite forallb_forall in K. specialize (K x Hy). destruct (inner x) eqn:Ei; [|discriminate]. apply negb_true_iff, memb_not in K. apply NR in Ei. destruct Hx as [<-|[<-|[<-|[]]]]; [apply K; left; reflexivity|exact (Ei eq_refl)|apply K; right; left; reflexivity]. }
  assert (FI : forall x, In x ad -> In x (g_ins fs)) by (intros x Hx; apply in_g_ins; split; [exact (Ins x Hx)|split; [exact (ON x Hx)|exact (CN x Hx)]]).
  assert (G1 : gname "fs" pi "thermo_add.Fl_I:tot:composition" = "fs.thermo_add.Fl_I:tot:composition").
  { unfold gname, pi. cbn [app pname]. destruct (String.eqb "thermo_add.Fl_I:tot:composition" ratio) eqn:E; [apply String.eqb_eq in E; exfalso; refine (NR "thermo_add.Fl_I:tot:composition" _ E); reflexivity|reflexivity]. }
  assert (G2 : gname "fs" pi ratio = ratio).
  { unfold gname, pi. cbn [app pname]. destruct (String.eqb ratio "MN"), (String.eqb ratio "W"); try reflexivity. rewrite String.eqb_refl. reflexivity. }
  assert (G3 : gname "fs" pi "W" = "W") by reflexivity.
  set (ac := ["fs.thermo_add.Fl_I:tot:composition"; ratio; "W"]).
  assert (CI : forall x, In x ac -> In x (g_ins fcc)).
  { intros x Hx. apply in_g_ins. split; [|split; [|intros []]].
    - unfold fcc, fc_conv. cbn [subs flat_map]. apply in_or_app. left. fold fs pi. unfold in_names, group_sub. cbn [sins sname pin]. unfold plain, names. rewrite (map_map _ fst). cbn [fst]. rewrite map_id. apply in_map_iff.
      destruct Hx as [<-|[<-|[<-|[]]]]; [exists "thermo_add.Fl_I:tot:composition"; split; [exact G1|apply FI; left; reflexivity]|exists ratio; split; [exact G2|apply FI; right; left; reflexivity]|exists "W"; split; [exact G3|apply FI; right; right; left; reflexivity]].
    - intros Hy.
      assert (K : forallb (fun y => if inner y then negb (memb y ["fs.thermo_add.Fl_I:tot:composition"; "W"]) else false) (map (gname "fs" [PG "Fl_O:"]) (adder_outs ++ g_outs (flow_start tp me None)) ++ ["balance.Tt"; "balance.Pt"]) = true) by (unfold inner; destruct me; vm_compute; reflexivity).
      unfold fcc, fc_conv, g_outs in Hy. cbn [subs flat_map] in Hy. rewrite app_nil_r in Hy. fold fs in Hy.
      assert (Hz : In x (map (gname "fs" [PG "Fl_O:"]) (adder_outs ++ g_outs (flow_start tp me None)) ++ ["balance.Tt"; "balance.Pt"])).
      { apply in_app_or in Hy as [Hy|Hy]; apply in_or_app; [left|right; exact Hy]. unfold out_names, group_sub in Hy. cbn [souts sname pout] in Hy. unfold plain, names in Hy. rewrite (map_map _ fst) in Hy. cbn [fst] in Hy. rewrite map_id, Outs in Hy. exact Hy. }
      rewrite forallb_forall in K. specialize (K x Hz). destruct (inner x) eqn:Ei; [|discriminate]. apply negb_true_iff, memb_not in K. apply NR in Ei. destruct Hx as [<-|[<-|[<-|[]]]]; [apply K; left; reflexivity|exact (Ei eq_refl)|apply K; right; left; reflexivity]. }
  assert (Ea : forall j, wf "thermo_add.Fl_I:tot:composition" j = w "fs.thermo_add.Fl_I:tot:composition" j).
  { intros j. rewrite (If _ _ (FI "thermo_add.Fl_I:tot:composition" ltac:(left; reflexivity))), G1, (Ic _ _ (CI "fs.thermo_add.Fl_I:tot:composition" ltac:(left; reflexivity))), G. reflexivity. }
  assert (Er : forall j, wf ratio j = w ratio j) by (intros j; rewrite (If _ _ (FI ratio ltac:(right; left; reflexivity))), G2, (Ic _ _ (CI ratio ltac:(right; left; reflexivity))), G; reflexivity).
  assert (EW : forall j, wf "W" j = w "W" j) by (intros j; rewrite (If _ _ (FI "W" ltac:(right; right; left; reflexivity))), G3, (Ic _ _ (CI "W" ltac:(right; right; left; reflexivity))), G; reflexivity).
  apply functional_extensionality in Ea.
  assert (H := C70_humid_start tp me c ratio wf sp d react m SU WF PD Hw Hr Sf). unfold val in *. rewrite Ea, Er, EW in H. specialize (H Hm HW H1).
  refine (humid_ext _ _ _ _ _ _ _ _ _ H). intros j. rewrite Co.
  destruct (C48_flow_start tp me (Some (ACea c, ratio)) wf Sf) as (_ & Cf & _). rewrite (Cf j).
  assert (C1 : In "composition" (g_outs fs)) by (rewrite Outs; left; reflexivity). rewrite (Of _ _ C1).
  assert (C2 : In "fs.composition" (g_outs fcc)).
  { unfold fcc, fc_conv, g_outs. cbn [subs flat_map]. apply in_or_app. left. fold fs. unfold out_names, group_sub. cbn [souts sname pout]. unfold plain, names. rewrite (map_map _ fst). cbn [fst]. rewrite map_id. apply in_map_iff. exists "composition". split; [reflexivity|exact C1]. }
  change (gname "fs" [PG "Fl_O:"] "composition") with "fs.composition". rewrite (Oc _ _ C2), G. reflexivity.
Qed.
Print Assumptions C70_humid_flight.
(* ---------- a gas whose composition vector was left at its initial value consists of what its dictionary says ---------- *)
Definition at_default (sp : spec_data) (d : dict R) (v : nat -> R) : Prop :=
  exists p, mk_properties sp (Some d) = Ok p /\ forall i, (i < List.length (p_elements p))%nat -> v i = nth i (p_b0 p) 0.
Lemma dict_mass_keys wt d : dwf d -> dict_mass wt d = lsum (fun e => dgetd d e 0 * wt e) (dkeys d).
Proof.
  intros W. unfold dict_mass, mass. rewrite <- (Proofs_ThermoAdd.lsum_nth (fun e => dgetd d e 0 * wt e)). apply lsum_ext. intros i Hi. apply in_seq in Hi. f_equal.
  rewrite (Proofs_ThermoAdd.dgetd_amount d _ W), (Proofs_ThermoAdd.amount_hit _ _ i W) by lia. reflexivity.
Qed.
Theorem C70_default_composition sp d v : at_default sp d v -> dwf d -> (forall e, In e (dkeys d) -> weight sp e <> 0) -> dict_mass (weight sp) d <> 0 ->
  mass (weight sp) (sorted (dkeys d)) v = 1 /\ forall x, mass_fraction (weight sp) (sorted (dkeys d)) v x = dict_fraction (weight sp) d x.
Proof.
  intros (p & Hp & Hv) W Hw Hm. destruct (Prop_Species.mk_inv sp d p Hp) as (_ & E & B & L & N).
  assert (Ns : NoDup (sorted (dkeys d))) by (apply Proofs_Species.sorted_nodup; exact W).
  set (K := Proofs_Species.b0_mass (sorted (dkeys d)) d (p_wts p)).
  assert (Hv' : forall i, (i < List.length (sorted (dkeys d)))%nat -> v i = dgetd d (nth i (sorted (dkeys d)) "") 0 / K).
  { intros i Hi. rewrite Hv by (rewrite E; exact Hi). rewrite B. apply Proofs_Species.b0_nth; [congruence|exact Hi|]. rewrite N by (rewrite E; exact Hi). apply Hw. rewrite E. apply Proofs_Species.in_sorted, nth_In, Hi. }
  assert (EK : K = dict_mass (weight sp) d).
  { rewrite (dict_mass_keys _ d W). unfold K, Proofs_Species.b0_mass. rewrite Prop_Species.rsum_map2 by (rewrite map_length, <- E; exact L). rewrite map_length.
    rewrite (lsum_perm _ _ _ (Proofs_Species.sorted_perm (dkeys d))), <- (Proofs_ThermoAdd.lsum_nth (fun e => dgetd d e 0 * weight sp e)). apply lsum_ext. intros i Hi. apply in_seq in Hi.
    rewrite N by (rewrite E; lia). rewrite E. f_equal. rewrite (nth_indep _ 0 (dgetd d "" 0)) by (rewrite map_length; lia). apply (map_nth (fun e => dgetd d e 0)). }
  assert (K0 : K <> 0) by (rewrite EK; exact Hm).
  assert (M1 : mass (weight sp) (sorted (dkeys d)) v = 1).
  { unfold mass. rewrite (lsum_ext _ (fun i => dgetd d (nth i (sorted (dkeys d)) "") 0 * weight sp (nth i (sorted (dkeys d)) "") / K)).
    - rewrite lsum_div, (Proofs_ThermoAdd.lsum_nth (fun e => dgetd d e 0 * weight sp e)), <- (lsum_perm _ _ _ (Proofs_Species.sorted_perm (dkeys d))), <- (dict_mass_keys _ d W), <- EK. field. exact K0.
    - intros i Hi. apply in_seq in Hi. rewrite Hv' by lia. field. exact K0. }
  split; [exact M1|]. intros x. unfold dict_fraction, mass_fraction. rewrite M1. fold (dict_mass (weight sp) d). rewrite <- EK, <- (Proofs_ThermoAdd.dgetd_amount d x W).
  destruct (in_dec string_dec x (dkeys d)) as [Hx|Hx].
  - apply Proofs_Species.in_sorted in Hx. destruct (Proofs_ThermoAdd.index_in x _ Hx) as [I1 I2]. rewrite <- I2 at 1. rewrite (Proofs_ThermoAdd.amount_hit _ _ _ Ns I1), (Hv' _ I1), I2. field. exact K0.
  - rewrite Proofs_ThermoAdd.amount_miss by (rewrite Proofs_Species.in_sorted; exact Hx).
    replace (dgetd d x 0) with 0; [unfold Rdiv; ring|]. unfold dgetd. destruct (dget d x) eqn:G; [|reflexivity]. exfalso. apply Hx. apply dget_In in G. apply in_map_iff. eexists. split; [|exact G]. reflexivity.
Qed.
Print Assumptions C70_default_composition.
