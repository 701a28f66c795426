(* C73: what the generator script writes into a table, and what an engine that uses the table then computes. *)
From Coq Require Import FunctionalExtensionality Permutation Lia Sorting.Sorted.
From Verif Require Proofs_Species Prop_Species Proofs_ThermoAdd.
From Verif Require Import Lib_R Lib_Py Lib_Loop Spec_Mix Spec_Comp Spec_Wire Model_Thermo Proofs_Wire Prop_Static Prop_Thermo Prop_Elem1 Model_Species Data_Thermo Model_ThermoAdd Prop_Mix Model_Elem1 Model_Elem2 Proofs_Elem Prop_Station Prop_Station2 Prop_Station3 Prop_Elements Prop_Elements2 Prop_Humid.
From Verif Require Import Model_Equil Proofs_Equil Proofs_Props Proofs_Thermo Prop_Equil Model_Cea Proofs_Cea Proofs_Stable Prop_Cea Model_Maps Model_Tab Prop_Data Prop_Tab Prop_CycleSetup Model_Examples Data_Examples Prop_CycleSetup2 Model_TabGen.
Open Scope string_scope. Open Scope list_scope. Open Scope R_scope.
Notation weight := Prop_Mix.weight (only parsing).

(* ---------- the two sets of species data the script uses hold the same species, methane and ethylene apart ---------- *)
Definition no_H (np : string * spD) : bool := negb (str_in "H" (dkeys (d_elems (snd np)))).
Lemma same_products : filter no_H (d_products janaf_dec) = filter no_H (d_products wet_air_dec).
Proof. vm_compute. reflexivity. Qed.
Lemma same_weights : d_element_wts janaf_dec = d_element_wts wet_air_dec.
Proof. reflexivity. Qed.
Lemma spR_keys s : dkeys (sp_elems (spR s)) = dkeys (d_elems s).
Proof. unfold spR. cbn [sp_elems]. apply dkeys_dictR. Qed.
Lemma valid_same e : str_in e (valid_elements (specR janaf_dec)) = str_in e (valid_elements (specR wet_air_dec)).
Proof.
  assert (A : forallb (fun e => str_in e (valid_elements (specR wet_air_dec))) (valid_elements (specR janaf_dec)) = true) by (vm_compute; match goal with |- true = true => reflexivity end).
  assert (B : forallb (fun e => str_in e (valid_elements (specR janaf_dec))) (valid_elements (specR wet_air_dec)) = true) by (vm_compute; match goal with |- true = true => reflexivity end).
  rewrite forallb_forall in A, B. destruct (str_in e (valid_elements (specR janaf_dec))) eqn:E1, (str_in e (valid_elements (specR wet_air_dec))) eqn:E2; try reflexivity.
  - apply str_in_iff in E1. rewrite (A e E1) in E2. discriminate.
  - apply str_in_iff in E2. rewrite (B e E2) in E1. discriminate.
Qed.
Lemma filter_sub {A} (f h : A -> bool) l : (forall x, f x = true -> h x = true) -> filter f l = filter f (filter h l).
Proof. intros H. induction l as [|a l IH]; [reflexivity|]. cbn. destruct (h a) eqn:E; cbn; [destruct (f a); congruence|]. destruct (f a) eqn:F; [rewrite (H a F) in E; discriminate|exact IH]. Qed.
Lemma filter_map {A B} (g : A -> B) (f : B -> bool) l : filter f (map g l) = map g (filter (fun x => f (g x)) l).
Proof. induction l as [|a l IH]; [reflexivity|]. cbn. destruct (f (g a)); cbn; congruence. Qed.
(* so a gas without hydrogen has the same species, weights and initial composition whichever of the two is used *)
Theorem C73_same_air d : ~ In "H" (dkeys d) -> mk_properties (specR janaf_dec) (Some d) = mk_properties (specR wet_air_dec) (Some d).
Proof.
  intros NH. unfold mk_properties. 
  assert (F : filter (fun np => formable (sorted (dkeys d)) (snd np)) (products (specR janaf_dec)) = filter (fun np => formable (sorted (dkeys d)) (snd np)) (products (specR wet_air_dec))).
  { unfold specR. cbn [products]. rewrite !filter_map. f_equal. cbn [snd]. set (f := fun x : string * spD => formable (sorted (dkeys d)) (spR (snd x))).
    assert (S : forall x, f x = true -> no_H x = true).
    { intros x Hx. unfold f, formable in Hx. rewrite spR_keys, forallb_forall in Hx. unfold no_H. destruct (str_in "H" (dkeys (d_elems (snd x)))) eqn:E; [|reflexivity].
      apply str_in_iff in E. apply Hx in E. exfalso. apply NH. apply Proofs_Species.in_sorted, str_in_iff. exact E. }
    rewrite (filter_sub f no_H _ S), same_products, <- (filter_sub f no_H _ S). reflexivity. }
  rewrite F. assert (E : forallb (fun e => str_in e (valid_elements (specR janaf_dec))) (sorted (dkeys d)) = forallb (fun e => str_in e (valid_elements (specR wet_air_dec))) (sorted (dkeys d))).
  { generalize (sorted (dkeys d)) as l. induction l as [|e l IH]; [reflexivity|]. cbn [forallb]. rewrite valid_same, IH. reflexivity. }
  rewrite E. reflexivity.
Qed.
Print Assumptions C73_same_air.

(* ---------- specification: air that burnt f times its mass of the fuel, and dry air ---------- *)
Notation wa := (specR wet_air_dec).
Notation fuel := "Jet-A(g)".
(* composition vectors: moles per gram of mixture of the elements, in the order of the station's vector *)
Definition dry_air (v : nat -> R) : Prop := at_default wa CEA_AIR_COMPOSITION v.
Definition air_els5 : list string := ["Ar"; "C"; "H"; "N"; "O"].
Definition burnt (f : R) (v : nat -> R) : Prop :=
  mass (weight wa) air_els5 v = 1 /\
  forall e, (1 + f) * mass_fraction (weight wa) air_els5 v e = dict_fraction (weight wa) CEA_AIR_COMPOSITION e + f * dict_fraction (weight wa) (reactant wa fuel) e.
Notation xw := x_WetPropulsor.
Lemma spec_wa : x_spec xw = wa. Proof. reflexivity. Qed.
Lemma wa_weight e : In e air_els5 -> 0 < weight wa e.
Proof. exact (spec_weight xw e). Qed.
Lemma wa_air_mass : 0 < dict_mass (weight wa) CEA_AIR_COMPOSITION.
Proof. exact (air_mass xw). Qed.
Lemma wa_fuel : reactant wa fuel = [("C", dR (12, 0)%Z); ("H", dR (23, 0)%Z)].
Proof. reflexivity. Qed.
Lemma wa_fuel_mass : 0 < dict_mass (weight wa) (reactant wa fuel).
Proof.
  rewrite wa_fuel. change (0 < dR (12, 0)%Z * weight wa "C" + (dR (23, 0)%Z * weight wa "H" + 0)). pose proof (wa_weight "C" ltac:(cbn; tauto)). pose proof (wa_weight "H" ltac:(cbn; tauto)).
  assert (A := dR_pos 12 0 ltac:(lia)). assert (A' := dR_pos 23 0 ltac:(lia)). nra.
Qed.
Lemma wa_air_good : good wa CEA_AIR_COMPOSITION.
Proof. exact (air_good xw). Qed.
Lemma wa_air_wt e : In e (dkeys CEA_AIR_COMPOSITION) -> weight wa e <> 0.
Proof. intros H. apply (proj2 wa_air_good). exact H. Qed.
Lemma gen_port : exists m, cea_port_data gen_opts = Ok m /\ sorted (dkeys m) = air_els5.
Proof.
  destruct (cea_port_data gen_opts) as [m|] eqn:E; [|exfalso; cbv -[R IZR Rmult powerRZ] in E; discriminate]. exists m. split; [reflexivity|].
  assert (K : match cea_port_data gen_opts with Ok m => sorted (dkeys m) | Err _ => [] end = air_els5) by (vm_compute; reflexivity). rewrite E in K. exact K.
Qed.
Lemma wa_wf : wf_opts gen_opts.
Proof.
  split; [|split; [|exact Logic.I]].
  - intros d E. injection E as <-. apply (proj1 wa_air_good).
  - intros r d E. apply (proj1 (react_good xw r d E)).
Qed.
Lemma dry_fraction v : dry_air v -> mass (weight wa) (sorted (dkeys CEA_AIR_COMPOSITION)) v = 1 /\ forall e, mass_fraction (weight wa) (sorted (dkeys CEA_AIR_COMPOSITION)) v e = dict_fraction (weight wa) CEA_AIR_COMPOSITION e.
Proof. intros H. apply (C70_default_composition wa CEA_AIR_COMPOSITION v H (proj1 wa_air_good) wa_air_wt). apply Rgt_not_eq, wa_air_mass. Qed.

(* ---------- the two groups ---------- *)
Lemma air_station tp me w : solves (gen_air tp me) w -> station tp me (w "flow.composition") w "flow" /\ val w "flow:T" = val w "T" /\ val w "flow:P" = val w "P".
Proof.
  intros [Hs _]. unfold gen_air in Hs. cbn [subs] in Hs.
  destruct (sub_TP tp me "flow" "flow" "flow" [PN "T"; PN "P"] [PG "flow:"] w) as ((T1 & T2 & T3) & T4 & _); [okn|shw|apply Hs; insub|].
  assert (E : w (at_ "flow" "composition") = w "flow.composition") by (apply functional_extensionality; intros k; apply T2). rewrite E in T1.
  split; [exact T1|]. split; [apply T4|apply T3].
Qed.
Lemma fuel_station tp me c w : cea_setup gen_opts = Ok c -> solves (gen_fuel tp me (ACea c)) w -> dry_air (w "composition") -> val w "W" <> 0 -> 1 + val w "FAR" <> 0 ->
  exists v, burnt (val w "FAR") v /\ station tp me v w "flow" /\ val w "flow:T" = val w "T" /\ val w "flow:P" = val w "P" /\ val w "Wfuel" = val w "W" * val w "FAR".
Proof.
  intros SU [Hs Hc] Hd HW H1. unfold gen_fuel in Hs, Hc. cbn [subs conns] in Hs, Hc. destruct gen_port as (m & PD & SM).
  assert (Ha : fuel_adder (ACea c)) by (exists gen_opts, fuel; split; [exact SU|split; reflexivity]). destruct (fuel_adder_facts (ACea c) Ha) as (R1 & R2 & _).
  set (ms := add_sub "mix_fuel" (ACea c) [PA "Fl_I:stat:W" "W"; PA "mix:ratio" "FAR"; PA "Fl_I:tot:composition" "composition"; PA "Fl_I:tot:h" "h"] [PA "mix:W" "Wfuel"; PN "Wout"]) in *.
  pose proof (Hs ms ltac:(insub)) as HM.
  destruct (sub_TP tp me "vitiated_flow" "flow" "flow" [PN "T"; PN "P"] [PG "flow:"] w) as ((T1 & T2 & T3) & T4 & _); [okn|shw|apply Hs; insub|].
  pose proof (Hc "mix_fuel.composition_out" "vitiated_flow.composition" ltac:(insub)) as Cc.
  assert (E : w (at_ "flow" "composition") = w "mix_fuel.composition_out").
  { apply functional_extensionality. intros k. rewrite (T2 k). change (gname "vitiated_flow" [PN "T"; PN "P"] "composition") with "vitiated_flow.composition". apply Cc. }
  rewrite E in T1. exists (w "mix_fuel.composition_out").
  set (uw := ufac "lbm/s"). assert (N2 : uw <> 0) by apply ufac_n0. set (e := vget (lin ms w)).
  assert (EWi : e (V "Fl_I:stat:W") = val w "W" / uw) by reflexivity.
  assert (Er : e (B "mix" "ratio") = val w "FAR" / 1).
  { unfold e, vget, lin, ms, add_sub; cbn [sins sname pin]. change ("mix" ++ ":" ++ "ratio")%string with "mix:ratio".
    assert (U : unit_of (add_ins (ACea c)) "mix:ratio" = "") by (unfold add_ins; rewrite R1, R2; reflexivity). rewrite U, ufac_none. reflexivity. }
  assert (Ec : (fun i => e (I "Fl_I:tot:composition" i)) = w "composition").
  { apply functional_extensionality. intros i. change (w "composition" i / 1 = w "composition" i). field. }
  assert (OC : forall j, In j (seq 0 (List.length air_els5)) -> cea_compute c e (fun _ => 0) (I "composition_out" j) = w "mix_fuel.composition_out" j).
  { intros j Hj. unfold e. change (cea_compute c) with (add_compute (ACea c)). rewrite <- (HM (I "composition_out" j)).
    - change (w "mix_fuel.composition_out" j / 1 = w "mix_fuel.composition_out" j). field.
    - unfold add_vars. apply in_or_app. right. apply in_or_app. left. cbn [add_size]. rewrite (proj1 (C19_cea_vector gen_opts c m SU wa_wf PD)), SM. apply in_map. exact Hj. }
  assert (OF : cea_compute c e (fun _ => 0) (B "mix" "W") = val w "Wfuel" / uw).
  { unfold e. change (cea_compute c) with (add_compute (ACea c)). rewrite <- (HM (B "mix" "W")).
    - unfold vget, lout, ms, add_sub; cbn [souts sname pout]. change ("mix" ++ ":" ++ "W")%string with "mix:W".
      assert (U : unit_of (add_outs (ACea c)) "mix:W" = "lbm/s") by (unfold add_outs; rewrite R1, R2; reflexivity). rewrite U. reflexivity.
    - unfold add_vars. apply in_or_app. right. apply in_or_app. right. rewrite R1, R2. left. reflexivity. }
  destruct (dry_fraction _ Hd) as [D1 D2].
  pose proof (C17_reactants gen_opts c CEA_AIR_COMPOSITION [fuel] m SU wa_wf eq_refl eq_refl PD eq_refl e (fun _ => 0)) as H. cbv zeta in H.
  change (o_names gen_opts) with ["mix"] in H. change (o_spec gen_opts) with wa in H. rewrite Ec, SM in H. rewrite !lsum1 in H. rewrite EWi, Er in H.
  assert (NW : val w "W" / uw <> 0) by (unfold Rdiv; apply Rmult_integral_contrapositive; split; [exact HW|apply Rinv_neq_0_compat; exact N2]).
  destruct H as (K1 & K2 & K3 & K4).
  { intros x Hx. apply Rgt_not_eq, wa_weight. rewrite <- SM. apply Proofs_Species.in_sorted. exact Hx. }
  { rewrite D1. lra. }
  { intros r [<-|[]]. apply Rgt_not_eq, wa_fuel_mass. }
  { replace (val w "W" / uw + val w "W" / uw * (val w "FAR" / 1)) with (val w "W" / uw * (1 + val w "FAR")) by (field; exact N2). apply Rmult_integral_contrapositive. split; assumption. }
  split; [|split; [exact T1|split; [apply T4|split; [apply T3|]]]].
  - split.
    + rewrite <- K3. unfold mass. apply lsum_ext. intros j Hj. rewrite (OC j Hj). reflexivity.
    + intros x. specialize (K4 x). rewrite K1 in K4. rewrite (fraction_ext (weight wa) _ _ _ x OC) in K4. cbn [combine] in K4. rewrite lsum1 in K4. cbn [fst snd] in K4. rewrite Er, D2 in K4.
      apply (Rmult_eq_reg_l (val w "W" / uw)); [|exact NW]. replace (val w "FAR" / 1) with (val w "FAR") in K4 by field. set (A := val w "W" / uw) in *. lra.
  - specialize (K2 "mix" ltac:(left; reflexivity)). rewrite OF, Er in K2. apply (Rmult_eq_reg_r (/ uw)); [|apply Rinv_neq_0_compat; exact N2]. unfold Rdiv in K2. rewrite K2. field. exact N2.
Qed.

(* ---------- the grids ---------- *)
Definition gen_keys : list string := ["FAR"].
Lemma map_nth_seq {A} (f : nat -> A) n i d : (i < n)%nat -> nth i (map f (seq 0 n)) d = f i.
Proof. intros H. rewrite (nth_indep _ d (f 0%nat)) by (rewrite map_length, seq_length; exact H). rewrite map_nth, seq_nth by exact H. reflexivity. Qed.
Lemma sorted_map_seq (f : nat -> R) : (forall i j, (i < j)%nat -> f i < f j) -> forall n a, StronglySorted Rlt (map f (seq a n)).
Proof.
  intros H. induction n as [|n IH]; intros a; [constructor|]. cbn. constructor; [apply IH|]. apply Forall_forall. intros x Hx. apply in_map_iff in Hx as (i & <- & Hi). apply in_seq in Hi. apply H. lia.
Qed.
Lemma gen_far_up i j : (i < j)%nat -> gen_far i < gen_far j.
Proof. intros H. apply lt_INR in H. unfold gen_far. lra. Qed.
Lemma gen_T_up i j : (i < j)%nat -> gen_T i < gen_T j.
Proof. intros H. apply lt_INR in H. unfold gen_T. lra. Qed.
Lemma gen_P_exp j : gen_P j = exp (7 * INR j / 109 * ln 10).
Proof. unfold gen_P, rpow. destruct (Req_EM_T 10 0); [lra|]. reflexivity. Qed.
Lemma gen_P_up i j : (i < j)%nat -> gen_P i < gen_P j.
Proof.
  intros H. apply lt_INR in H. rewrite !gen_P_exp. apply exp_increasing. apply Rmult_lt_compat_r; [|lra]. rewrite <- ln_1. apply ln_increasing; lra.
Qed.
Lemma gen_P_pos j : 0 < gen_P j.
Proof. rewrite gen_P_exp. apply exp_pos. Qed.
Lemma in_grid_seq (f : nat -> R) n x : in_grid (map f (seq 0 (S n))) x <-> f 0%nat <= x <= f n.
Proof.
  assert (H1 : hd_error (map f (seq 0 (S n))) = Some (f 0%nat)) by reflexivity.
  assert (H2 : hd_error (rev (map f (seq 0 (S n)))) = Some (f n)) by (rewrite seq_S, map_app, rev_app_distr; reflexivity).
  split; [intros (a & b & A & B & H); rewrite H1 in A; rewrite H2 in B; injection A as <-; injection B as <-; exact H|intros H; exists (f 0%nat), (f n); auto].
Qed.
(* the table can be used by the TABULAR method, and covers exactly the fuel-air ratios from 0 to 5 %, pressures from 1 Pa to 10 MPa, temperatures from 100 to 3500 K *)
Theorem C73_grids tpa tpf c sp : generated tpa tpf c sp -> table_ok sp gen_keys /\
  (forall f, in_grid (tb_grid sp "FAR") f <-> 0 <= f <= 5 / 100) /\ (forall P, in_grid (tb_grid sp "P") P <-> 1 <= P <= 10 ^ 7) /\ (forall T, in_grid (tb_grid sp "T") T <-> 100 <= T <= 3500).
Proof.
  intros G. assert (A1 := gd_far _ _ _ _ G). assert (A2 := gd_P _ _ _ _ G). assert (A3 := gd_T _ _ _ _ G). split; [|split; [|split]].
  - intros a Ha. cbn in Ha. repeat destruct Ha as [<-|Ha]; try contradiction.
    + rewrite A1, map_length, seq_length. split; [apply sorted_map_seq; exact gen_far_up|lia].
    + rewrite A2, map_length, seq_length. split; [apply sorted_map_seq; exact gen_P_up|lia].
    + rewrite A3, map_length, seq_length. split; [apply sorted_map_seq; exact gen_T_up|lia].
  - intros f. rewrite A1, (in_grid_seq gen_far 19). unfold gen_far. rewrite INR_IZR_INZ, (INR_IZR_INZ 19). cbn [Z.of_nat Pos.of_succ_nat Pos.succ]. lra.
  - intros P. rewrite A2, (in_grid_seq gen_P 109). replace (gen_P 0) with 1; [replace (gen_P 109) with (10 ^ 7); [reflexivity|]|].
    + rewrite gen_P_exp. replace (7 * INR 109 / 109) with (INR 7) by (rewrite !INR_IZR_INZ; cbn [Z.of_nat Pos.of_succ_nat Pos.succ]; lra).
      rewrite <- (Rpower_pow 7 10) by lra. reflexivity.
    + rewrite gen_P_exp. cbn [INR]. replace (7 * 0 / 109 * ln 10) with 0 by lra. symmetry. apply exp_0.
  - intros T. rewrite A3, (in_grid_seq gen_T 99). unfold gen_T. rewrite INR_IZR_INZ, (INR_IZR_INZ 99). cbn [Z.of_nat Pos.of_succ_nat Pos.succ]. lra.
Qed.
Print Assumptions C73_grids.

(* ---------- the entries ---------- *)
Lemma gen_far_0 : gen_far 0 = 0. Proof. unfold gen_far. cbn [INR]. lra. Qed.
Lemma gen_far_pos i : 0 <= gen_far i. Proof. unfold gen_far. pose proof (pos_INR i). lra. Qed.
(* the gas an entry of row i was computed for *)
Definition row_gas (tpa tpf : R -> R -> (nat -> R) -> (string -> R) -> Prop) (i : nat) := if Nat.eqb i 0 then tpa else tpf.
Definition row_composition (i : nat) (v : nat -> R) : Prop := if Nat.eqb i 0 then dry_air v else burnt (gen_far i) v.
(* every entry is the CEA property, converted to SI, of dry air (row 0) or of dry air that burnt gen_far i times its mass of Jet-A, at the point's T and P *)
Theorem C73_entries tpa tpf c sp i j k : cea_setup gen_opts = Ok c -> generated tpa tpf c sp -> (i < 20)%nat -> (j < 110)%nat -> (k < 100)%nat ->
  exists v p, row_composition i v /\ row_gas tpa tpf i (gen_T k) (gen_P j / 10 ^ 5) v p /\ forall x, In x tab_outputs -> tb_val sp x [i; j; k] = p x * ufac (prop_unit CEA x).
Proof.
  intros SU G Hi Hj Hk. replace (10 ^ 5) with (ufac (p_unit CEA)) by (symmetry; exact u_bar). destruct (Nat.eq_dec i 0) as [->|Ni].
  - destruct (gd_air _ _ _ _ G j k Hj Hk) as (w & Sol & ET & EP & Dw & Ew). destruct (air_station _ _ _ Sol) as ((p & Hp & Ex) & FT & FP).
    exists (w "flow.composition"), p. split; [|split].
    + destruct Dw as (q & Hq & Hv). rewrite C73_same_air in Hq by (cbn; intuition discriminate). exists q. auto.
    + change (at_ "flow" "T") with "flow:T" in Hp. change (at_ "flow" "P") with "flow:P" in Hp. unfold val in FT, FP, ET, EP. rewrite FT, FP, ET, EP in Hp. exact Hp.
    + intros x Hx. rewrite (Ew x Hx). exact (Ex x Hx).
  - destruct (gd_fuel _ _ _ _ G i j k ltac:(lia) Hj Hk) as (w & Sol & ET & EP & EF & EW & Dw & Ew).
    assert (GP := gen_far_pos i). destruct (fuel_station _ _ _ _ SU Sol Dw) as (v & Bv & (p & Hp & Ex) & FT & FP & _); [lra|rewrite EF; lra|].
    unfold row_composition, row_gas. assert (E0 : Nat.eqb i 0 = false) by (apply Nat.eqb_neq; exact Ni). rewrite E0. exists v, p. split; [rewrite EF in Bv; exact Bv|split].
    + change (at_ "flow" "T") with "flow:T" in Hp. change (at_ "flow" "P") with "flow:P" in Hp. unfold val in FT, FP, ET, EP. rewrite FT, FP, ET, EP in Hp. exact Hp.
    + intros x Hx. rewrite (Ew x Hx). exact (Ex x Hx).
Qed.
Print Assumptions C73_entries.
(* at a point of the grid a station of the TABULAR method is a station of the CEA method *)
Theorem C73_station tpa tpf c sp i j k co w fl : cea_setup gen_opts = Ok c -> generated tpa tpf c sp -> (i < 20)%nat -> (j < 110)%nat -> (k < 100)%nat ->
  station (tab_tp sp gen_keys) TABULAR co w fl -> co 0%nat = gen_far i -> val w (at_ fl "P") = gen_P j -> val w (at_ fl "T") = gen_T k ->
  exists v, row_composition i v /\ station (row_gas tpa tpf i) CEA v w fl.
Proof.
  intros SU G Hi Hj Hk (p & Hp & Ex) EC EP ET. destruct (C73_entries _ _ _ _ i j k SU G Hi Hj Hk) as (v & q & Rv & Hq & Eq). exists v. split; [exact Rv|]. exists q.
  unfold val in ET, EP. split; [rewrite ET, EP; change (ufac (p_unit CEA)) with (ufac "bar"); rewrite u_bar; exact Hq|]. intros x Hx. rewrite (Ex x Hx), <- (Eq x) by exact Hx.
  replace (ufac (prop_unit TABULAR x)) with 1 by (cbn in Hx; repeat destruct Hx as [<-|Hx]; try contradiction; reflexivity). rewrite Rmult_1_r.
  apply (C69_nodes sp gen_keys [i] j k _ _ co p x (proj1 (C73_grids _ _ _ _ G))) in Hp; [exact Hp| | | | |exact Hx].
  - split; [reflexivity|]. split; [|split; [rewrite (gd_P _ _ _ _ G), map_length, seq_length; exact Hj|rewrite (gd_T _ _ _ _ G), map_length, seq_length; exact Hk]].
    intros a Ha. cbn in Ha. assert (a = 0%nat) as -> by lia. change (comp_grid sp gen_keys 0) with (tb_grid sp "FAR"). rewrite (gd_far _ _ _ _ G), map_length, seq_length. exact Hi.
  - intros a Ha. cbn in Ha. assert (a = 0%nat) as -> by lia. change (comp_grid sp gen_keys 0) with (tb_grid sp "FAR"). rewrite (gd_far _ _ _ _ G). cbn [nth]. rewrite map_nth_seq by exact Hi. exact EC.
  - rewrite (gd_P _ _ _ _ G), map_nth_seq by exact Hj. change (ufac (p_unit TABULAR)) with 1. rewrite EP. field.
  - rewrite (gd_T _ _ _ _ G), map_nth_seq by exact Hk. exact ET.
Qed.
Print Assumptions C73_station.

(* ---------- a combustor that uses the table ---------- *)
Lemma burnt_unique f v v' : 1 + f <> 0 -> burnt f v -> burnt f v' -> forall j, (j < 5)%nat -> v j = v' j.
Proof.
  intros H1 [M B] [M' B'] j Hj. specialize (B (nth j air_els5 "")). specialize (B' (nth j air_els5 "")). rewrite <- B' in B. apply Rmult_eq_reg_l in B; [|exact H1].
  unfold mass_fraction in B. rewrite M, M' in B. assert (N : NoDup air_els5) by (apply Prop_Data.nodups_ok; reflexivity).
  rewrite !Proofs_ThermoAdd.amount_hit in B by (auto; exact Hj).
  assert (W := wa_weight (nth j air_els5 "") ltac:(apply nth_In; exact Hj)). apply (Rmult_eq_reg_r (weight wa (nth j air_els5 ""))); [|lra]. unfold Rdiv in B. rewrite !Rinv_1, !Rmult_1_r in B. exact B.
Qed.
Lemma tab_fuel tp me t st d w o f : tab_setup o = Ok t -> t_mode o = TReactant f -> t_names o = ["mix"] -> solves (combustor tp me (ATab t) st d) w ->
  val w "Wfuel" = air (List.length (tab_inflow o)) (val w "Fl_I:stat:W") (w "Fl_I:tot:composition") * val w "Fl_I:FAR".
Proof.
  intros SU MX NM [Hs _]. unfold combustor in Hs. cbn [subs] in Hs.
  assert (Ha : fuel_adder (ATab t)) by (exists o, f; auto). destruct (fuel_adder_facts (ATab t) Ha) as (R1 & R2 & _).
  set (ms := add_sub "mix_fuel" (ATab t) [PN "Fl_I:stat:W"; PA "mix:ratio" "Fl_I:FAR"; PN "Fl_I:tot:composition"; PN "Fl_I:tot:h"] [PA "mix:W" "Wfuel"; PN "Wout"]) in *.
  pose proof (Hs ms ltac:(insub)) as HM. set (uw := ufac "lbm/s"). assert (N2 : uw <> 0) by apply ufac_n0. set (e := vget (lin ms w)).
  assert (EWi : e (V "Fl_I:stat:W") = val w "Fl_I:stat:W" / uw) by reflexivity.
  assert (Er : e (B "mix" "ratio") = val w "Fl_I:FAR" / 1).
  { unfold e, vget, lin, ms, add_sub; cbn [sins sname pin]. change ("mix" ++ ":" ++ "ratio")%string with "mix:ratio".
    assert (U : unit_of (add_ins (ATab t)) "mix:ratio" = "") by (unfold add_ins; rewrite R1, R2; reflexivity). rewrite U, ufac_none. reflexivity. }
  assert (Ec : compo_in e = w "Fl_I:tot:composition").
  { apply functional_extensionality. intros i. change (w "Fl_I:tot:composition" i / 1 = w "Fl_I:tot:composition" i). field. }
  assert (OF : tab_compute t e (fun _ => 0) (B "mix" "W") = val w "Wfuel" / uw).
  { unfold e. change (tab_compute t) with (add_compute (ATab t)). rewrite <- (HM (B "mix" "W")).
    - unfold vget, lout, ms, add_sub; cbn [souts sname pout]. change ("mix" ++ ":" ++ "W")%string with "mix:W".
      assert (U : unit_of (add_outs (ATab t)) "mix:W" = "lbm/s") by (unfold add_outs; rewrite R1, R2; reflexivity). rewrite U. reflexivity.
    - unfold add_vars. apply in_or_app. right. apply in_or_app. right. rewrite R1, R2. left. reflexivity. }
  rewrite (C20_tabular_flow o t f SU MX e (fun _ => 0) "mix") in OF by (rewrite NM; left; reflexivity). rewrite Ec, EWi, Er in OF.
  apply (Rmult_eq_reg_r (/ uw)); [|apply Rinv_neq_0_compat; exact N2]. unfold air. unfold Rdiv in *. rewrite <- OF. rewrite Rinv_1. ring.
Qed.
Definition tab_opts_ok (o : tab_opts) (t : tab_adder) : Prop := tab_setup o = Ok t /\ t_inflow o = None /\ t_mode o = TReactant "FAR" /\ t_names o = ["mix"].
(* a combustor with the table and the CEA one, both fed with dry air, same fuel-air ratio *)
Lemma tab_exit tp me t st d w o : tab_opts_ok o t -> solves (combustor tp me (ATab t) st d) w -> val w "Fl_I:tot:composition" = 0 -> val w "Fl_I:stat:W" <> 0 -> val w "Fl_O:stat:W" <> 0 ->
  val w "Wfuel" = val w "Fl_I:stat:W" * val w "Fl_I:FAR" /\ val w "Fl_O:tot:composition" = val w "Fl_I:FAR".
Proof.
  intros (SU & IN & MX & NM) Sol C0 HI HO. assert (EI : tab_inflow o = TAB_AIR_FUEL_COMPOSITION) by (unfold tab_inflow; rewrite IN; reflexivity).
  assert (F := tab_fuel tp me t st d w o "FAR" SU MX NM Sol). rewrite EI in F. cbn [List.length TAB_AIR_FUEL_COMPOSITION] in F. unfold air in F. cbn [seq] in F. rewrite lsum1 in F. fold (val w "Fl_I:tot:composition") in F. rewrite C0 in F.
  assert (F' : val w "Wfuel" = val w "Fl_I:stat:W" * val w "Fl_I:FAR") by (rewrite F; field). split; [exact F'|].
  destruct (C48_combustor_constituents tp me t st d w o "FAR" SU) as [K1 K2]; auto.
  - rewrite EI. repeat constructor. intros [].
  - rewrite EI. change (List.length (sorted (dkeys TAB_AIR_FUEL_COMPOSITION))) with 1%nat. cbn [seq]. rewrite lsum1. fold (val w "Fl_I:tot:composition"). rewrite C0. lra.
  - rewrite EI in K1, K2. change (List.length (sorted (dkeys TAB_AIR_FUEL_COMPOSITION))) with 1%nat in K1, K2. specialize (K2 0%nat ltac:(lia)). rewrite K1 in K2. unfold air in K2. cbn [seq] in K2. rewrite lsum1 in K2.
    change (nth 0 (sorted (dkeys TAB_AIR_FUEL_COMPOSITION)) "") with "FAR" in K2. destruct (string_dec "FAR" "FAR"); [|congruence]. fold (val w "Fl_I:tot:composition") (val w "Fl_O:tot:composition") in K2. rewrite C0, F' in K2.
    apply (Rmult_eq_reg_l (val w "Fl_I:stat:W")); [|exact HI]. replace (val w "Fl_I:stat:W" / (1 + 0)) with (val w "Fl_I:stat:W") in K2 by field. lra.
Qed.
(* whenever a combustor that uses the table, fed with dry air, ends at a point of the grid, its exit is a station of the CEA method: the combustion gas of that fuel-air ratio *)
Theorem C73_combustor tpa tpf c sp i j k t st d w o : cea_setup gen_opts = Ok c -> generated tpa tpf c sp -> (0 < i < 20)%nat -> (j < 110)%nat -> (k < 100)%nat ->
  tab_opts_ok o t -> solves (combustor (tab_tp sp gen_keys) TABULAR (ATab t) st d) w -> val w "Fl_I:tot:composition" = 0 -> val w "Fl_I:stat:W" <> 0 -> val w "Fl_O:stat:W" <> 0 ->
  val w "Fl_I:FAR" = gen_far i -> val w "Fl_O:tot:P" = gen_P j -> val w "Fl_O:tot:T" = gen_T k ->
  val w "Wfuel" = val w "Fl_I:stat:W" * gen_far i /\ exists v, burnt (gen_far i) v /\ station tpf CEA v w "Fl_O:tot".
Proof.
  intros SU G Hi Hj Hk Ho Sol C0 HI HO EF EP ET. destruct (tab_exit _ _ _ _ _ _ _ Ho Sol C0 HI HO) as [F E]. split; [rewrite F, EF; reflexivity|].
  assert (Ha : fuel_adder (ATab t)) by (destruct Ho as (A & _ & B & C); exists o, "FAR"; auto). destruct (C48_combustor _ _ _ _ _ w Ha Sol) as (T & _).
  destruct (C73_station tpa tpf c sp i j k (w "Fl_O:tot:composition") w "Fl_O:tot" SU G ltac:(lia) Hj Hk T) as (v & Rv & Sv); [|exact EP|exact ET|].
  - change (val w "Fl_O:tot:composition" = gen_far i). rewrite E. exact EF.
  - unfold row_composition, row_gas in *. assert (E0 : Nat.eqb i 0 = false) by (apply Nat.eqb_neq; lia). rewrite E0 in *. exists v. auto.
Qed.
Print Assumptions C73_combustor.
Lemma cea_exit tp me c st d w : cea_setup gen_opts = Ok c -> solves (combustor tp me (ACea c) st d) w -> dry_air (w "Fl_I:tot:composition") -> val w "Fl_I:stat:W" <> 0 -> val w "Fl_O:stat:W" <> 0 ->
  burnt (val w "Fl_I:FAR") (w "Fl_O:tot:composition").
Proof.
  intros SU Sol D HI HO. destruct gen_port as (m & PD & SM). destruct (dry_fraction _ D) as [D1 D2].
  assert (Ha : fuel_adder (ACea c)) by (exists gen_opts, fuel; split; [exact SU|split; reflexivity]). destruct (C48_combustor _ _ _ _ _ w Ha Sol) as (_ & _ & K & _). destruct (K HO) as (K1 & _ & K2). cbv beta iota in K2.
  destruct (C48_combustor_elements tp me c st d w wa CEA_AIR_COMPOSITION fuel m SU wa_wf PD Sol) as [M1 M2].
  - intros x Hx. apply Rgt_not_eq, wa_weight. rewrite <- SM. apply Proofs_Species.in_sorted. exact Hx.
  - change (mass (weight wa) (sorted (dkeys CEA_AIR_COMPOSITION)) (w "Fl_I:tot:composition") <> 0). rewrite D1. lra.
  - apply Rgt_not_eq, wa_fuel_mass.
  - exact HO.
  - rewrite SM in M1, M2. split; [exact M1|]. intros e. specialize (M2 e). rewrite D2, K1, K2 in M2. apply (Rmult_eq_reg_l (val w "Fl_I:stat:W")); [|exact HI]. 
    replace (val w "Fl_I:stat:W" * ((1 + val w "Fl_I:FAR") * mass_fraction (weight wa) air_els5 (w "Fl_O:tot:composition") e)) with
      ((val w "Fl_I:stat:W" + val w "Fl_I:stat:W" * val w "Fl_I:FAR") * mass_fraction (weight wa) air_els5 (w "Fl_O:tot:composition") e) by ring. rewrite M2. ring.
Qed.
(* and it agrees with every combustor that computes with that method itself and ends at the same temperature and pressure: here for any property
   calculation that is determined by T, P and the composition (C61: the CEA method's is) *)
Definition determined (tp : R -> R -> (nat -> R) -> (string -> R) -> Prop) : Prop :=
  forall T P v v' p q, tp T P v p -> tp T P v' q -> (forall i, (i < 5)%nat -> v i = v' i) -> forall x, In x prop_names -> p x = q x.
Theorem C73_same_exit tpa tpf c sp i j k t st d w o st' d' w' : determined tpf -> cea_setup gen_opts = Ok c -> generated tpa tpf c sp -> (0 < i < 20)%nat -> (j < 110)%nat -> (k < 100)%nat ->
  tab_opts_ok o t -> solves (combustor (tab_tp sp gen_keys) TABULAR (ATab t) st d) w -> val w "Fl_I:tot:composition" = 0 -> val w "Fl_I:stat:W" <> 0 -> val w "Fl_O:stat:W" <> 0 ->
  val w "Fl_I:FAR" = gen_far i -> val w "Fl_O:tot:P" = gen_P j -> val w "Fl_O:tot:T" = gen_T k ->
  solves (combustor tpf CEA (ACea c) st' d') w' -> dry_air (w' "Fl_I:tot:composition") -> val w' "Fl_I:stat:W" <> 0 -> val w' "Fl_O:stat:W" <> 0 -> val w' "Fl_I:FAR" = val w "Fl_I:FAR" ->
  val w' "Fl_O:tot:P" = val w "Fl_O:tot:P" -> val w' "Fl_O:tot:T" = val w "Fl_O:tot:T" ->
  forall x, In x ["h"; "S"; "gamma"; "Cp"; "Cv"; "rho"; "R"] -> val w' (at_ "Fl_O:tot" x) = val w (at_ "Fl_O:tot" x).
Proof.
  intros Dt SU G Hi Hj Hk Ho Sol C0 HI HO EF EP ET Sol' D' HI' HO' EF' EP' ET' x Hx.
  destruct (C73_combustor tpa tpf c sp i j k t st d w o SU G Hi Hj Hk Ho Sol C0 HI HO EF EP ET) as (_ & v & Bv & (p & Hp & Ep)).
  assert (Bv' := cea_exit _ _ _ _ _ w' SU Sol' D' HI' HO'). rewrite EF', EF in Bv'.
  assert (Ha : fuel_adder (ACea c)) by (exists gen_opts, fuel; split; [exact SU|split; reflexivity]). destruct (C48_combustor _ _ _ _ _ w' Ha Sol') as ((q & Hq & Eq) & _).
  unfold val in *. rewrite (Ep x Hx), (Eq x Hx). f_equal. change (at_ "Fl_O:tot" "T") with "Fl_O:tot:T" in *. change (at_ "Fl_O:tot" "P") with "Fl_O:tot:P" in *. rewrite ET', EP' in Hq.
  apply (Dt _ _ _ _ _ _ Hq Hp); [|exact Hx]. apply (burnt_unique (gen_far i)); [pose proof (gen_far_pos i); lra|exact Bv'|exact Bv].
Qed.
Print Assumptions C73_same_exit.
Theorem C73_cea (g : gas) : gas_ok g -> ne g = 5%nat -> determined (cea_tp g).
Proof. intros G N T P v v' p q Hp Hq E x Hx. apply (C61_function g T P v v' p q G Hp Hq); [rewrite N; exact E|exact Hx]. Qed.
(* the vector that the mixing component passes on is the one the station of the combustion gas expects: the same elements in the same order *)
Theorem C73_elements c : cea_setup gen_opts = Ok c -> exists p, mk_properties wa (Some CEA_AIR_FUEL_COMPOSITION) = Ok p /\ ad_mixed c = p_elements p /\ p_elements p = air_els5.
Proof.
  intros SU. destruct (setup_inv gen_opts c SU wa_wf) as (d_in & m & _ & PD & _ & M & _). destruct gen_port as (m' & PD' & SM). rewrite PD' in PD. injection PD as <-. rewrite SM in M.
  assert (Ga : good wa CEA_AIR_FUEL_COMPOSITION) by (apply (keys_good xw); vm_compute; match goal with |- true = true => reflexivity end).
  destruct (mk_good _ _ Ga) as (p & Hp). exists p. split; [exact Hp|].
  assert (E : p_elements p = air_els5).
  { rewrite (proj1 (proj2 (Prop_Species.mk_inv _ _ _ Hp))). vm_compute. reflexivity. }
  split; [rewrite E; exact M|exact E].
Qed.
Print Assumptions C73_elements.
