(* Claim C66: in a converged cycle every chemical element (CEA) and every constituent (tabular) is conserved from the starts and the fuel to the exhaust. *)
From Coq Require Import FunctionalExtensionality Permutation Lia.
From Verif Require Import Lib_R Lib_Py Lib_Loop Spec_Mix Spec_Wire Model_Thermo Proofs_Wire Prop_Static Prop_Thermo Prop_Elem1 Model_ThermoAdd Prop_Mix Model_Elem1 Model_Elem2 Proofs_Elem Prop_Station Prop_Station2 Prop_Station3 Prop_Station4 Prop_Station5 Prop_Station6 Prop_Station7 Prop_Station8 Model_Ports Prop_Ports Model_Cycle Prop_Cycle.
Open Scope string_scope. Open Scope list_scope. Open Scope R_scope.

(* ---------- the combustor (CEA): of every element the outlet carries what the air and the fuel bring in ---------- *)
Lemma fraction_ext wt els a b x : (forall j, In j (seq 0 (List.length els)) -> a j = b j) -> mass_fraction wt els a x = mass_fraction wt els b x.
Proof.
  intros H. unfold mass_fraction, amount, mass.
  rewrite (lsum_ext (fun i => if string_dec (nth i els "") x then a i else 0) (fun i => if string_dec (nth i els "") x then b i else 0)) by (intros j Hj; rewrite (H j Hj); reflexivity).
  rewrite (lsum_ext (fun i => a i * wt (nth i els "")) (fun i => b i * wt (nth i els ""))) by (intros j Hj; rewrite (H j Hj); reflexivity). reflexivity.
Qed.
Theorem C48_combustor_elements tp me c statics design w sp d_in fuel m :
  let o := mkCea sp (Some d_in) (Reactants [fuel]) ["mix"] in
  cea_setup o = Ok c -> wf_opts o -> cea_port_data o = Ok m -> solves (combustor tp me (ACea c) statics design) w ->
  let wt := weight sp in
  (forall x, In x (dkeys m) -> wt x <> 0) -> mass wt (sorted (dkeys d_in)) (w "Fl_I:tot:composition") <> 0 -> dict_mass wt (reactant sp fuel) <> 0 ->
  val w "Fl_O:stat:W" <> 0 ->
  mass wt (sorted (dkeys m)) (w "Fl_O:tot:composition") = 1 /\
  forall x, val w "Fl_O:stat:W" * mass_fraction wt (sorted (dkeys m)) (w "Fl_O:tot:composition") x =
    val w "Fl_I:stat:W" * mass_fraction wt (sorted (dkeys d_in)) (w "Fl_I:tot:composition") x + val w "Wfuel" * dict_fraction wt (reactant sp fuel) x.
Proof.
  intros o SU WF PD Hsol wt Hw Hm Hf HW.
  assert (Ha : fuel_adder (ACea c)) by (exists o, fuel; auto).
  destruct (C48_combustor tp me (ACea c) statics design w Ha Hsol) as (_ & _ & EW0 & _). destruct (EW0 HW) as (EW & _ & EF). clear EW0.
  destruct (fuel_adder_facts (ACea c) Ha) as (R1 & R2 & _).
  destruct Hsol as [Hs Hc]. unfold combustor in Hs, Hc. cbn [subs conns app] in Hs, Hc.
  set (ms := add_sub "mix_fuel" (ACea c) [PN "Fl_I:stat:W"; PA "mix:ratio" "Fl_I:FAR"; PN "Fl_I:tot:composition"; PN "Fl_I:tot:h"] [PA "mix:W" "Wfuel"; PN "Wout"]) in *.
  pose proof (Hs ms ltac:(insub)) as HM.
  destruct (sub_hP tp me "vitiated_flow" "Fl_O:tot" "Fl_O:tot" [] [PG "Fl_O:"] w) as ((_ & T2 & _) & _); [okn|shw|apply Hs; insub|].
  pose proof (Hc "mix_fuel.composition_out" "vitiated_flow.composition" ltac:(insub)) as Cc.
  assert (Co : w "Fl_O:tot:composition" = w "mix_fuel.composition_out").
  { apply functional_extensionality. intros k. specialize (T2 k). change (at_ "Fl_O:tot" "composition") with "Fl_O:tot:composition" in T2. rewrite T2. rewrite <- (Cc k). reflexivity. }
  rewrite Co. set (uw := ufac "lbm/s"). assert (N2 : uw <> 0) by apply ufac_n0. set (e := vget (lin ms w)).
  assert (EWi : e (V "Fl_I:stat:W") = val w "Fl_I:stat:W" / uw) by reflexivity.
  assert (Er : e (B "mix" "ratio") = val w "Fl_I:FAR" / 1).
  { unfold e, vget, lin, ms, add_sub; cbn [sins sname pin]. change ("mix" ++ ":" ++ "ratio")%string with "mix:ratio".
    assert (U : unit_of (add_ins (ACea c)) "mix:ratio" = "") by (unfold add_ins; rewrite R1, R2; reflexivity). rewrite U, ufac_none. reflexivity. }
  assert (Ec : (fun i => e (I "Fl_I:tot:composition" i)) = w "Fl_I:tot:composition").
  { apply functional_extensionality. intros i. change (w "Fl_I:tot:composition" i / 1 = w "Fl_I:tot:composition" i). field. }
  assert (Kf : val w "Fl_I:stat:W" / uw * (val w "Fl_I:FAR" / 1) = val w "Wfuel" / uw) by (cbn in EF; rewrite EF; field; exact N2).
  assert (OW : cea_compute c e (fun _ => 0) (V "Wout") = val w "Wout" / uw).
  { unfold e. change (cea_compute c) with (add_compute (ACea c)). rewrite <- (HM (V "Wout")) by (cbn; tauto). reflexivity. }
  assert (OC : forall j, In j (seq 0 (List.length (sorted (dkeys m)))) -> cea_compute c e (fun _ => 0) (I "composition_out" j) = w "mix_fuel.composition_out" j).
  { intros j Hj. unfold e. change (cea_compute c) with (add_compute (ACea c)). rewrite <- (HM (I "composition_out" j)).
    - change (w "mix_fuel.composition_out" j / 1 = w "mix_fuel.composition_out" j). field.
    - unfold add_vars. apply in_or_app. right. apply in_or_app. left. cbn [add_size]. rewrite (proj1 (C19_cea_vector o c m SU WF PD)). apply in_map. exact Hj. }
  assert (EO : val w "Fl_O:stat:W" = val w "Wout").
  { destruct statics; cbn [app] in Hs, Hc.
    - assert (Q : val w "out_stat.W" = val w "Wout") by (apply (Hc "Wout" "out_stat.W"); insub). rewrite <- Q. destruct design; cbn [stat_mode] in Hs.
      + destruct (sub_MN tp me "out_stat" "Fl_O:stat" "Fl_O:stat" [PN "MN"] [PG "Fl_O:stat:"] w ltac:(okn) ltac:(shw) ltac:(apply Hs; insub)) as ((_ & _ & K) & _). apply (K 0%nat).
      + destruct (sub_A tp me "out_stat" "Fl_O:stat" "Fl_O:stat" [PN "area"] [PG "Fl_O:stat:"] w ltac:(okn) ltac:(shw) ltac:(apply Hs; insub)) as ((_ & _ & K) & _). apply (K 0%nat).
    - apply (pass_fact w "W_passthru"). apply Hs. insub. }
  pose proof (C17_reactants o c d_in [fuel] m SU WF eq_refl eq_refl PD eq_refl e (fun _ => 0)) as H. cbv zeta in H. change (o_names o) with ["mix"] in H. change (o_spec o) with sp in H. fold wt in H.
  rewrite Ec in H. rewrite !lsum1 in H. rewrite EWi, Er, Kf, OW in H.
  destruct H as (H1 & _ & H3 & H4); [exact Hw|exact Hm|intros r [<-|[]]; exact Hf| |].
  { rewrite EO in HW. rewrite EO in EW. intros K. apply HW. rewrite EW. apply (Rmult_eq_reg_r (/ uw)); [|apply Rinv_neq_0_compat; exact N2]. unfold Rdiv in K. lra. }
  split.
  - rewrite <- H3. unfold mass. apply lsum_ext. intros j Hj. rewrite (OC j Hj). reflexivity.
  - intros x. specialize (H4 x). rewrite (fraction_ext wt _ _ _ x OC) in H4. cbn [combine] in H4. rewrite lsum1 in H4. cbn [fst snd] in H4. rewrite EO.
    apply (Rmult_eq_reg_r (/ uw)); [|apply Rinv_neq_0_compat; exact N2]. rewrite Er, Kf in H4. unfold Rdiv in H4. lra.
Qed.
Print Assumptions C48_combustor_elements.

(* ---------- specification ---------- *)
(* the set-up behaviour (pyc_setup_output_ports, C43) of an element of the cycle; the fuel of a combustor is its option fuel_type *)
Definition starts (k : ekind) : bool := match k with EStart _ | EFlight _ | ECfd => true | _ => false end.
Definition kind_of (fuel : string) (k : ekind) : kind :=
  match k with
  | ESplitter _ => KSplitter | EBleedOut bs _ | ECompressor _ _ bs _ => KBleeds bs | ECombustor _ _ => KCombustor fuel
  | ETurbine _ _ bs _ => KTurbine bs | EMixer _ _ => KMixer
  | _ => KPass
  end.
(* lab: the composition dictionary announced on every port during set-up *)
Definition announced (sp : spec_data) (fuel : string -> string) (lab : port -> dict R) (n : string) (k : ekind) : Prop :=
  starts k = false -> exists e e', setup_ports M_CEA sp (kind_of (fuel n) k) e = Ok e' /\
    (forall p, In p (e_in k) -> dget (Model_Ports.fl_i e) p = Some (Some (lab (n, p)))) /\ (forall p, In p (e_out k) -> dget (Model_Ports.fl_o e') p = Some (Some (lab (n, p)))).
(* the mixing component an element builds from the announced data (combustor.py:78-84, turbine.py:445-457, mixer.py:151-161) *)
Definition adder_opts (sp : spec_data) (fuel : string -> string) (lab : port -> dict R) (n : string) (k : ekind) : option (adder * cea_opts) :=
  match k with
  | ECombustor a _ => Some (a, mkCea sp (Some (lab (n, "Fl_I"))) (Reactants [fuel n]) ["mix"])
  | ETurbine _ a bs _ => Some (a, mkCea sp (Some (lab (n, "Fl_I"))) (Flows (map (fun b => lab (n, b)) bs)) bs)
  | EMixer a _ => Some (a, mkCea sp (Some (lab (n, "Fl_I1"))) (Flows [lab (n, "Fl_I2")]) ["mix"])
  | _ => None
  end.
(* set-up of a whole CEA cycle: every element announced its ports and built its mixing component, a connection hands the port data over *)
Definition set_up (sp : spec_data) (fuel : string -> string) (lab : port -> dict R) (els : list (string * ekind)) (links : list link) : Prop :=
  (forall n k, In (n, k) els -> announced sp fuel lab n k /\
     forall a o, adder_opts sp fuel lab n k = Some (a, o) -> exists c, a = ACea c /\ cea_setup o = Ok c) /\
  (forall l, In l links -> lab (l_tgt l) = lab (l_src l)).
(* mass of chemical element x that flows through a port per second: the composition vector is ordered by the sorted names of the announced elements *)
Definition composition (w : state) (p : port) : nat -> R := local w (fst p) (snd p ++ ":tot:composition")%string.
Definition element_flow (sp : spec_data) (lab : port -> dict R) (w : state) (x : string) (p : port) : R :=
  mass_flow w p * mass_fraction (weight sp) (sorted (dkeys (lab p))) (composition w p) x.
(* mass of x that an element brings in: what a start starts with, and the fuel *)
Definition element_in (sp : spec_data) (fuel : string -> string) (lab : port -> dict R) (w : state) (x : string) (nk : string * ekind) : R :=
  match snd nk with
  | EStart _ | EFlight _ | ECfd => element_flow sp lab w x (fst nk, "Fl_O")
  | ECombustor _ _ => val (local w (fst nk)) "Wfuel" * dict_fraction (weight sp) (reactant sp (fuel (fst nk))) x
  | _ => 0
  end.
(* data: dictionaries have distinct keys, chemical elements have a weight, fuels consist of something *)
Definition data_ok (sp : spec_data) (fuel : string -> string) (lab : port -> dict R) (els : list (string * ekind)) : Prop :=
  (forall p, dwf (lab p)) /\ (forall r d, dget (reactants sp) r = Some d -> dwf d) /\
  (forall p x, In p (all_ports e_out els) -> In x (dkeys (lab p)) -> weight sp x <> 0) /\
  (forall n a st, In (n, ECombustor a st) els -> dict_mass (weight sp) (reactant sp (fuel n)) <> 0).
(* mass that the composition vector of a port stands for; vectors are meant to be normalised to 1 *)
Definition stream_mass (sp : spec_data) (lab : port -> dict R) (w : state) (p : port) : R := mass (weight sp) (sorted (dkeys (lab p))) (composition w p).

(* ---------- proof ---------- *)
Lemma dget_put e p d : dget (Model_Ports.fl_o (put e p d)) p = Some d.
Proof. apply put_stored. Qed.
Lemma ann_pass sp fuel lab n k : starts k = false -> announced sp fuel lab n k ->
  match kind_of (fuel n) k with KPass | KSplitter | KBleeds _ => forall p, In "Fl_I" (e_in k) -> In p (e_out k) -> lab (n, p) = lab (n, "Fl_I") | _ => True end.
Proof.
  intros St A. specialize (A St). destruct A as (e & e' & SU & Hi & Ho).
  destruct k; try discriminate St; cbn [kind_of e_in e_out] in *; try exact Logic.I; intros p Hin Hp; specialize (Hi "Fl_I" Hin); specialize (Ho p Hp); cbn [setup_ports] in SU.
  - apply copy_flow_inv in SU as (d & -> & E). destruct Hp as [<-|[]]. rewrite dget_put in Ho. congruence.
  - apply copy_flow_inv in SU as (d & -> & E). destruct Hp as [<-|[]]. rewrite dget_put in Ho. congruence.
  - apply copies_inv in SU as (_ & _ & E). destruct E as (d & E1 & E2); [discriminate|]. rewrite (E2 p Hp) in Ho. congruence.
  - apply copies_inv in SU as (_ & _ & E). destruct E as (d & E1 & E2); [discriminate|]. rewrite (E2 p Hp) in Ho. congruence.
  - apply copies_inv in SU as (_ & _ & E). destruct E as (d & E1 & E2); [discriminate|]. rewrite (E2 p Hp) in Ho. congruence.
  - apply copy_flow_inv in SU as (d & -> & E). destruct Hp as [<-|[]]. rewrite dget_put in Ho. congruence.
Qed.
Lemma get_ports_some e f l ds : get_ports e l = Ok ds -> (forall p, In p l -> dget (Model_Ports.fl_i e) p = Some (Some (f p))) -> ds = map (fun p => Some (f p)) l.
Proof.
  revert ds. induction l as [|p l IH]; cbn; intros ds H F; [injection H; intros; subst; reflexivity|]. rewrite (F p (or_introl eq_refl)) in H. destruct (get_ports e l) as [r|]; [|discriminate]. injection H as <-.
  f_equal. apply IH; [reflexivity|]. intros q Hq. apply F. right. exact Hq.
Qed.
Lemma all_dicts_map {A} (f : A -> dict R) l : all_dicts (map (fun p => Some (f p)) l) = Some (map f l).
Proof. induction l as [|p l IH]; cbn; [reflexivity|]. rewrite IH. reflexivity. Qed.
(* a mixing element announces on its outlet what its own mixing component announces *)
Lemma ann_adder sp fuel lab n k a o : announced sp fuel lab n k -> adder_opts sp fuel lab n k = Some (a, o) -> cea_port_data o = Ok (lab (n, "Fl_O")).
Proof.
  intros A E. destruct k; try discriminate E; cbn [adder_opts] in E; injection E as <- <-; destruct (A eq_refl) as (e & e' & SU & Hi & Ho); cbn [kind_of e_in e_out setup_ports] in *;
    specialize (Ho "Fl_O" (or_introl eq_refl)).
  - rewrite (Hi "Fl_I" (or_introl eq_refl)) in SU. apply copy_flow_inv in SU as (d & -> & E). rewrite dget_put in Ho. injection Ho as ->. unfold react_data in E.
    destruct (cea_port_data _) as [m|]; [|discriminate]. congruence.
  - rewrite (Hi "Fl_I" (or_introl eq_refl)) in SU. destruct (get_ports e bs) as [ds|] eqn:G; [|discriminate].
    apply (get_ports_some e (fun b => lab (n, b))) in G; [|intros p Hp; apply Hi; right; exact Hp]. subst ds.
    apply copy_flow_inv in SU as (d & -> & E). rewrite dget_put in Ho. injection Ho as ->. unfold mix_data in E. rewrite all_dicts_map in E.
    destruct (cea_port_data _) as [m|]; [|discriminate]. congruence.
  - destruct (get_ports e ["Fl_I1"; "Fl_I2"]) as [ds|] eqn:G; [|discriminate]. apply (get_ports_some e (fun b => lab (n, b))) in G; [|intros p Hp; apply Hi; exact Hp]. subst ds. cbn [map] in SU.
    apply copy_flow_inv in SU as (d & -> & E). rewrite dget_put in Ho. injection Ho as ->. unfold mix_data in E. cbn [all_dicts] in E.
    destruct (cea_port_data _) as [m|]; [|discriminate]. congruence.
Qed.
Lemma adder_wf sp fuel lab n k a o : (forall p, dwf (lab p)) -> (forall r d, dget (reactants sp) r = Some d -> dwf d) -> adder_opts sp fuel lab n k = Some (a, o) -> wf_opts o.
Proof.
  intros W1 W2 E. destruct k; try discriminate E; cbn [adder_opts] in E; injection E as <- <-; (split; [|split]); cbn; try exact W2; try exact Logic.I; try (intros d Q; injection Q as <-; apply W1).
  - intros d Hd. apply in_map_iff in Hd as (b & <- & _). apply W1.
  - intros d [<-|[]]. apply W1.
Qed.
Section Elem.
Variables (tp : R -> R -> (nat -> R) -> (string -> R) -> Prop) (me : method) (design : bool) (sp : spec_data) (fuel : string -> string) (lab : port -> dict R)
  (els : list (string * ekind)) (w : state) (x : string).
Hypothesis D : data_ok sp fuel lab els.
Lemma elem_elements n k : In (n, k) els -> (forall p, In p (e_in k) -> stream_mass sp lab w (n, p) <> 0) -> options_ok k -> solves (egroup tp me design k) (local w n) -> regular w (n, k) ->
  announced sp fuel lab n k -> (forall a o, adder_opts sp fuel lab n k = Some (a, o) -> exists c, a = ACea c /\ cea_setup o = Ok c) ->
  lsum (fun p => element_flow sp lab w x (n, p)) (e_out k) = lsum (fun p => element_flow sp lab w x (n, p)) (e_in k) + element_in sp fuel lab w x (n, k) /\
  (starts k = false -> (forall p, In p (e_in k) -> stream_mass sp lab w (n, p) = 1) -> forall p, In p (e_out k) -> stream_mass sp lab w (n, p) = 1).
Proof.
  intros Hk Mi O S Rg An Ad. destruct D as (D1 & D2 & D3 & D5). set (v := local w n) in *. set (wt := weight sp).
  assert (EX : forall p, element_flow sp lab w x (n, p) = val v (p ++ ":stat:W") * mass_fraction wt (sorted (dkeys (lab (n, p)))) (v (p ++ ":tot:composition")%string) x) by reflexivity.
  assert (Wo : forall p, In p (e_out k) -> forall y, In y (dkeys (lab (n, p))) -> wt y <> 0).
  { intros p Hp y Hy. apply (D3 (n, p)); [apply in_ports; exists k; auto|exact Hy]. }
  assert (Mass := elem_mass tp me design w n k O S Rg).
  (* an element that passes one composition on *)
  assert (Pass : (forall p, In p (e_out k) -> lab (n, p) = lab (n, "Fl_I") /\ same v (p ++ ":tot:composition") "Fl_I:tot:composition") -> e_in k = ["Fl_I"] -> mass_in w (n, k) = 0 ->
     lsum (fun p => element_flow sp lab w x (n, p)) (e_out k) = lsum (fun p => element_flow sp lab w x (n, p)) (e_in k) + 0 /\
     (starts k = false -> (forall p, In p (e_in k) -> stream_mass sp lab w (n, p) = 1) -> forall p, In p (e_out k) -> stream_mass sp lab w (n, p) = 1)).
  { intros P Ei M0. split.
    2: { intros _ H1 p Hp. destruct (P p Hp) as [P1 P2]. rewrite <- (H1 "Fl_I") by (rewrite Ei; left; reflexivity). unfold stream_mass. rewrite P1. f_equal. apply functional_extensionality. exact P2. }
    rewrite Ei, M0, lsum1 in Mass. rewrite Ei, lsum1.
    rewrite (lsum_ext _ (fun p => mass_flow w (n, p) * mass_fraction wt (sorted (dkeys (lab (n, "Fl_I")))) (v "Fl_I:tot:composition") x) (e_out k)).
    - rewrite lsum_scal_r, Mass, EX. cbn [append]. change (mass_flow w (n, "Fl_I")) with (val v "Fl_I:stat:W"). ring.
    - intros p Hp. destruct (P p Hp) as [P1 P2]. rewrite EX, P1. replace (v (p ++ ":tot:composition")%string) with (v "Fl_I:tot:composition"); [reflexivity|]. symmetry. apply functional_extensionality. exact P2. }
  assert (AP := fun St => ann_pass sp fuel lab n k St An).
  destruct k; cbn [egroup e_in e_out options_ok element_in snd fst kind_of starts] in *.
  - split; [|discriminate]. rewrite lsum1. unfold lsum. cbn. ring.
  - split; [|discriminate]. rewrite lsum1. unfold lsum. cbn. ring.
  - split; [|discriminate]. rewrite lsum1. unfold lsum. cbn. ring.
  - apply Pass; [|reflexivity|reflexivity]. intros p Hp. split; [apply AP; cbn; auto|]. destruct Hp as [<-|[]]. apply C48_inlet in S. apply S.
  - apply Pass; [|reflexivity|reflexivity]. intros p Hp. split; [apply AP; cbn; auto|]. destruct Hp as [<-|[]]. apply C48_duct in S. apply S.
  - apply Pass; [|reflexivity|reflexivity]. intros p Hp. split; [apply AP; cbn; auto|]. apply C48_splitter in S as [S _]. destruct Hp as [<-|[<-|[]]]; [apply (S "1"); cbn; auto|apply (S "2"); cbn; auto].
  - apply Pass; [|reflexivity|reflexivity]. intros p Hp. split; [apply AP; cbn; auto|]. destruct O as [O _]. apply (C48_bleed_out _ _ _ _ _ _ O) in S. destruct Hp as [<-|Hp]; [exact (proj1 (proj2 S))|]. destruct S as (_ & _ & _ & _ & S & _). apply S. exact Hp.
  - destruct (Ad _ _ eq_refl) as (c & -> & SU). pose proof (ann_adder sp fuel lab n _ _ _ An eq_refl) as PD. pose proof (adder_wf sp fuel lab n (ECombustor (ACea c) statics) _ _ D1 D2 eq_refl) as WF.
    rewrite !lsum1, !EX. destruct (C48_combustor_elements tp me c statics design v sp _ (fuel n) _ SU WF PD S) as [K1 K2]; [apply Wo; left; reflexivity|apply (Mi "Fl_I"); left; reflexivity|apply (D5 n (ACea c) statics Hk)|exact Rg|].
    split; [apply K2|]. intros _ _ p [<-|[]]. exact K1.
  - apply Pass; [|reflexivity|reflexivity]. intros p Hp. split; [apply AP; cbn; auto|]. destruct O as [O _]. apply (C48_compressor _ _ _ _ _ _ _ _ O) in S. destruct Hp as [<-|Hp]; [exact (proj1 (proj2 S))|]. destruct S as (_ & _ & _ & _ & _ & S & _). apply S. exact Hp.
  - destruct (Ad _ _ eq_refl) as (c & -> & SU). pose proof (ann_adder sp fuel lab n _ _ _ An eq_refl) as PD. pose proof (adder_wf sp fuel lab n (ETurbine mp (ACea c) bs statics) _ _ D1 D2 eq_refl) as WF.
    destruct O as (O & _). rewrite lsum1, lsum_c, !EX, Rplus_0_r. cbn [append].
    assert (CM : forall f : string * dict R -> R, lsum f (combine bs (map (fun b => lab (n, b)) bs)) = lsum (fun b => f (b, lab (n, b))) bs).
    { intros f. clear. induction bs as [|b l IH]; cbn; [reflexivity|]. unfold lsum in *. cbn. rewrite IH. reflexivity. }
    destruct (C48_turbine_elements tp me mp c bs statics design v _ (map (fun b => lab (n, b)) bs) (lab (n, "Fl_I")) _ O SU WF eq_refl eq_refl eq_refl PD S (Wo "Fl_O" (or_introl eq_refl)) (Mi "Fl_I" (or_introl eq_refl))) as [K1 K2].
    { intros b d Hb. assert (Ed : In b bs /\ d = lab (n, b)).
      { clear - Hb. induction bs as [|b' l IH]; cbn in Hb; [contradiction|]. destruct Hb as [Hb|Hb]; [injection Hb as <- <-; cbn; auto|]. destruct (IH Hb). cbn; auto. }
      destruct Ed as [Ib ->]. apply (Mi b). right. exact Ib. }
    { unfold mass_in in Mass. cbn [snd] in Mass. rewrite lsum1, lsum_c in Mass. intros K. apply Rg. change (mass_flow w (n, "Fl_O") = 0). rewrite Mass.
      change (val v "Fl_I:stat:W" + lsum (fun b => val v (b ++ ":stat:W")) bs + 0 = 0). lra. }
    split; [rewrite K2, CM; reflexivity|]. intros _ _ p [<-|[]]. exact K1.
  - apply Pass; [|reflexivity|reflexivity]. intros p Hp. split; [apply AP; cbn; auto|]. destruct Hp as [<-|[]]. apply C48_nozzle in S. apply S.
  - destruct (Ad _ _ eq_refl) as (c & -> & SU). pose proof (ann_adder sp fuel lab n _ _ _ An eq_refl) as PD. pose proof (adder_wf sp fuel lab n (EMixer (ACea c) one) _ _ D1 D2 eq_refl) as WF.
    rewrite lsum1, lsum2, !EX, Rplus_0_r. cbn [append].
    destruct (C48_mixer_elements tp me c one design v _ (lab (n, "Fl_I1")) (lab (n, "Fl_I2")) _ SU WF eq_refl eq_refl eq_refl PD S (Wo "Fl_O" (or_introl eq_refl)) (Mi "Fl_I1" (or_introl eq_refl)) (Mi "Fl_I2" (or_intror (or_introl eq_refl)))) as [K1 K2].
    { unfold mass_in in Mass. cbn [snd] in Mass. rewrite lsum1, lsum2 in Mass. intros K. apply Rg. change (mass_flow w (n, "Fl_O") = 0). rewrite Mass.
      change (val v "Fl_I1:stat:W" + val v "Fl_I2:stat:W" + 0 = 0). lra. }
    split; [apply K2|]. intros _ _ p [<-|[]]. exact K1.
Qed.
End Elem.
Lemma link_comp tp me design els links w l : running tp me design els links w -> In l links -> composition w (l_tgt l) = composition w (l_src l).
Proof.
  intros [_ H] Hl. unfold composition. apply functional_extensionality. intros k.
  change (":tot:composition") with (":" ++ "tot:composition")%string. rewrite <- !path_var. apply (H l Hl). left. reflexivity.
Qed.
Theorem C66_elements tp me design sp fuel lab els links w : network els links -> set_up sp fuel lab els links -> data_ok sp fuel lab els ->
  (forall l, In l links -> l_w l = true) -> running tp me design els links w -> (forall nk, In nk els -> regular w nk) ->
  (forall p, In p (all_ports e_in els) -> stream_mass sp lab w p <> 0) ->
  forall x, lsum (element_flow sp lab w x) (open_in els links) + lsum (element_in sp fuel lab w x) els = lsum (element_flow sp lab w x) (open_out els links).
Proof.
  intros N SU D Lw Rn Rg Ms x. apply (net_balance els links (element_flow sp lab w x) (element_in sp fuel lab w x)); [exact N| |].
  - intros n k Hk. destruct SU as [SU _]. destruct (SU n k Hk) as [A1 A2].
    apply (elem_elements tp me design sp fuel lab els w x D n k Hk); [intros p Hp; apply Ms, in_ports; exists k; auto|apply (proj1 (proj2 N)) with n; exact Hk|apply (proj1 Rn); exact Hk|apply Rg; exact Hk|exact A1|exact A2].
  - intros l Hl. unfold element_flow. rewrite (link_mass tp me design els links w l Rn Hl (Lw l Hl)), (proj2 SU l Hl), (link_comp tp me design els links w l Rn Hl). reflexivity.
Qed.
Print Assumptions C66_elements.

(* the links lead downstream *)
Definition downstream (links : list link) (rank : string -> nat) : Prop := forall l, In l links -> (rank (fst (l_src l)) < rank (fst (l_tgt l)))%nat.
(* every stream of the engine stays normalised to 1 if those that enter it are *)
Theorem C66_normalised tp me design sp fuel lab els links w rank : network els links -> set_up sp fuel lab els links -> data_ok sp fuel lab els ->
  running tp me design els links w -> (forall nk, In nk els -> regular w nk) -> downstream links rank ->
  (forall n k, In (n, k) els -> starts k = true -> stream_mass sp lab w (n, "Fl_O") = 1) -> (forall p, In p (open_in els links) -> stream_mass sp lab w p = 1) ->
  forall p, In p (all_ports e_in els) \/ In p (all_ports e_out els) -> stream_mass sp lab w p = 1.
Proof.
  intros N SU D Rn Rg Dn St Op.
  assert (K : forall r n k, rank n = r -> In (n, k) els -> (forall p, In p (e_in k) -> stream_mass sp lab w (n, p) = 1) /\ (forall p, In p (e_out k) -> stream_mass sp lab w (n, p) = 1)).
  { induction r as [r IH] using (well_founded_induction Wf_nat.lt_wf). intros n k Er Hk.
    assert (Hi : forall p, In p (e_in k) -> stream_mass sp lab w (n, p) = 1).
    { intros p Hp. destruct (used (n, p) (map l_tgt links)) eqn:U.
      - apply used_in in U. apply in_map_iff in U as (l & El & Hl). destruct (proj1 (proj2 (proj2 N)) l Hl) as [Hs _].
        apply in_ports in Hs as (k' & Hk' & Hp'). unfold stream_mass. rewrite <- El, (proj2 SU l Hl), (link_comp tp me design els links w l Rn Hl).
        assert (Lt := Dn l Hl). rewrite El in Lt. cbn [fst] in Lt. rewrite Er in Lt. destruct (IH _ Lt (fst (l_src l)) k' eq_refl Hk') as [_ Q]. specialize (Q _ Hp'). destruct (l_src l); exact Q.
      - apply Op. unfold open_in. apply filter_In. split; [apply in_ports; exists k; auto|rewrite U; reflexivity]. }
    split; [exact Hi|]. destruct (starts k) eqn:Sk.
    - intros p Hp. assert (p = "Fl_O") by (destruct k; try discriminate Sk; destruct Hp as [<-|[]]; reflexivity). subst p. apply (St n k Hk Sk).
    - destruct (proj1 SU n k Hk) as [A1 A2]. apply (elem_elements tp me design sp fuel lab els w "" D n k Hk); [intros p Hp; rewrite (Hi p Hp); lra|apply (proj1 (proj2 N)) with n; exact Hk|apply (proj1 Rn); exact Hk|apply Rg; exact Hk|exact A1|exact A2|exact Sk|exact Hi]. }
  intros [n p] [Hp|Hp]; apply in_ports in Hp as (k & Hk & Hp); destruct (K _ n k eq_refl Hk) as [K1 K2]; [apply K1|apply K2]; exact Hp.
Qed.
Print Assumptions C66_normalised.
(* hence: air and fuel that enter normalised leave the engine element by element *)
Theorem C66_engine tp me design sp fuel lab els links w rank : network els links -> set_up sp fuel lab els links -> data_ok sp fuel lab els ->
  (forall l, In l links -> l_w l = true) -> running tp me design els links w -> (forall nk, In nk els -> regular w nk) -> downstream links rank ->
  (forall n k, In (n, k) els -> starts k = true -> stream_mass sp lab w (n, "Fl_O") = 1) -> (forall p, In p (open_in els links) -> stream_mass sp lab w p = 1) ->
  forall x, lsum (element_flow sp lab w x) (open_in els links) + lsum (element_in sp fuel lab w x) els = lsum (element_flow sp lab w x) (open_out els links).
Proof.
  intros N SU D Lw Rn Rg Dn St Op. apply (C66_elements tp me design sp fuel lab els links w N SU D Lw Rn Rg).
  intros p Hp. rewrite (C66_normalised tp me design sp fuel lab els links w rank N SU D Rn Rg Dn St Op p (or_introl Hp)). lra.
Qed.
Print Assumptions C66_engine.
