(* C70: the theorems: Cycle.setup on the shipped CEA engines, and the chemical elements that flow through them. *)
From Coq Require Import FunctionalExtensionality Permutation Lia.
From Verif Require Import Lib_R Lib_Py Lib_Loop Spec_Mix Spec_Wire Model_Thermo Prop_Thermo Prop_Elem1 Model_ThermoAdd Proofs_ThermoAdd Prop_Mix Model_Elem1 Model_Elem2 Prop_Station Prop_Station3.
From Verif Require Prop_Species Spec_Flow Model_Graph.
From Verif Require Import Model_Ports Prop_Ports Model_Cycle Prop_Cycle Prop_Elements Prop_Humid Prop_CycleSetup Model_Examples Data_Examples Prop_Examples.
Open Scope string_scope. Open Scope list_scope. Open Scope R_scope.

Definition fuels_ok sp (fuel : string -> string) (els : list (string * ekind)) : Prop :=
  forall n a st, In (n, ECombustor a st) els -> exists d, dget (reactants sp) (fuel n) = Some d /\ dict_mass (weight sp) d <> 0.
(* the reactants that the starts and the combustors name are in the data *)
Definition reactants_ok sp (kinds : string -> kind) (els : list (string * ekind)) : Prop :=
  forall n k, In (n, k) els -> match kinds n with KStart _ (Some r) => dget (reactants sp) r <> None | KCombustor f => dget (reactants sp) f <> None | _ => True end.
(* Cycle.setup returns on every network whose inlets are all fed from upstream *)
Theorem C70_setup_returns sp fuel kinds els links rank : network els links -> open_in els links = [] -> names_ok els -> downstream links rank -> classes_ok fuel kinds els ->
  good_data sp kinds els -> reactants_ok sp kinds els -> exists s, set_up_as sp kinds els links s.
Proof. intros N Op Nm Dn Cl Gd Kn. exact (returns sp fuel kinds els links rank N Op Nm Dn Cl Gd Kn). Qed.
Print Assumptions C70_setup_returns.
(* once Cycle.setup has returned, every mixing component can be built from what is stored on the ports *)
Theorem C70_adders sp fuel kinds els links rank s : network els links -> open_in els links = [] -> names_ok els -> downstream links rank -> classes_ok fuel kinds els ->
  set_up_as sp kinds els links s -> good_data sp kinds els -> fuels_ok sp fuel els ->
  forall n k a o, In (n, k) els -> adder_opts sp fuel (lab_of els s) n k = Some (a, o) -> exists c, cea_setup o = Ok c.
Proof.
  intros N Op Nm Dn Cl Su Gd Fu n k a o Hk E. pose proof (lab_good sp fuel kinds els links rank N Op Nm Dn Cl Gd s Su) as G.
  pose proof (proj1 (proj2 N) n k Hk) as Ok. destruct Gd as (_ & G2 & _).
  destruct k; try discriminate E; injection E as <- <-.
  - destruct (Fu n a0 statics Hk) as (d & D1 & _). apply (built_react sp _ _ d); [apply G|exact D1|exact (G2 _ _ D1)].
  - apply built_flow; [apply G|intros x Hx; apply in_map_iff in Hx as (b & <- & _); apply G| |rewrite map_length; reflexivity].
    destruct Ok as (_ & _ & Nd). inversion Nd; assumption.
  - apply built_flow; [apply G|intros x [<-|[]]; apply G|repeat constructor; intros []|reflexivity].
Qed.
(* the port data that Cycle.setup leaves behind satisfy what C66 assumes *)
Theorem C70_setup sp fuel kinds els links rank s : network els links -> open_in els links = [] -> names_ok els -> downstream links rank -> classes_ok fuel kinds els ->
  set_up_as sp kinds els links s -> good_data sp kinds els -> fuels_ok sp fuel els -> adders_built sp fuel (lab_of els s) els ->
  set_up sp fuel (lab_of els s) els links /\ data_ok sp fuel (lab_of els s) els.
Proof.
  intros N Op Nm Dn Cl Su Gd Fu Ad. split; [exact (setup_done sp fuel kinds els links rank N Op Nm Dn Cl Gd s Su Ad)|].
  pose proof (lab_good sp fuel kinds els links rank N Op Nm Dn Cl Gd s Su) as G. destruct Gd as (_ & G2 & _).
  split; [intros p; apply G|]. split; [intros r d E; apply (G2 r d E)|]. split; [intros p x _ Hx; exact (proj1 (proj2 (G p) x Hx))|].
  intros n a st Hk. destruct (Fu n a st Hk) as (d & D1 & D2). unfold reactant. rewrite D1. exact D2.
Qed.

(* ---------- the shipped CEA engines ---------- *)
Definition x_kind (c : eclass) : kind :=
  match c with
  | XFlight None => KStart None None | XFlight (Some (r, _)) => KStart (Some CEA_AIR_COMPOSITION) (Some r)
  | XSplitter => KSplitter | XBleedOut bs | XCompressor bs => KBleeds bs | XCombustor f => KCombustor f | XTurbine bs => KTurbine bs | XMixer _ => KMixer | _ => KPass
  end.
Definition x_class (x : example) (n : string) : eclass := match find (fun nc => String.eqb (fst nc) n) (x_els x) with Some nc => snd nc | None => XInlet end.
Definition x_kinds (x : example) (n : string) : kind := x_kind (x_class x n).
Definition x_fuel (x : example) (n : string) : string := match x_class x n with XCombustor f => f | _ => "" end.
Definition x_spec (x : example) : spec_data := specR (if String.eqb (x_data x) "wet_air" then wet_air_dec else janaf_dec).
Definition x_rank (x : example) (n : string) : nat := index_of n (map fst (x_els x)).
Definition cea_engines : list engine := filter (fun g => match x_method (g_ex g) with CEA => true | TABULAR => false end) engines.
Definition rank_b (g : engine) : bool := forallb (fun l => Nat.ltb (x_rank (g_ex g) (fst (l_src l))) (x_rank (g_ex g) (fst (l_tgt l)))) (x_links (g_ex g)).
Lemma rank_all : forallb rank_b cea_engines = true.
Proof. vm_compute. match goal with |- true = true => reflexivity end. Qed.
Definition names_b (g : engine) : bool :=
  forallb (fun nc => if no_char "." (fst nc) then if forallb (no_char ".") (x_in (snd nc) ++ x_out (snd nc)) then forallb (fun p => negb (str_in p (x_out (snd nc)))) (x_in (snd nc)) else false else false) (x_els (g_ex g)).
Lemma names_all : forallb names_b cea_engines = true.
Proof. vm_compute. match goal with |- true = true => reflexivity end. Qed.
Definition fuel_b (g : engine) : bool := forallb (fun nc => match snd nc with XCombustor f => str_in f ["JP-7"; "Jet-A(g)"] | XFlight (Some (r, _)) => String.eqb r "Water" | _ => true end) (x_els (g_ex g)).
Lemma fuel_all : forallb fuel_b cea_engines = true.
Proof. vm_compute. match goal with |- true = true => reflexivity end. Qed.
Lemma cea_engine g : In g cea_engines -> In g engines /\ x_method (g_ex g) = CEA.
Proof. unfold cea_engines. intros H. apply filter_In in H as [H1 H2]. split; [exact H1|]. destruct (x_method (g_ex g)); [reflexivity|discriminate H2]. Qed.
Definition air_els : list string := ["Ar"; "C"; "H"; "N"; "O"].
Lemma spec_weight x e : In e air_els -> 0 < weight (x_spec x) e.
Proof. intros H. unfold x_spec. destruct (String.eqb (x_data x) "wet_air"); exact (janaf_weight e H). Qed.
Lemma spec_known x e : In e air_els -> Prop_Species.known (x_spec x) e.
Proof.
  intros H. apply Prop_Species.known_iff. unfold x_spec.
  assert (K : forall b : bool, forallb (fun e => str_in e (valid_elements (specR (if b then wet_air_dec else janaf_dec)))) air_els = true) by (intros [|]; vm_compute; match goal with |- true = true => reflexivity end).
  specialize (K (String.eqb (x_data x) "wet_air")). rewrite forallb_forall in K. exact (K e H).
Qed.
Lemma keys_good x d : Model_ThermoAdd.nodupb (dkeys d) = true -> forallb (fun e => str_in e air_els) (dkeys d) = true -> good (x_spec x) d.
Proof.
  intros N K. split; [apply nodupb_iff; exact N|]. intros e He. rewrite forallb_forall in K. specialize (K e He). apply str_in_iff in K. split; [apply Rgt_not_eq, spec_weight; exact K|apply spec_known; exact K].
Qed.
Lemma air_good x : good (x_spec x) CEA_AIR_COMPOSITION.
Proof. apply keys_good; vm_compute; match goal with |- true = true => reflexivity end. Qed.
Lemma react_good x r d : dget (reactants (x_spec x)) r = Some d -> good (x_spec x) d.
Proof.
  intros H. apply dget_In in H.
  assert (K : forallb (fun p : string * dict R => if Model_ThermoAdd.nodupb (dkeys (snd p)) then forallb (fun e => str_in e air_els) (dkeys (snd p)) else false) (reactants (x_spec x)) = true).
  { unfold x_spec. destruct (String.eqb (x_data x) "wet_air"); vm_compute; match goal with |- true = true => reflexivity end. }
  rewrite forallb_forall in K. specialize (K (r, d) H). cbn [snd] in K. destruct (Model_ThermoAdd.nodupb (dkeys d)) eqn:E; [|discriminate]. exact (keys_good x d E K).
Qed.
Lemma class_at x n c : NoDup (map fst (x_els x)) -> In (n, c) (x_els x) -> x_class x n = c.
Proof.
  intros N H. unfold x_class. induction (x_els x) as [|[m d] l IH]; [destruct H|]. cbn [find fst]. cbn in N. inversion N as [|? ? X Y]; subst. destruct H as [H|H].
  - injection H as -> ->. rewrite String.eqb_refl. reflexivity.
  - destruct (String.eqb m n) eqn:E; [|apply IH; auto]. apply String.eqb_eq in E. subst m. exfalso. apply X. apply in_map_iff. exists (n, c). auto.
Qed.
Lemma x_hyps g els : In g cea_engines -> builds (g_ex g) els -> (forall nk, In nk els -> made nk) ->
  let x := g_ex g in network els (x_links x) /\ open_in els (x_links x) = [] /\ names_ok els /\ downstream (x_links x) (x_rank x) /\ classes_ok (x_fuel x) (x_kinds x) els /\
  good_data (x_spec x) (x_kinds x) els /\ fuels_ok (x_spec x) (x_fuel x) els.
Proof.
  intros Hg B M x. destruct (cea_engine g Hg) as [He _]. destruct (engine_facts g els He B M) as (N & _ & _ & _ & O1 & _). fold x in N, O1, B.
  assert (Nd : NoDup (map fst (x_els x))) by (rewrite <- (rel_names _ _ B); exact (proj1 N)).
  assert (At : forall n k, In (n, k) els -> exists c, In (n, c) (x_els x) /\ is_class c k /\ x_class x n = c).
  { intros n k Hk. destruct (rel_each _ _ _ _ B Hk) as (c & Hc & C). exists c. split; [exact Hc|]. split; [exact C|]. exact (class_at x n c Nd Hc). }
  split; [exact N|]. split; [exact O1|]. split.
  { intros n k Hk. destruct (At n k Hk) as (c & Hc & C & _). pose proof names_all as A. rewrite forallb_forall in A. specialize (A g Hg). unfold names_b in A. rewrite forallb_forall in A. specialize (A (n, c) Hc). cbn [fst snd] in A.
    rewrite (class_in c k C), (class_out c k C). destruct (no_char "." n); [|discriminate]. destruct (forallb (no_char ".") (x_in c ++ x_out c)) eqn:E; [|discriminate].
    rewrite forallb_forall in E, A. split; [reflexivity|]. split; [intros p Hp; apply E, in_app_iff; exact Hp|]. intros p Hp Hq. specialize (A p Hp). apply str_in_iff in Hq. rewrite Hq in A. discriminate. }
  split.
  { intros l Hl. pose proof rank_all as A. rewrite forallb_forall in A. specialize (A g Hg). unfold rank_b in A. rewrite forallb_forall in A. apply Nat.ltb_lt. exact (A l Hl). }
  split.
  { intros n k Hk. destruct (At n k Hk) as (c & Hc & C & E). unfold x_kinds, x_fuel. rewrite E. destruct c as [[[rt ra]|]| | | | | | | | |]; cbn in C; unclass C; cbn [starts x_kind kind_of]; try reflexivity; eauto. }
  split.
  { split; [apply air_good|]. split; [intros r d; apply react_good|]. intros n k c r Hk E. unfold x_kinds in E. destruct (x_class x n) as [[[rt ra]|]| | | | | | | | |]; try discriminate E. injection E as <- _. apply air_good. }
  intros n a st Hk. destruct (At n _ Hk) as (c & Hc & C & E). unfold x_fuel. rewrite E. destruct c as [[[rt ra]|]| | | | |f| | | |]; cbn in C; unclass C; try discriminate C.
  pose proof fuel_all as A. rewrite forallb_forall in A. specialize (A g Hg). unfold fuel_b in A. rewrite forallb_forall in A. specialize (A _ Hc). cbn [snd] in A. apply str_in_iff in A.
  pose proof (spec_weight x "C" ltac:(cbn; tauto)) as WC. pose proof (spec_weight x "H" ltac:(cbn; tauto)) as WH.
  destruct A as [<-|[<-|[]]].
  - exists [("C", dR (2, 0)%Z); ("H", dR (40044, -4)%Z)]. split; [unfold x_spec; destruct (String.eqb (x_data x) "wet_air"); reflexivity|].
    change (dR (2, 0)%Z * weight (x_spec x) "C" + (dR (40044, -4)%Z * weight (x_spec x) "H" + 0) <> 0). assert (A := dR_pos 2 0 ltac:(lia)). assert (A' := dR_pos 40044 (-4) ltac:(lia)). apply Rgt_not_eq. nra.
  - exists [("C", dR (12, 0)%Z); ("H", dR (23, 0)%Z)]. split; [unfold x_spec; destruct (String.eqb (x_data x) "wet_air"); reflexivity|].
    change (dR (12, 0)%Z * weight (x_spec x) "C" + (dR (23, 0)%Z * weight (x_spec x) "H" + 0) <> 0). assert (A := dR_pos 12 0 ltac:(lia)). assert (A' := dR_pos 23 0 ltac:(lia)). apply Rgt_not_eq. nra.
Qed.

(* Cycle.setup returns for every shipped CEA engine, and then every mixing component can be built *)
Theorem C70_returns g els : In g cea_engines -> builds (g_ex g) els -> (forall nk, In nk els -> made nk) ->
  let x := g_ex g in (exists s, set_up_as (x_spec x) (x_kinds x) els (x_links x) s) /\
  forall s, set_up_as (x_spec x) (x_kinds x) els (x_links x) s -> forall n k a o, In (n, k) els -> adder_opts (x_spec x) (x_fuel x) (lab_of els s) n k = Some (a, o) -> exists c, cea_setup o = Ok c.
Proof.
  intros Hg B M x. destruct (x_hyps g els Hg B M) as (N & O1 & Nm & Dn & Cl & Gd & Fu). fold x in N, O1, Dn, Cl, Gd, Fu, B. split.
  - apply (C70_setup_returns _ _ _ _ _ _ N O1 Nm Dn Cl Gd). intros n k Hk. unfold x_kinds.
    destruct (rel_each _ _ _ _ B Hk) as (c & Hc & C). assert (Nd : NoDup (map fst (x_els x))) by (rewrite <- (rel_names _ _ B); exact (proj1 N)). rewrite (class_at x n c Nd Hc).
    pose proof fuel_all as A. rewrite forallb_forall in A. specialize (A g Hg). unfold fuel_b in A. rewrite forallb_forall in A. specialize (A _ Hc). cbn [snd] in A.
    destruct c as [[[rt ra]|]| | | | |f| | | |]; cbn [x_kind]; try exact Logic.I.
    + apply String.eqb_eq in A. subst rt. unfold x_spec. destruct (String.eqb (x_data x) "wet_air"); discriminate.
    + apply str_in_iff in A. unfold x_spec. destruct A as [<-|[<-|[]]]; destruct (String.eqb (x_data x) "wet_air"); discriminate.
  - intros s Su. exact (C70_adders _ _ _ _ _ _ s N O1 Nm Dn Cl Su Gd Fu).
Qed.
Print Assumptions C70_returns.

(* the air the engine starts from: the dry air, or what the humidifier is fed, was left at its initial composition; humid air is made by the mixing component that was built for it *)
Definition air_start (x : example) (els : list (string * ekind)) (w : state) : Prop :=
  match x_class x "fc" with
  | XFlight None => at_default (x_spec x) CEA_AIR_COMPOSITION (composition w ("fc", "Fl_O"))
  | XFlight (Some (r, ratio)) => exists c, In ("fc", EFlight (Some (ACea c, ratio))) els /\ cea_setup (mkCea (x_spec x) (Some CEA_AIR_COMPOSITION) (Reactants [r]) ["mix"]) = Ok c /\
      at_default (x_spec x) CEA_AIR_COMPOSITION (local w "fc" "fs.thermo_add.Fl_I:tot:composition") /\ val (local w "fc") "W" <> 0 /\ 1 + val (local w "fc") ratio <> 0
  | _ => False
  end.
(* mass of chemical element e in one unit of mass of that air *)
Definition air_fraction (x : example) (w : state) (e : string) : R :=
  let wt := weight (x_spec x) in
  match x_class x "fc" with
  | XFlight (Some (r, ratio)) => let q := val (local w "fc") ratio in (dict_fraction wt CEA_AIR_COMPOSITION e + q * dict_fraction wt (reactant (x_spec x) r) e) / (1 + q)
  | _ => dict_fraction wt CEA_AIR_COMPOSITION e
  end.
Definition fc_b (g : engine) : bool := match x_class (g_ex g) "fc" with XFlight None => true | XFlight (Some (r, q)) => if String.eqb r "Water" then String.eqb q "WAR" else false | _ => false end.
Lemma fc_all : forallb fc_b cea_engines = true.
Proof. vm_compute. match goal with |- true = true => reflexivity end. Qed.
Definition feed_b (g : engine) : bool := existsb (fun l => if port_eqb (l_src l) ("fc", "Fl_O") then port_eqb (l_tgt l) ("inlet", "Fl_I") else false) (x_links (g_ex g)).
Lemma feed_all : forallb feed_b cea_engines = true.
Proof. vm_compute. match goal with |- true = true => reflexivity end. Qed.
Lemma air_mass x : 0 < dict_mass (weight (x_spec x)) CEA_AIR_COMPOSITION.
Proof.
  change (0 < 539157698 / 10 ^ 10 * weight (x_spec x) "N" + (144860137 / 10 ^ 10 * weight (x_spec x) "O" + (323319235 / 10 ^ 12 * weight (x_spec x) "Ar" + (110132233 / 10 ^ 13 * weight (x_spec x) "C" + 0)))).
  pose proof (spec_weight x "N" ltac:(cbn; tauto)). pose proof (spec_weight x "O" ltac:(cbn; tauto)). pose proof (spec_weight x "Ar" ltac:(cbn; tauto)). pose proof (spec_weight x "C" ltac:(cbn; tauto)).
  assert (P : forall z k, 0 < z -> 0 < z / 10 ^ k) by (intros z k Hz; apply Rdiv_lt_0_compat; [exact Hz|apply pow_lt; lra]).
  pose proof (P 539157698 10%nat ltac:(lra)). pose proof (P 144860137 10%nat ltac:(lra)). pose proof (P 323319235 12%nat ltac:(lra)). pose proof (P 110132233 13%nat ltac:(lra)).
  assert (Q : forall a b, 0 < a -> 0 < b -> 0 < a * b) by (intros; apply Rmult_lt_0_compat; assumption).
  pose proof (Q _ _ H3 H). pose proof (Q _ _ H4 H0). pose proof (Q _ _ H5 H1). pose proof (Q _ _ H6 H2). lra.
Qed.
Lemma water_mass x : dict_mass (weight (x_spec x)) (reactant (x_spec x) "Water") <> 0.
Proof.
  replace (reactant (x_spec x) "Water") with [("H", dR (2, 0)%Z); ("O", dR (1, 0)%Z)] by (unfold x_spec; destruct (String.eqb (x_data x) "wet_air"); reflexivity).
  change (dR (2, 0)%Z * weight (x_spec x) "H" + (dR (1, 0)%Z * weight (x_spec x) "O" + 0) <> 0). pose proof (spec_weight x "H" ltac:(cbn; tauto)). pose proof (spec_weight x "O" ltac:(cbn; tauto)).
  assert (A := dR_pos 2 0 ltac:(lia)). assert (A' := dR_pos 1 0 ltac:(lia)). apply Rgt_not_eq. nra.
Qed.
(* the stream that enters *)
Lemma fc_stream tp g els w s : In g cea_engines -> Prop_Examples.at_point tp (g_ex g) els w -> let x := g_ex g in set_up_as (x_spec x) (x_kinds x) els (x_links x) s -> air_start x els w ->
  stream_mass (x_spec x) (lab_of els s) w ("fc", "Fl_O") = 1 /\
  forall e, mass_fraction (weight (x_spec x)) (sorted (dkeys (lab_of els s ("fc", "Fl_O")))) (composition w ("fc", "Fl_O")) e = air_fraction x w e.
Proof.
  intros Hg (B & M & C & Rg) x Su St. destruct (x_hyps g els Hg B M) as (N & O1 & Nm & Dn & Cl & Gd & Fu). fold x in N, O1, Dn, Cl, Gd, Fu, B, C.
  destruct (cea_engine g Hg) as [He Me]. destruct (engine_facts g els He B M) as (_ & _ & _ & _ & _ & _ & _ & _ & _ & _ & rt & l & El & _). fold x in El.
  assert (Nd : NoDup (map fst (x_els x))) by (rewrite <- (rel_names _ _ B); exact (proj1 N)).
  assert (Ec : x_class x "fc" = XFlight rt) by (apply class_at; [exact Nd|rewrite El; left; reflexivity]).
  destruct (rel_has _ _ "fc" (XFlight rt) B) as (k & Hk & Ck); [rewrite El; left; reflexivity|].
  assert (Hp : In "Fl_O" (e_out k)) by (rewrite (class_out _ _ Ck); left; reflexivity).
  destruct (lab_out _ _ _ _ _ _ N O1 Nm Dn Cl Gd s Su "fc" k "Fl_O" Hk Hp) as [La Lg]. set (lab := lab_of els s ("fc", "Fl_O")) in *.
  destruct (ran _ _ _ _ _ N Nm Dn s Su "fc" k Hk) as (e' & R & Fo). rewrite <- Fo in La. unfold x_kinds in R. rewrite Ec in R. unfold air_start in St. unfold air_fraction. rewrite Ec in St |- *.
  pose proof fc_all as A. rewrite forallb_forall in A. specialize (A g Hg). unfold fc_b in A. fold x in A. rewrite Ec in A.
  destruct (air_good x) as [Aw An]. pose proof (air_mass x) as Am. assert (Am' := Rgt_not_eq _ _ Am).
  destruct rt as [[r ratio]|]; cbn [x_kind setup_ports init_output_flow] in R.
  - destruct (String.eqb r "Water") eqn:Er; [|discriminate]. apply String.eqb_eq in Er, A. subst r ratio. destruct St as (c & Hc & SU & Df & HW & H1).
    unfold react_data in R. set (o := mkCea (x_spec x) (Some CEA_AIR_COMPOSITION) (Reactants ["Water"]) ["mix"]) in *. destruct (cea_port_data o) as [m|] eqn:PD; [|discriminate].
    injection R as <-. rewrite dget_put in La. injection La as La. rewrite <- La in Lg |- *.
    assert (WF : wf_opts o) by (split; [|split]; cbn; [intros d Q; injection Q as <-; exact Aw|intros r d Q; exact (proj1 (react_good x r d Q))|exact Logic.I]).
    destruct (C70_default_composition _ _ _ Df Aw (fun e He => proj1 (An e He)) Am') as [D1 D2].
    assert (Sol : solves (flight_conditions tp (x_method x) (Some (ACea c, "WAR"))) (local w "fc")) by (exact (proj1 (cv_run _ _ _ _ C) "fc" _ Hc)).
    destruct (C70_humid_flight tp (x_method x) c "WAR" (local w "fc") (x_spec x) CEA_AIR_COMPOSITION "Water" m SU WF PD) as [K1 K2]; [|apply water_mass|reflexivity|cbn; intuition discriminate|reflexivity|exact Sol| |exact HW|exact H1|].
    + intros e Hin. exact (proj1 (proj2 Lg e Hin)).
    + rewrite D1. lra.
    + split; [unfold stream_mass; fold lab; rewrite <- La; exact K1|]. intros e. specialize (K2 e). rewrite D2 in K2. apply (Rmult_eq_reg_l (1 + val (local w "fc") "WAR")); [|exact H1].
      refine (eq_trans K2 _). field. exact H1.
  - injection R as <-. rewrite dget_put in La. injection La as La. rewrite <- La.
    destruct (C70_default_composition _ _ _ St Aw (fun e He => proj1 (An e He)) Am') as [D1 D2]. split; [|exact D2]. unfold stream_mass. fold lab. rewrite <- La. exact D1.
Qed.
Lemma sub_set_up sp fuel lab els links ks : (forall l, In l ks -> In l links) -> set_up sp fuel lab els links -> set_up sp fuel lab els ks.
Proof. intros H [A B]. split; [exact A|]. intros l Hl. apply B, H, Hl. Qed.
Lemma fuel_sum sp fuel lab w e l els : Forall2 rel l els -> (forall nc, In nc l -> match snd nc with XFlight _ => False | _ => True end) ->
  lsum (element_in sp fuel lab w e) els = lsum (fun n => val (local w n) "Wfuel" * dict_fraction (weight sp) (reactant sp (fuel n)) e) (map fst (filter burns l)).
Proof.
  induction 1 as [|[n c] [m k] l els [E C] _ IH]; intros NF; [reflexivity|]. cbn in E. subst m. rewrite lsum_c, IH by (intros; apply NF; right; assumption).
  specialize (NF (n, c) (or_introl eq_refl)). cbn in NF. destruct c as [[[rt ra]|]| | | | | | | | |]; try contradiction NF; cbn in C; unclass C; cbn [filter burns snd map fst element_in]; try (rewrite lsum_c; reflexivity); apply Rplus_0_l.
Qed.
(* Every chemical element leaves a shipped CEA engine, through its nozzles and overboard bleeds, at the rate at which the air through the inlet and the fuels bring it in. *)
Theorem C70_engine tp g els w s : In g cea_engines -> Prop_Examples.at_point tp (g_ex g) els w -> let x := g_ex g in set_up_as (x_spec x) (x_kinds x) els (x_links x) s ->
  adders_built (x_spec x) (x_fuel x) (lab_of els s) els -> air_start x els w ->
  forall e, lsum (element_flow (x_spec x) (lab_of els s) w e) (g_exits g) =
    mass_flow w ("inlet", "Fl_I") * air_fraction x w e + lsum (fun n => val (local w n) "Wfuel" * dict_fraction (weight (x_spec x)) (reactant (x_spec x) (x_fuel x n)) e) (g_burners g).
Proof.
  intros Hg At x Su Ad St e. destruct (fc_stream tp g els w s Hg At Su St) as [Sm Sf]. destruct At as (B & M & C & Rg). destruct (x_hyps g els Hg B M) as (N & O1 & Nm & Dn & Cl & Gd & Fu).
  destruct (cea_engine g Hg) as [He Me]. destruct (engine_facts g els He B M) as (_ & Nk & W & _ & _ & _ & O3 & O4 & Bu & _ & rt & l & El & NF). fold x in B, C, N, O1, Dn, Cl, Gd, Fu, Nk, W, O3, O4, Bu, El, Sm, Sf.
  destruct (C70_setup _ _ _ _ _ _ s N O1 Nm Dn Cl Su Gd Fu Ad) as [SU D]. set (lab := lab_of els s) in *.
  assert (Sub : forall k, In k (past_inlet (x_links x)) -> In k (x_links x)) by (intros k Hk; apply filter_In in Hk; tauto).
  assert (Rk : running tp (x_method x) (x_design x) els (past_inlet (x_links x)) w).
  { destruct (cv_run _ _ _ _ C) as [R1 R2]. split; [exact R1|]. intros k Hk. apply R2, Sub, Hk. }
  assert (Only : forall n k, In (n, k) els -> starts k = true -> n = "fc").
  { intros n k Hk Sk. destruct (rel_each _ _ _ _ B Hk) as (c & Hc & Ck). rewrite El in Hc. destruct Hc as [Hc|Hc]; [congruence|]. specialize (NF _ Hc). cbn in NF.
    exfalso. destruct c as [[[rt' ra]|]| | | | | | | | |]; try contradiction NF; cbn in Ck; unclass Ck; discriminate Sk. }
  assert (All1 : forall p, In p (all_ports e_in els) \/ In p (all_ports e_out els) -> stream_mass (x_spec x) lab w p = 1).
  { apply (C66_normalised tp (x_method x) (x_design x) (x_spec x) (x_fuel x) lab els (x_links x) w (x_rank x) N SU D (cv_run _ _ _ _ C) Rg Dn).
    - intros n k Hk Sk. rewrite (Only n k Hk Sk). exact Sm.
    - intros p Hp. rewrite O1 in Hp. destruct Hp. }
  assert (E := C66_elements tp (x_method x) (x_design x) (x_spec x) (x_fuel x) lab els (past_inlet (x_links x)) w Nk (sub_set_up _ _ _ _ _ _ Sub SU) D W Rk Rg).
  specialize (E ltac:(intros p Hp; rewrite (All1 p (or_introl Hp)); lra) e). rewrite O3, O4, lsum1, lsum_c in E. rewrite <- Bu.
  unfold builds in B. rewrite El in B |- *. inversion B as [|a [m k] l' els' [Ef Ck] F]; subst. cbn in Ef. subst m. rewrite lsum_c, (fuel_sum _ _ _ w e _ _ F NF) in E. cbn [filter burns snd map].
  assert (EF : element_in (x_spec x) (x_fuel x) lab w e ("fc", k) = element_flow (x_spec x) lab w e ("fc", "Fl_O")) by (cbn in Ck; destruct rt as [[rt ra]|]; unclass Ck; reflexivity).
  rewrite EF in E.
  (* the stream at the inlet is the one of the flight conditions *)
  assert (EI : element_flow (x_spec x) lab w e ("inlet", "Fl_I") = mass_flow w ("inlet", "Fl_I") * air_fraction x w e); [|lra].
  pose proof feed_all as A. rewrite forallb_forall in A. specialize (A g Hg). unfold feed_b in A. fold x in A. apply existsb_exists in A as (lk & Hl & A). destruct (port_eqb (l_src lk) ("fc", "Fl_O")) eqn:A1; [|discriminate].
  apply port_eqb_eq in A, A1. unfold element_flow. f_equal. rewrite <- Sf. pose proof (proj2 SU lk Hl) as El1. pose proof (link_comp _ _ _ _ _ _ _ (cv_run _ _ _ _ C) Hl) as El2. rewrite A, A1 in El1, El2. rewrite El1, El2. reflexivity.
Qed.
Print Assumptions C70_engine.
(* the elements that no fuel contains pass through: what leaves is what the air brought in *)
Theorem C70_inert tp g els w s : In g cea_engines -> Prop_Examples.at_point tp (g_ex g) els w -> let x := g_ex g in set_up_as (x_spec x) (x_kinds x) els (x_links x) s ->
  adders_built (x_spec x) (x_fuel x) (lab_of els s) els -> air_start x els w ->
  forall e, e <> "C" -> e <> "H" -> lsum (element_flow (x_spec x) (lab_of els s) w e) (g_exits g) = mass_flow w ("inlet", "Fl_I") * air_fraction x w e.
Proof.
  intros Hg At x Su Ad St e N1 N2. pose proof (C70_engine tp g els w s Hg At Su Ad St e) as H. fold x in H. rewrite H. clear H. rewrite lsum_0; [apply Rplus_0_r|].
  intros n Hn. destruct At as (B & M & C & _). destruct (cea_engine g Hg) as [He _]. destruct (engine_facts g els He B M) as (N & _ & _ & _ & _ & _ & _ & _ & Bu & _). fold x in N, B, Bu.
  rewrite <- Bu in Hn. apply in_map_iff in Hn as ([n' c] & E & Hn). cbn in E. subst n'. apply filter_In in Hn as [Hn Hb]. destruct c; try discriminate Hb.
  assert (Nd : NoDup (map fst (x_els x))) by (rewrite <- (rel_names _ _ B); exact (proj1 N)).
  unfold x_fuel. rewrite (class_at x n _ Nd Hn).
  pose proof fuel_all as A. rewrite forallb_forall in A. specialize (A g Hg). unfold fuel_b in A. rewrite forallb_forall in A. specialize (A _ Hn). cbn [snd] in A. apply str_in_iff in A.
  assert (Z : dict_fraction (weight (x_spec x)) (reactant (x_spec x) fuel) e = 0); [|rewrite Z; ring].
  unfold dict_fraction, mass_fraction. rewrite amount_miss; [unfold Rdiv; ring|].
  destruct A as [<-|[<-|[]]].
  - replace (reactant (x_spec x) "JP-7") with [("C", dR (2, 0)%Z); ("H", dR (40044, -4)%Z)] by (unfold x_spec; destruct (String.eqb (x_data x) "wet_air"); reflexivity). cbn. intuition.
  - replace (reactant (x_spec x) "Jet-A(g)") with [("C", dR (12, 0)%Z); ("H", dR (23, 0)%Z)] by (unfold x_spec; destruct (String.eqb (x_data x) "wet_air"); reflexivity). cbn. intuition.
Qed.
Print Assumptions C70_inert.
