(* C67: the engines shipped in /repo/example_cycles. Each is a proper flow network; in any converged state mass, thrust, fuel, shaft power and
   energy add up over the whole engine. *)
From Coq Require Import Permutation Lia.
From Verif Require Import Lib_R Lib_Loop Spec_Wire Model_Thermo Proofs_Wire Prop_Static Prop_Thermo Prop_Elem1 Model_Elem1 Model_Elem2 Proofs_Elem Prop_Station Prop_Station2 Prop_Station3 Prop_Station4 Prop_Station5 Prop_Station6 Prop_Station7 Prop_Station8 Model_Cycle Prop_Cycle Model_Examples Data_Examples.
Open Scope string_scope. Open Scope list_scope. Open Scope R_scope.

(* ---------- what the engines are, written down by hand: where gas leaves, what burns, what makes thrust ---------- *)
Record engine := mkEngine { g_ex : example; g_exits : list port; g_burners : list string; g_nozzles : list string }.
Definition engines : list engine := [
  mkEngine x_Turbojet [("nozz", "Fl_O")] ["burner"] ["nozz"]; mkEngine x_Turbojet_od [("nozz", "Fl_O")] ["burner"] ["nozz"];
  mkEngine x_WetTurbojet [("nozz", "Fl_O")] ["burner"] ["nozz"]; mkEngine x_WetTurbojet_od [("nozz", "Fl_O")] ["burner"] ["nozz"];
  mkEngine x_ABTurbojet [("nozz", "Fl_O")] ["burner"; "ab"] ["nozz"]; mkEngine x_ABTurbojet_od [("nozz", "Fl_O")] ["burner"; "ab"] ["nozz"];
  mkEngine x_Propulsor [("nozz", "Fl_O")] [] ["nozz"]; mkEngine x_Propulsor_od [("nozz", "Fl_O")] [] ["nozz"];
  mkEngine x_WetPropulsor [("nozz", "Fl_O")] [] ["nozz"]; mkEngine x_WetPropulsor_od [("nozz", "Fl_O")] [] ["nozz"];
  mkEngine x_SingleSpoolTurboshaft [("nozz", "Fl_O")] ["burner"] ["nozz"]; mkEngine x_SingleSpoolTurboshaft_od [("nozz", "Fl_O")] ["burner"] ["nozz"];
  mkEngine x_MultiSpoolTurboshaft [("nozzle", "Fl_O")] ["burner"] ["nozzle"]; mkEngine x_MultiSpoolTurboshaft_od [("nozzle", "Fl_O")] ["burner"] ["nozzle"];
  mkEngine x_HBTF [("hpc", "cust"); ("core_nozz", "Fl_O"); ("byp_bld", "bypBld"); ("byp_nozz", "Fl_O")] ["burner"] ["core_nozz"; "byp_nozz"];
  mkEngine x_HBTF_od [("hpc", "cust"); ("core_nozz", "Fl_O"); ("byp_bld", "bypBld"); ("byp_nozz", "Fl_O")] ["burner"] ["core_nozz"; "byp_nozz"];
  mkEngine x_HBTF_od_pc [("hpc", "cust"); ("core_nozz", "Fl_O"); ("byp_bld", "bypBld"); ("byp_nozz", "Fl_O")] ["burner"] ["core_nozz"; "byp_nozz"];
  mkEngine x_MixedFlowTurbofan [("mixed_nozz", "Fl_O")] ["burner"; "afterburner"] ["mixed_nozz"]; mkEngine x_MixedFlowTurbofan_od [("mixed_nozz", "Fl_O")] ["burner"; "afterburner"] ["mixed_nozz"];
  mkEngine x_N3 [("bld25", "sbv"); ("hpc", "cust"); ("core_nozz", "Fl_O"); ("byp_bld", "bypBld"); ("byp_nozz", "Fl_O")] ["burner"] ["core_nozz"; "byp_nozz"];
  mkEngine x_N3_cooling [("bld25", "sbv"); ("hpc", "cust"); ("core_nozz", "Fl_O"); ("byp_bld", "bypBld"); ("byp_nozz", "Fl_O")] ["burner"] ["core_nozz"; "byp_nozz"];
  mkEngine x_N3_od [("bld25", "sbv"); ("hpc", "cust"); ("core_nozz", "Fl_O"); ("byp_bld", "bypBld"); ("byp_nozz", "Fl_O")] ["burner"] ["core_nozz"; "byp_nozz"];
  mkEngine x_N3_od_cooling [("bld25", "sbv"); ("hpc", "cust"); ("core_nozz", "Fl_O"); ("byp_bld", "bypBld"); ("byp_nozz", "Fl_O")] ["burner"] ["core_nozz"; "byp_nozz"] ].

(* the mixing components of the elements are those the elements' setups create (C48) *)
Definition made (nk : string * ekind) : Prop :=
  match snd nk with
  | EFlight add => start_ok add | ECombustor a _ => fuel_adder a | ETurbine _ a bs _ => flow_adder a bs | EMixer a _ => flow_adder a ("mix" :: nil) | _ => True
  end.
(* a converged example: an element for each entry, everything solved, divisors not zero *)
Definition at_point tp (x : example) els w : Prop :=
  builds x els /\ (forall nk, In nk els -> made nk) /\ cycle_converged tp x els w /\ (forall nk, In nk els -> regular w nk).

(* ---------- ports of an entry ---------- *)
Definition x_in (c : eclass) : list string :=
  match c with XFlight _ => [] | XTurbine bs => "Fl_I" :: bs | XMixer _ => ["Fl_I1"; "Fl_I2"] | _ => ["Fl_I"] end.
Definition x_out (c : eclass) : list string :=
  match c with XSplitter => ["Fl_O1"; "Fl_O2"] | XBleedOut bs | XCompressor bs => "Fl_O" :: bs | _ => ["Fl_O"] end.
Definition x_ports (sel : eclass -> list string) (l : list (string * eclass)) : list port := flat_map (fun nc => map (fun p => (fst nc, p)) (sel (snd nc))) l.
Ltac unclass H := repeat match type of H with exists _, _ => destruct H as [? H] end; subst.
Lemma class_in c k : is_class c k -> e_in k = x_in c.
Proof. destruct c as [[[rt ra]|]| | | | | | | | |]; cbn; intros H; unclass H; reflexivity. Qed.
Lemma class_out c k : is_class c k -> e_out k = x_out c.
Proof. destruct c as [[[rt ra]|]| | | | | | | | |]; cbn; intros H; unclass H; reflexivity. Qed.
Definition rel (nc : string * eclass) (nk : string * ekind) : Prop := fst nc = fst nk /\ is_class (snd nc) (snd nk).
Lemma rel_names l els : Forall2 rel l els -> map fst els = map fst l.
Proof. induction 1 as [|[n c] [m k] l els [E _] _ IH]; [reflexivity|]. cbn in *. rewrite E, IH. reflexivity. Qed.
Lemma rel_in l els : Forall2 rel l els -> all_ports e_in els = x_ports x_in l.
Proof. induction 1 as [|[n c] [m k] l els [E C] _ IH]; [reflexivity|]. cbn in E. subst m. unfold all_ports, x_ports in *. cbn. rewrite (class_in c k C), IH. reflexivity. Qed.
Lemma rel_out l els : Forall2 rel l els -> all_ports e_out els = x_ports x_out l.
Proof. induction 1 as [|[n c] [m k] l els [E C] _ IH]; [reflexivity|]. cbn in E. subst m. unfold all_ports, x_ports in *. cbn. rewrite (class_out c k C), IH. reflexivity. Qed.
Lemma rel_each l els n k : Forall2 rel l els -> In (n, k) els -> exists c, In (n, c) l /\ is_class c k.
Proof.
  induction 1 as [|[m c] [m' k'] l els [E C] _ IH]; intros H; [contradiction|]. destruct H as [H|H].
  - injection H as -> ->. cbn in E. subst m. exists c. split; [left; reflexivity|exact C].
  - destruct (IH H) as (c' & H1 & H2). exists c'. split; [right; exact H1|exact H2].
Qed.
Lemma rel_has l els n c : Forall2 rel l els -> In (n, c) l -> exists k, In (n, k) els /\ is_class c k.
Proof.
  induction 1 as [|[m c'] [m' k'] l els [E C] _ IH]; intros H; [contradiction|]. destruct H as [H|H].
  - injection H as -> ->. cbn in E. subst m'. exists k'. split; [left; reflexivity|exact C].
  - destruct (IH H) as (k & H1 & H2). exists k. split; [right; exact H1|exact H2].
Qed.
Lemma rel_skip k l els : Forall2 rel l els -> Forall2 rel (skipn k l) (skipn k els).
Proof. revert l els. induction k; intros l els H; [exact H|]. destruct H; [constructor|]. cbn. auto. Qed.

(* ---------- checks ---------- *)
Fixpoint nodup_b {A} (eqb : A -> A -> bool) (l : list A) : bool := match l with [] => true | a :: l => if existsb (eqb a) l then false else nodup_b eqb l end.
Lemma nodup_b_ok {A} (eqb : A -> A -> bool) l : (forall a b, eqb a b = true <-> a = b) -> nodup_b eqb l = true -> NoDup l.
Proof.
  intros E. induction l as [|a l IH]; cbn; intros H; [constructor|]. destruct (existsb (eqb a) l) eqn:X; [discriminate|]. constructor; [|auto].
  intros Hin. assert (Y : existsb (eqb a) l = true) by (apply existsb_exists; exists a; split; [exact Hin|apply E; reflexivity]). congruence.
Qed.
Definition nodup_ports_b : list port -> bool := nodup_b port_eqb.
Definition nodup_str_b : list string -> bool := nodup_b String.eqb.
Lemma nodup_ports_ok l : nodup_ports_b l = true -> NoDup l. Proof. apply nodup_b_ok. intros a b. apply port_eqb_eq. Qed.
Lemma nodup_str_ok l : nodup_str_b l = true -> NoDup l. Proof. apply nodup_b_ok. intros a b. apply String.eqb_eq. Qed.
Fixpoint same_b {A} (eqb : A -> A -> bool) (l m : list A) : bool := match l, m with [], [] => true | a :: l, b :: m => if eqb a b then same_b eqb l m else false | _, _ => false end.
Lemma same_b_ok {A} (eqb : A -> A -> bool) l m : (forall a b, eqb a b = true <-> a = b) -> same_b eqb l m = true -> l = m.
Proof. intros E. revert m. induction l as [|a l IH]; intros [|b m]; cbn; intros H; try discriminate; [reflexivity|]. destruct (eqb a b) eqn:X; [|discriminate]. apply E in X. subst. f_equal. auto. Qed.
Definition name_b (b : string) : bool := (negb (dotted (b ++ ":tot")%string) && negb (String.eqb (b ++ ":tot")%string "guess") && negb (contains ":" b))%bool.
Definition class_b (c : eclass) : bool :=
  match c with XBleedOut bs | XCompressor bs => (forallb name_b bs && nodup_str_b ("Fl_O" :: bs))%bool | XTurbine bs => (forallb name_b bs && nodup_str_b ("Fl_I" :: bs))%bool | _ => true end.
Lemma class_ok c n k : class_b c = true -> is_class c k -> made (n, k) -> options_ok k.
Proof.
  intros B C M.
  assert (NM : forall bs, forallb name_b bs = true -> forall b, In b bs -> ok_name (b ++ ":tot")%string /\ contains ":" b = false).
  { intros bs F b Hb. rewrite forallb_forall in F. specialize (F b Hb). unfold name_b in F. rewrite !andb_true_iff, !negb_true_iff in F. destruct F as [[F1 F2] F3].
    split; [split; [exact F1|apply String.eqb_neq; exact F2]|exact F3]. }
  destruct c as [[[rt ra]|]| | | | | | | | |]; cbn in C; unclass C; cbn in M |- *; try exact Logic.I; try exact M; cbn [class_b] in B; rewrite andb_true_iff in B; destruct B as [B1 B2]; apply nodup_str_ok in B2.
  - split; [intros b Hb; exact (proj1 (NM _ B1 b Hb))|exact B2].
  - split; [intros b Hb; exact (proj1 (NM _ B1 b Hb))|exact B2].
  - split; [intros b Hb; exact (proj2 (NM _ B1 b Hb))|]. split; [exact M|exact B2].
Qed.
Definition net_b (l : list (string * eclass)) (links : list link) : bool :=
  if nodup_str_b (map fst l) then if forallb (fun nc => class_b (snd nc)) l then
    if forallb (fun k => used (l_src k) (x_ports x_out l)) links then if forallb (fun k => used (l_tgt k) (x_ports x_in l)) links then
      if nodup_ports_b (map l_src links) then nodup_ports_b (map l_tgt links) else false else false else false else false else false.
Lemma net_ok l links els : net_b l links = true -> Forall2 rel l els -> (forall nk, In nk els -> made nk) -> network els links.
Proof.
  unfold net_b. intros H F M.
  destruct (nodup_str_b (map fst l)) eqn:E1; [|discriminate]. destruct (forallb (fun nc => class_b (snd nc)) l) eqn:E2; [|discriminate].
  destruct (forallb (fun k => used (l_src k) (x_ports x_out l)) links) eqn:E3; [|discriminate]. destruct (forallb (fun k => used (l_tgt k) (x_ports x_in l)) links) eqn:E4; [|discriminate].
  destruct (nodup_ports_b (map l_src links)) eqn:E5; [|discriminate]. rewrite forallb_forall in E2, E3, E4.
  split; [rewrite (rel_names _ _ F); apply nodup_str_ok; exact E1|]. split.
  { intros n k Hk. destruct (rel_each _ _ _ _ F Hk) as (c & Hc & Ck). apply (class_ok c n k); [exact (E2 (n, c) Hc)|exact Ck|exact (M _ Hk)]. }
  split; [|split; apply nodup_ports_ok; assumption]. intros k Hk. rewrite (rel_in _ _ F), (rel_out _ _ F). split; apply used_in; [apply E3|apply E4]; exact Hk.
Qed.
Lemma open_in_x l links els : Forall2 rel l els -> open_in els links = filter (fun p => negb (used p (map l_tgt links))) (x_ports x_in l).
Proof. intros F. unfold open_in. rewrite (rel_in _ _ F). reflexivity. Qed.
Lemma open_out_x l links els : Forall2 rel l els -> open_out els links = filter (fun p => negb (used p (map l_src links))) (x_ports x_out l).
Proof. intros F. unfold open_out. rewrite (rel_out _ _ F). reflexivity. Qed.
(* the flow connections without the one into the inlet *)
Definition past_inlet (links : list link) : list link := filter (fun k => negb (port_eqb (l_tgt k) ("inlet", "Fl_I"))) links.
Definition burns (nc : string * eclass) : bool := match snd nc with XCombustor _ => true | _ => false end.
Definition jets (nc : string * eclass) : bool := match snd nc with XNozzle _ _ => true | _ => false end.
Definition exit_b : list port -> list port -> bool := same_b port_eqb.
Definition str_b : list string -> list string -> bool := same_b String.eqb.
Lemma exit_ok l m : exit_b l m = true -> l = m. Proof. apply same_b_ok. intros a b. apply port_eqb_eq. Qed.
Lemma str_ok l m : str_b l m = true -> l = m. Proof. apply same_b_ok. intros a b. apply String.eqb_eq. Qed.
Definition mass_b (g : engine) : bool :=
  let x := g_ex g in let ks := past_inlet (x_links x) in
  if net_b (x_els x) (x_links x) then if net_b (x_els x) ks then if forallb l_w ks then
  if forallb l_tot (x_links x) then
  if exit_b (filter (fun p => negb (used p (map l_tgt (x_links x)))) (x_ports x_in (x_els x))) [] then
  if exit_b (filter (fun p => negb (used p (map l_src (x_links x)))) (x_ports x_out (x_els x))) (g_exits g) then
  if exit_b (filter (fun p => negb (used p (map l_tgt ks))) (x_ports x_in (x_els x))) [("inlet", "Fl_I")] then
  if exit_b (filter (fun p => negb (used p (map l_src ks))) (x_ports x_out (x_els x))) (("fc", "Fl_O") :: g_exits g) then
  if str_b (map fst (filter burns (x_els x))) (g_burners g) then if str_b (map fst (filter jets (x_els x))) (g_nozzles g) then
  match x_els x with ("fc", XFlight _) :: l => forallb (fun nc => match snd nc with XFlight _ => false | _ => true end) l | _ => false end
  else false else false else false else false else false else false else false else false else false else false.
Lemma engines_ok : forallb mass_b engines = true. Proof. vm_compute. match goal with |- true = true => reflexivity end. Qed.

Lemma engine_facts g els : In g engines -> builds (g_ex g) els -> (forall nk, In nk els -> made nk) ->
  let x := g_ex g in let ks := past_inlet (x_links x) in
  network els (x_links x) /\ network els ks /\ (forall k, In k ks -> l_w k = true) /\ (forall k, In k (x_links x) -> l_tot k = true) /\
  open_in els (x_links x) = [] /\ open_out els (x_links x) = g_exits g /\ open_in els ks = ("inlet", "Fl_I") :: nil /\ open_out els ks = ("fc", "Fl_O") :: g_exits g /\
  map fst (filter burns (x_els x)) = g_burners g /\ map fst (filter jets (x_els x)) = g_nozzles g /\
  exists rt l, x_els x = ("fc", XFlight rt) :: l /\ forall nc, In nc l -> match snd nc with XFlight _ => False | _ => True end.
Proof.
  intros Hg B M x ks. assert (C := engines_ok). rewrite forallb_forall in C. specialize (C g Hg). unfold mass_b in C. fold x ks in C. cbv zeta in C.
  destruct (net_b (x_els x) (x_links x)) eqn:E1; [|discriminate]. destruct (net_b (x_els x) ks) eqn:E2; [|discriminate]. destruct (forallb l_w ks) eqn:E3; [|discriminate].
  destruct (forallb l_tot (x_links x)) eqn:E4; [|discriminate].
  repeat match type of C with (if ?b then _ else _) = true => let E := fresh "E" in destruct b eqn:E; [|discriminate C] end.
  rewrite forallb_forall in E3, E4. repeat match goal with E : exit_b _ _ = true |- _ => apply exit_ok in E end. repeat match goal with E : str_b _ _ = true |- _ => apply str_ok in E end.
  split; [exact (net_ok _ _ _ E1 B M)|]. split; [exact (net_ok _ _ _ E2 B M)|]. split; [exact E3|]. split; [exact E4|].
  rewrite !(open_in_x _ _ _ B), !(open_out_x _ _ _ B). repeat (match goal with |- _ /\ _ => split end; [assumption|]).
  destruct (x_els x) as [|[n c] l]; [discriminate|].
  assert (n = "fc" /\ exists rt, c = XFlight rt) as (-> & rt & ->).
  { clear - C. repeat (destruct n as [|[[|] [|] [|] [|] [|] [|] [|] [|]] n]; try discriminate C). destruct c; try discriminate C. split; eauto. }
  exists rt, l. split; [reflexivity|]. rewrite forallb_forall in C. intros nc Hnc. specialize (C nc Hnc). destruct (snd nc); [discriminate|exact Logic.I..].
Qed.

(* ---------- C67 ---------- *)
(* every shipped engine, with the gas exits listed above, is a proper network of elements: names distinct, every flow connection from an
   existing outlet to an existing inlet, no port used twice, every inlet fed; totals are connected everywhere; the only connection that
   leaves out the mass flow is the one into the inlet; combustors and nozzles are the ones listed *)
Theorem C67_network : map g_ex engines = examples /\ forall g els, In g engines -> builds (g_ex g) els -> (forall nk, In nk els -> made nk) ->
  network els (x_links (g_ex g)) /\ open_in els (x_links (g_ex g)) = [] /\ open_out els (x_links (g_ex g)) = g_exits g /\
  (forall k, In k (x_links (g_ex g)) -> l_tot k = true /\ (l_w k = false -> l_tgt k = ("inlet", "Fl_I"))) /\
  (forall n, In n (g_burners g) <-> exists f, In (n, XCombustor f) (x_els (g_ex g))) /\ (forall n, In n (g_nozzles g) <-> exists t c, In (n, XNozzle t c) (x_els (g_ex g))).
Proof.
  split; [reflexivity|]. intros g els Hg B M. destruct (engine_facts g els Hg B M) as (N & _ & W & T & O1 & O2 & _ & _ & Bu & Je & _).
  split; [exact N|]. split; [exact O1|]. split; [exact O2|]. split.
  { intros k Hk. split; [auto|]. intros Hw. destruct (port_eqb (l_tgt k) ("inlet", "Fl_I")) eqn:E; [apply port_eqb_eq; exact E|].
    exfalso. assert (l_w k = true) by (apply W, filter_In; rewrite E; auto). congruence. }
  rewrite <- Bu, <- Je. split; intros n; rewrite in_map_iff; (split; [intros ([m c] & <- & H); apply filter_In in H as [H1 H2]; destruct c; try discriminate H2; cbn; eauto|]).
  - intros [f H]. exists (n, XCombustor f). split; [reflexivity|apply filter_In; auto].
  - intros (t & c & H). exists (n, XNozzle t c). split; [reflexivity|apply filter_In; auto].
Qed.
Lemma mass_sum w l els : Forall2 rel l els -> (forall nc, In nc l -> match snd nc with XFlight _ => False | _ => True end) ->
  lsum (mass_in w) els = lsum (fun n => val (local w n) "Wfuel") (map fst (filter burns l)).
Proof.
  induction 1 as [|[n c] [m k] l els [E C] _ IH]; intros NF; [reflexivity|]. cbn in E. subst m. rewrite lsum_c, IH by (intros; apply NF; right; assumption).
  specialize (NF (n, c) (or_introl eq_refl)). cbn in NF. destruct c as [[[rt ra]|]| | | | | | | | |]; try contradiction NF; cbn in C; unclass C; cbn [filter burns snd map fst mass_in]; try (rewrite lsum_c; reflexivity); apply Rplus_0_l.
Qed.
(* what the engine takes in through the inlet and as fuel is what leaves through its nozzles and overboard bleeds *)
Theorem C67_mass tp g els w : In g engines -> at_point tp (g_ex g) els w ->
  mass_flow w ("inlet", "Fl_I") + lsum (fun n => val (local w n) "Wfuel") (g_burners g) = lsum (mass_flow w) (g_exits g).
Proof.
  intros Hg (B & M & C & Rg). destruct (engine_facts g els Hg B M) as (_ & N & W & _ & _ & _ & O1 & O2 & Bu & _ & rt & l & El & NF).
  assert (Rn : running tp (x_method (g_ex g)) (x_design (g_ex g)) els (past_inlet (x_links (g_ex g))) w).
  { destruct (cv_run _ _ _ _ C) as [R1 R2]. split; [exact R1|]. intros k Hk. apply R2. unfold past_inlet in Hk. apply filter_In in Hk. tauto. }
  assert (E := C41_mass _ _ _ _ _ _ N W Rn Rg). rewrite O1, O2, lsum1, lsum_c in E. rewrite <- Bu.
  unfold builds in B. rewrite El in B |- *. inversion B as [|a [m k] l' els' [Ef Ck] F]; subst. cbn in Ef. subst m.
  rewrite lsum_c, (mass_sum w _ _ F NF) in E. cbn [filter burns snd map].
  assert (EF : mass_flow w ("fc", "Fl_O") = mass_in w ("fc", k)).
  { assert (Ok : options_ok k) by (apply (proj1 (proj2 N)) with "fc"; left; reflexivity).
    assert (Sk : solves (egroup tp (x_method (g_ex g)) (x_design (g_ex g)) k) (local w "fc")) by (apply (proj1 Rn); left; reflexivity).
    assert (G := elem_mass _ _ _ w "fc" k Ok Sk (Rg ("fc", k) (or_introl eq_refl))). cbn in Ck. destruct rt as [[rt ra]|]; unclass Ck; cbn [e_in e_out] in G; rewrite lsum1 in G; change (lsum _ []) with 0 in G; lra. }
  lra.
Qed.
