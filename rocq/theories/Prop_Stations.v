(* Claim C55: no thermo station of an element silently misreads a composition vector (CEA). *)
From Coq Require Import FunctionalExtensionality Permutation Lia.
From Verif Require Import Lib_R Lib_Py Lib_Loop Spec_Mix Spec_Wire Model_Thermo Proofs_Wire Prop_Static Prop_Thermo Prop_Elem1 Proofs_Species Model_ThermoAdd Proofs_ThermoAdd Prop_Mix Model_Elem1 Model_Elem2 Proofs_Elem Prop_Station Prop_Station2 Prop_Station3 Prop_Station4 Prop_Station5 Prop_Station6 Prop_Station7 Prop_Station8 Model_Ports Prop_Ports Model_Cycle Prop_Cycle Prop_Elements Model_Stations.
Open Scope string_scope. Open Scope list_scope. Open Scope R_scope.

(* ---------- which vector a station receives ---------- *)
(* the group in which an element places its stations, with the prefix its variables have in the element; the mixer has two, the flight and CFD
   starts place theirs in the FlowStart they contain *)
Definition station_groups tp me design (k : ekind) : list (string * group) :=
  match k with
  | EFlight add => ("fs.", flow_start tp me add) :: nil | ECfd => ("fs.", flow_start tp me None) :: nil
  | EMixer a one => [("", mixer tp me a one design); ("", mix_conv tp me)]
  | _ => ("", egroup tp me design k) :: nil
  end.
Definition takes_composition (s : sub) : Prop := In "composition" (names (sins s)).
Definition listed (k : ekind) (pre : string) (s : sub) : Prop := exists st, In st (stations k) /\ st_name st = sname s /\ st_input st = (pre ++ gname (sname s) (pin s) "composition")%string.
Lemma map_no mp rs design : takes_composition (group_sub "map" (compressor_map mp rs design) (c_map_pin design) (c_map_pout design)) -> False.
Proof. destruct design; intros H; vm_compute in H; repeat destruct H as [H|H]; try discriminate; contradiction. Qed.
Lemma tmap_no mp design : takes_composition (group_sub "map" (turbine_map mp design) (t_map_pin design) (t_map_pout design)) -> False.
Proof. destruct design; intros H; vm_compute in H; repeat destruct H as [H|H]; try discriminate; contradiction. Qed.
Ltac notake H := exfalso; unfold takes_composition in H; vm_compute in H; repeat destruct H as [H|H]; try discriminate H; contradiction.
Ltac exN t := eexists; split; [cbn [stations app]; t|split; reflexivity].
Ltac yes := first [exN ltac:(left; reflexivity) | exN ltac:(right; left; reflexivity) | exN ltac:(right; right; left; reflexivity) | exN ltac:(right; right; right; left; reflexivity)].
Lemma suffix_neq (b s : string) x : (forall y, (y ++ s)%string <> x) -> In x (map (fun b => (b ++ s)%string) (b :: nil)) -> False.
Proof. intros H [K|[]]. exact (H b K). Qed.
Lemma in_in_names (f : string -> list meta) bs x : In x (names (flat_map f bs)) -> exists b, In b bs /\ In x (names (f b)).
Proof. unfold names. intros H. apply in_map_iff in H as (m & E & H). apply in_flat_map in H as (b & Hb & Hm). exists b. split; [exact Hb|]. rewrite <- E. apply in_map. exact Hm. Qed.
Lemma app_neq (b s x : string) : suffixb s x = false -> (b ++ s)%string <> x.
Proof. intros H E. subst x. rewrite suffixb_app in H. discriminate. Qed.
Lemma port_neq (b : string) : takes_composition (flow_in b b [PG (b ++ ":")%string]) -> False.
Proof.
  unfold takes_composition, flow_in, in_port, names. cbn [sins]. rewrite map_map. intros H. apply in_map_iff in H as (m & E & H). cbn [fst] in E.
  assert (K : forall y, In y (map fst (port_tot ++ port_stat ++ [("FAR", ("", "0.0"))])) -> (b ++ ":" ++ y)%string <> "composition").
  { intros y Hy. apply app_neq. vm_compute in Hy. repeat destruct Hy as [<-|Hy]; try contradiction; reflexivity. }
  apply (K (fst m)); [apply in_map; exact H|exact E].
Qed.
Ltac noadd a T := exfalso; unfold takes_composition in T; cbn [add_sub sins] in T; unfold add_ins, names in T; rewrite map_app in T;
  apply in_app_or in T as [T|T]; [cbn in T; repeat destruct T as [T|T]; try discriminate T; contradiction|]; apply in_in_names in T as (? & _ & T);
  destruct (add_reacting a); cbn in T; repeat destruct T as [T|T]; try contradiction; revert T; apply app_neq; reflexivity.
Ltac nobld T := exfalso; unfold takes_composition in T; cbn [blds_pwr_sub blds_sub pwr_turb_sub sins] in T; unfold names in T; rewrite map_app in T;
  apply in_app_or in T as [T|T]; [cbn in T; repeat destruct T as [T|T]; try discriminate T; contradiction|]; apply in_in_names in T as (? & _ & T);
  cbn in T; repeat destruct T as [T|T]; try contradiction; revert T; apply app_neq; reflexivity.
Lemma start_stations tp me add s k pre : stations k = [mkSt "totals" (pre ++ "composition") "Fl_O" "Fl_O"; mkSt "exit_static" (pre ++ "composition") "Fl_O" "Fl_O"] ->
  In s (subs (flow_start tp me add)) -> takes_composition s -> listed k pre s.
Proof.
  intros E Hs T. unfold listed. rewrite E. unfold flow_start in Hs. cbn [subs] in Hs. apply in_app_or in Hs as [Hs|Hs].
  - destruct add as [[a r]|]; [|contradiction]. destruct Hs as [<-|[]]. noadd a T.
  - destruct Hs as [<-|[<-|[]]]; yes.
Qed.
Theorem C55_complete tp me design k pre g s : In (pre, g) (station_groups tp me design k) -> In s (subs g) -> takes_composition s -> listed k pre s.
Proof.
  intros Hg Hs T. destruct k; cbn [station_groups] in Hg; repeat destruct Hg as [Hg|Hg]; try contradiction; injection Hg as <- <-; unfold listed; cbn [egroup] in Hs.
  - apply (start_stations tp me add); auto.
  - apply (start_stations tp me add); auto.
  - apply (start_stations tp me None); auto.
  - unfold inlet in Hs. cbn [subs app] in Hs. destruct Hs as [<-|[<-|[<-|Hs]]]; [notake T|notake T|yes|]. destruct statics; destruct Hs as [<-|[]]; [destruct design; yes|notake T].
  - unfold duct in Hs. cbn [subs app] in Hs. destruct Hs as [<-|Hs]; [notake T|]. apply in_app_or in Hs as [Hs|Hs].
    + destruct with_MN; [|contradiction]. destruct Hs as [<-|[]]. destruct design; notake T.
    + cbn [app] in Hs. destruct Hs as [<-|[<-|[<-|Hs]]]; [notake T|notake T|yes|]. destruct statics; destruct Hs as [<-|[]]; [destruct design; yes|notake T].
  - unfold splitter in Hs. cbn [subs app] in Hs. destruct Hs as [<-|[<-|[<-|[<-|Hs]]]]; [notake T|notake T|yes|yes|].
    destruct statics; destruct Hs as [<-|[<-|[]]]; [destruct design; yes|destruct design; yes|notake T|notake T].
  - unfold bleed_out in Hs. cbn [subs app] in Hs. destruct Hs as [<-|[<-|Hs]]; [notake T| |].
    + exfalso. unfold takes_composition in T. cbn in T. destruct T as [T|T]; [discriminate|]. unfold names in T. rewrite map_map in T. apply in_map_iff in T as (b & T & _). cbn [fst] in T. revert T. apply app_neq. reflexivity.
    + apply in_app_or in Hs as [Hs|Hs].
      { apply in_map_iff in Hs as (b & <- & Hb). exists (plain_st (b ++ "_flow")). split; [cbn [stations]; apply in_or_app; left; apply in_map_iff; eauto|]. split; reflexivity. }
      destruct Hs as [<-|Hs]; [eexists; split; [cbn [stations]; apply in_or_app; right; left; reflexivity|split; reflexivity]|].
      destruct statics; destruct Hs as [<-|[]]; [|notake T]. eexists; split; [cbn [stations]; apply in_or_app; right; right; left; reflexivity|]. destruct design; split; reflexivity.
  - unfold combustor in Hs. cbn [subs app] in Hs. destruct Hs as [<-|[<-|[<-|[<-|Hs]]]]; [notake T|noadd a T|notake T|yes|].
    destruct statics; destruct Hs as [<-|[]]; [destruct design; yes|notake T].
  - unfold compressor in Hs. cbn [subs app] in Hs. destruct Hs as [<-|[<-|[<-|[<-|[<-|[<-|[<-|[<-|[<-|Hs]]]]]]]]]; [notake T|notake T|destruct (map_no _ _ _ T)|notake T|yes|notake T|yes|notake T|nobld T|].
    apply in_app_or in Hs as [Hs|Hs].
    { apply in_map_iff in Hs as (b & <- & Hb). exists (plain_st (b ++ "_flow")). split; [cbn [stations]; apply in_or_app; right; apply in_or_app; left; apply in_map_iff; eauto|]. split; reflexivity. }
    destruct statics; destruct Hs as [<-|[]]; [|notake T]. eexists; split; [cbn [stations]; apply in_or_app; right; apply in_or_app; right; left; reflexivity|]. destruct design; split; reflexivity.
  - unfold turbine in Hs. cbn [subs app] in Hs. destruct Hs as [<-|[<-|[<-|[<-|[<-|Hs]]]]]; [notake T|notake T|destruct (tmap_no _ _ T)|notake T|yes|].
    apply in_app_or in Hs as [Hs|Hs]; [apply in_map_iff in Hs as (b & <- & _); destruct (port_neq _ T)|]. cbn [app] in Hs. destruct Hs as [<-|[<-|Hs]]; [noadd a T|nobld T|].
    apply in_app_or in Hs as [Hs|Hs].
    { apply in_flat_map in Hs as (b & Hb & Hs). destruct Hs as [<-|[<-|[]]].
      - exists (mkSt (b ++ "_inflow") (b ++ ":tot:composition") b b)%string. split; [|split; reflexivity]. cbn [stations app]. right. right. apply in_or_app. left. apply in_flat_map. exists b. split; [exact Hb|left; reflexivity].
      - exists (mkSt (b ++ "_ideal") (b ++ ":tot:composition") b b)%string. split; [|split; reflexivity]. cbn [stations app]. right. right. apply in_or_app. left. apply in_flat_map. exists b. split; [exact Hb|right; left; reflexivity]. }
    cbn [app] in Hs. destruct Hs as [<-|[<-|[<-|[<-|Hs]]]]; [nobld T|yes|notake T| |].
    { eexists; split; [cbn [stations app]; right; right; apply in_or_app; right; left; reflexivity|split; reflexivity]. }
    destruct statics; destruct Hs as [<-|[]]; [|notake T]. eexists; split; [cbn [stations app]; right; right; apply in_or_app; right; right; left; reflexivity|]. destruct design; split; reflexivity.
  - unfold nozzle in Hs. cbn [subs app] in Hs. destruct Hs as [<-|[<-|[<-|[<-|[<-|[<-|[<-|[<-|[<-|[<-|[]]]]]]]]]]]; [notake T|notake T|notake T|notake T|yes|yes|yes|yes|notake T|destruct lc; notake T].
  - unfold mixer in Hs. cbn [subs app] in Hs. destruct Hs as [<-|[<-|Hs]]; [notake T|notake T|]. apply in_app_or in Hs as [Hs|Hs].
    + destruct design, one; repeat destruct Hs as [<-|Hs]; try contradiction; first [yes|notake T].
    + destruct Hs as [<-|[<-|[<-|[<-|[]]]]]; [notake T|noadd a T|destruct one; notake T|].
      exfalso. revert T. destruct me; unfold takes_composition; intros T; vm_compute in T; repeat destruct T as [T|T]; try discriminate T; contradiction.
  - unfold mix_conv in Hs. cbn [subs app] in Hs. destruct Hs as [<-|[<-|[<-|[<-|[]]]]]; [destruct one; yes|destruct one; yes|notake T|notake T].
Qed.
Print Assumptions C55_complete.

(* in a converged element every station receives the composition vector of the port it is listed with *)
Theorem C55_vectors tp me design k v : options_ok k -> solves (egroup tp me design k) v ->
  forall st, In st (stations k) -> same v (st_input st) (st_fed st ++ ":tot:composition").
Proof.
  intros O S st Hst. destruct k; cbn [egroup options_ok stations] in *.
  - apply C48_flow_start in S as (_ & S & _). repeat destruct Hst as [<-|Hst]; try contradiction; apply same_sym, S.
  - apply (C48_flight_conditions _ _ _ _ O) in S as (_ & S & _). repeat destruct Hst as [<-|Hst]; try contradiction; apply same_sym, S.
  - apply C48_cfd_start in S as (_ & S & _). repeat destruct Hst as [<-|Hst]; try contradiction; apply same_sym, S.
  - destruct statics; repeat destruct Hst as [<-|Hst]; try contradiction; apply same_refl.
  - destruct statics; repeat destruct Hst as [<-|Hst]; try contradiction; apply same_refl.
  - destruct statics; repeat destruct Hst as [<-|Hst]; try contradiction; apply same_refl.
  - apply in_app_or in Hst as [Hst|Hst]; [apply in_map_iff in Hst as (b & <- & _); apply same_refl|]. destruct statics; repeat destruct Hst as [<-|Hst]; try contradiction; apply same_refl.
  - assert (S' := S). destruct S' as [Hs Hc]. unfold combustor in Hs, Hc. cbn [subs conns app] in Hs, Hc.
    destruct (sub_hP tp me "vitiated_flow" "Fl_O:tot" "Fl_O:tot" [] [PG "Fl_O:"] v) as ((_ & T2 & _) & _); [okn|shw|apply Hs; insub|].
    assert (Q : same v "vitiated_flow.composition" "Fl_O:tot:composition") by (apply same_sym, T2). destruct Hst as [<-|Hst]; [exact Q|].
    destruct statics; [|contradiction]. destruct Hst as [<-|[]]. intros i. cbn [st_input st_fed append]. rewrite <- (Q i).
    rewrite (Hc "mix_fuel.composition_out" "out_stat.composition") by insub. symmetry. apply Hc. insub.
  - apply in_app_or in Hst as [Hst|Hst]; [repeat destruct Hst as [<-|Hst]; try contradiction; apply same_refl|].
    apply in_app_or in Hst as [Hst|Hst]; [apply in_map_iff in Hst as (b & <- & _); apply same_refl|]. destruct statics; repeat destruct Hst as [<-|Hst]; try contradiction; apply same_refl.
  - assert (S' := S). destruct S' as [_ Hc]. destruct O as (O1 & O2 & _). apply (C48_turbine _ _ _ _ _ _ _ _ O1 O2) in S as (_ & S & _).
    unfold turbine in Hc. cbn [conns app] in Hc.
    assert (Q : same v "real_flow.composition" "Fl_O:tot:composition").
    { intros i. rewrite (S i). apply Hc. right. right. apply in_or_app. right. insub. }
    cbn [app] in Hst. destruct Hst as [<-|[<-|Hst]]; [apply same_refl|apply same_refl|]. apply in_app_or in Hst as [Hst|Hst].
    { apply in_flat_map in Hst as (b & _ & [<-|[<-|[]]]); apply same_refl. }
    destruct Hst as [<-|Hst]; [exact Q|]. destruct statics; [|contradiction]. destruct Hst as [<-|[]].
    intros i. cbn [st_input st_fed append]. rewrite (S i). apply Hc. right. right. apply in_or_app. right. insub.
  - repeat destruct Hst as [<-|Hst]; try contradiction; apply same_refl.
  - assert (S' := S). destruct S' as [_ Hc]. apply (C48_mixer _ _ _ _ _ _ O) in S as (_ & S & _). unfold mixer in Hc. cbn [conns] in Hc.
    destruct Hst as [<-|[<-|[<-|[]]]]; [destruct one; apply same_refl| |].
    + intros i. cbn [st_input st_fed append]. rewrite (S i). apply Hc. apply in_or_app. right. insub.
    + intros i. cbn [st_input st_fed append]. rewrite (S i). apply Hc. apply in_or_app. right. insub.
Qed.
Print Assumptions C55_vectors.

(* ---------- how it reads it ---------- *)
Lemma keys_eq (l1 l2 : list string) : NoDup l1 -> NoDup l2 -> incl l1 l2 -> List.length l1 = List.length l2 -> sorted l1 = sorted l2.
Proof.
  intros N1 N2 Hi L. apply sorted_ext. apply NoDup_Permutation; [exact N1|exact N2|]. intros x. split; [apply Hi|].
  apply (NoDup_length_incl N1); [lia|exact Hi].
Qed.

(* `elements d`: the labels of the entries of a composition vector written for the port data d *)
Definition elements (d : dict R) : list string := sorted (dkeys d).
(* the outlet of a turbine or mixer carries the elements of all its inlets *)
Lemma turbine_out sp fuel lab n mp a bs st : announced sp fuel lab n (ETurbine mp a bs st) -> lab (n, "Fl_O") = fold_left dupdate (map (fun b => lab (n, b)) bs) (lab (n, "Fl_I")).
Proof. intros A. pose proof (ann_adder _ _ _ _ _ _ _ A eq_refl) as H. cbn in H. injection H as H. symmetry. exact H. Qed.
Lemma mixer_out sp fuel lab n a one : announced sp fuel lab n (EMixer a one) -> lab (n, "Fl_O") = dupdate (lab (n, "Fl_I1")) (lab (n, "Fl_I2")).
Proof. intros A. pose proof (ann_adder _ _ _ _ _ _ _ A eq_refl) as H. cbn in H. injection H as H. symmetry. exact H. Qed.
Lemma fold_incl (l : list (dict R)) m : incl (dkeys m) (dkeys (fold_left dupdate l m)).
Proof. intros x Hx. apply (proj1 (fold_dupdate_spec l m)). left. exact Hx. Qed.
Lemma upd_incl (d m : dict R) : incl (dkeys m) (dkeys (dupdate m d)).
Proof. intros x Hx. apply dupdate_keys. left. exact Hx. Qed.
Theorem C55_reads sp fuel lab n k : (forall p, dwf (lab p)) -> announced sp fuel lab n k -> accepted lab n k ->
  forall st p, In st (stations k) -> mk_properties sp (Some (lab (n, st_built st))) = Ok p -> p_elements p = elements (lab (n, st_fed st)).
Proof.
  intros W A Ac st p Hst Hp. destruct (mk_elems _ _ _ Hp) as [-> _]. clear p Hp. assert (L := Ac st Hst). unfold elements.
  destruct (string_dec (st_built st) (st_fed st)) as [->|Ne]; [reflexivity|]. unfold vec_size in L.
  destruct k; cbn [stations] in *.
  - repeat destruct Hst as [<-|Hst]; try contradiction; reflexivity.
  - repeat destruct Hst as [<-|Hst]; try contradiction; reflexivity.
  - repeat destruct Hst as [<-|Hst]; try contradiction; reflexivity.
  - destruct statics; repeat destruct Hst as [<-|Hst]; try contradiction; reflexivity.
  - destruct statics; repeat destruct Hst as [<-|Hst]; try contradiction; reflexivity.
  - destruct statics; repeat destruct Hst as [<-|Hst]; try contradiction; reflexivity.
  - apply in_app_or in Hst as [Hst|Hst]; [apply in_map_iff in Hst as (b & <- & _); reflexivity|]. destruct statics; repeat destruct Hst as [<-|Hst]; try contradiction; reflexivity.
  - destruct statics; repeat destruct Hst as [<-|Hst]; try contradiction; reflexivity.
  - apply in_app_or in Hst as [Hst|Hst]; [repeat destruct Hst as [<-|Hst]; try contradiction; reflexivity|].
    apply in_app_or in Hst as [Hst|Hst]; [apply in_map_iff in Hst as (b & <- & _); reflexivity|]. destruct statics; repeat destruct Hst as [<-|Hst]; try contradiction; reflexivity.
  - cbn [app] in Hst. destruct Hst as [<-|[<-|Hst]]; [reflexivity|reflexivity|]. apply in_app_or in Hst as [Hst|Hst].
    { apply in_flat_map in Hst as (b & _ & [<-|[<-|[]]]); reflexivity. }
    assert (E : st_built st = "Fl_I" /\ st_fed st = "Fl_O") by (destruct Hst as [<-|Hst]; [split; reflexivity|]; destruct statics; [destruct Hst as [<-|[]]; split; reflexivity|contradiction]).
    destruct E as [E1 E2]. rewrite E1, E2 in *. apply keys_eq; [apply W|apply W| |exact L]. rewrite (turbine_out _ _ _ _ _ _ _ _ A). apply fold_incl.
  - repeat destruct Hst as [<-|Hst]; try contradiction; reflexivity.
  - assert (K1 : sorted (dkeys (lab (n, "Fl_I1"))) = sorted (dkeys (lab (n, "Fl_O")))).
    { apply keys_eq; [apply W|apply W|rewrite (mixer_out _ _ _ _ _ _ A); apply upd_incl|]. exact (Ac (mkSt "out_tot" "out_tot.composition" "Fl_I1" "Fl_O") ltac:(cbn; auto)). }
    destruct Hst as [<-|[<-|[<-|[]]]]; [|exact K1|exact K1]. destruct one; cbn [st_built st_fed] in *; [reflexivity|].
    symmetry. apply keys_eq; [apply W|apply W| |symmetry; exact L]. intros x Hx. apply in_sorted. rewrite K1. apply in_sorted. rewrite (mixer_out _ _ _ _ _ _ A). apply dupdate_keys. right. exact Hx.
Qed.
Print Assumptions C55_reads.

(* ---------- which elements are refused: only a turbine or a mixer whose added stream brings an element the main stream lacks ---------- *)
Definition has_all (d d' : dict R) : Prop := forall x, In x (dkeys d) -> In x (dkeys d').
Theorem C55_refused sp fuel lab n k : (forall p, dwf (lab p)) -> announced sp fuel lab n k ->
  (accepted lab n k <->
   match k with
   | ETurbine _ _ bs _ => forall b, In b bs -> has_all (lab (n, b)) (lab (n, "Fl_I"))
   | EMixer _ one => has_all (lab (n, "Fl_I2")) (lab (n, "Fl_I1")) /\ (one = false -> has_all (lab (n, "Fl_I1")) (lab (n, "Fl_I2")))
   | _ => True
   end).
Proof.
  intros W A. split.
  - intros Ac. assert (Rd := fun st Hst => Ac st Hst). destruct k; try exact Logic.I.
    + intros b Hb x Hx. assert (L := Ac (mkSt "real_flow" "real_flow.composition" "Fl_I" "Fl_O") ltac:(cbn [stations app]; right; right; apply in_or_app; right; left; reflexivity)).
      cbn [st_built st_fed] in L. unfold vec_size in L.
      apply (NoDup_length_incl (l := dkeys (lab (n, "Fl_I"))) (l' := dkeys (lab (n, "Fl_O")))); [apply W|lia| |].
      * rewrite (turbine_out _ _ _ _ _ _ _ _ A). apply fold_incl.
      * rewrite (turbine_out _ _ _ _ _ _ _ _ A). apply (proj1 (fold_dupdate_spec _ _)). right. exists (lab (n, b)). split; [apply in_map_iff; eauto|exact Hx].
    + assert (L := Ac (mkSt "out_tot" "out_tot.composition" "Fl_I1" "Fl_O") ltac:(cbn; auto)). cbn [st_built st_fed] in L. unfold vec_size in L.
      assert (H21 : has_all (lab (n, "Fl_I2")) (lab (n, "Fl_I1"))).
      { intros x Hx. apply (NoDup_length_incl (l := dkeys (lab (n, "Fl_I1"))) (l' := dkeys (lab (n, "Fl_O")))); [apply W|lia| |].
        - rewrite (mixer_out _ _ _ _ _ _ A). apply upd_incl.
        - rewrite (mixer_out _ _ _ _ _ _ A). apply dupdate_keys. right. exact Hx. }
      split; [exact H21|]. intros ->. assert (L2 := Ac (mkSt "Fl_I2_stat_calc" "Fl_I2:tot:composition" "Fl_I1" "Fl_I2") ltac:(cbn; auto)). cbn [st_built st_fed] in L2. unfold vec_size in L2.
      intros x Hx. apply (NoDup_length_incl (l := dkeys (lab (n, "Fl_I2"))) (l' := dkeys (lab (n, "Fl_I1")))); [apply W|lia|exact H21|exact Hx].
  - intros H st Hst. unfold vec_size. destruct (string_dec (st_built st) (st_fed st)) as [->|Ne]; [reflexivity|].
    destruct k; cbn [stations] in *.
    + exfalso. repeat destruct Hst as [<-|Hst]; try contradiction; apply Ne; reflexivity.
    + exfalso. repeat destruct Hst as [<-|Hst]; try contradiction; apply Ne; reflexivity.
    + exfalso. repeat destruct Hst as [<-|Hst]; try contradiction; apply Ne; reflexivity.
    + exfalso. destruct statics; repeat destruct Hst as [<-|Hst]; try contradiction; apply Ne; reflexivity.
    + exfalso. destruct statics; repeat destruct Hst as [<-|Hst]; try contradiction; apply Ne; reflexivity.
    + exfalso. destruct statics; repeat destruct Hst as [<-|Hst]; try contradiction; apply Ne; reflexivity.
    + exfalso. apply in_app_or in Hst as [Hst|Hst]; [apply in_map_iff in Hst as (b & <- & _); apply Ne; reflexivity|]. destruct statics; repeat destruct Hst as [<-|Hst]; try contradiction; apply Ne; reflexivity.
    + exfalso. destruct statics; repeat destruct Hst as [<-|Hst]; try contradiction; apply Ne; reflexivity.
    + exfalso. apply in_app_or in Hst as [Hst|Hst]; [repeat destruct Hst as [<-|Hst]; try contradiction; apply Ne; reflexivity|].
      apply in_app_or in Hst as [Hst|Hst]; [apply in_map_iff in Hst as (b & <- & _); apply Ne; reflexivity|]. destruct statics; repeat destruct Hst as [<-|Hst]; try contradiction; apply Ne; reflexivity.
    + cbn [app] in Hst. destruct Hst as [<-|[<-|Hst]]; [exfalso; apply Ne; reflexivity|exfalso; apply Ne; reflexivity|]. apply in_app_or in Hst as [Hst|Hst].
      { exfalso. apply in_flat_map in Hst as (b & _ & [<-|[<-|[]]]); apply Ne; reflexivity. }
      assert (E : st_built st = "Fl_I" /\ st_fed st = "Fl_O") by (destruct Hst as [<-|Hst]; [split; reflexivity|]; destruct statics; [destruct Hst as [<-|[]]; split; reflexivity|contradiction]).
      destruct E as [E1 E2]. rewrite E1, E2. apply Permutation_length, NoDup_Permutation; [apply W|apply W|]. intros x. rewrite (turbine_out _ _ _ _ _ _ _ _ A). rewrite (proj1 (fold_dupdate_spec _ _)).
      split; [auto|]. intros [K|(d & Hd & K)]; [exact K|]. apply in_map_iff in Hd as (b & <- & Hb). apply (H b Hb). exact K.
    + exfalso. repeat destruct Hst as [<-|Hst]; try contradiction; apply Ne; reflexivity.
    + destruct H as [H21 H12]. assert (K : List.length (dkeys (lab (n, "Fl_I1"))) = List.length (dkeys (lab (n, "Fl_O")))).
      { apply Permutation_length, NoDup_Permutation; [apply W|apply W|]. intros x. rewrite (mixer_out _ _ _ _ _ _ A), dupdate_keys. split; [auto|]. intros [K|K]; [exact K|apply H21, K]. }
      destruct Hst as [<-|[<-|[<-|[]]]]; [|exact K|exact K]. destruct one; cbn [st_built st_fed]; [reflexivity|].
      apply Permutation_length, NoDup_Permutation; [apply W|apply W|]. intros x. split; [apply H12; reflexivity|apply H21].
Qed.
Print Assumptions C55_refused.

(* ---------- examples: what a user meets ---------- *)
Definition st_spec : spec_data := mkSpec nil [("N", 14); ("O", 16); ("C", 12); ("H", 1)] (("Jet", [("C", 12); ("H", 23)]) :: nil).
Definition st_air : dict R := [("N", 78 / 100); ("O", 21 / 100)].
Definition st_gas : dict R := [("N", 78 / 100); ("O", 21 / 100); ("C", 12); ("H", 23)].
Definition mlab (d1 d2 : dict R) (p : port) : dict R := if String.eqb (snd p) "Fl_I1" then d1 else if String.eqb (snd p) "Fl_I2" then d2 else if String.eqb (snd p) "Fl_O" then dupdate d1 d2 else nil.
Lemma mix_announced sp fuel d1 d2 n a one : announced sp fuel (mlab d1 d2) n (EMixer a one).
Proof.
  intros _. exists (mkElem [("Fl_I1", Some d1); ("Fl_I2", Some d2)] nil). eexists. split; [reflexivity|]. split.
  - intros p [<-|[<-|[]]]; reflexivity.
  - intros p [<-|[]]. reflexivity.
Qed.
Lemma mlab_wf p : dwf (mlab st_air st_gas p) /\ dwf (mlab st_gas st_air p).
Proof. unfold mlab, dwf. destruct (String.eqb (snd p) "Fl_I1"), (String.eqb (snd p) "Fl_I2"), (String.eqb (snd p) "Fl_O"); cbn; split; repeat constructor; cbn; intuition discriminate. Qed.
(* the burnt gas of the core may be stream 1 with the bypass air as stream 2, not the other way round, and not if stream 2 is the designed stream *)
Example C55_nonvacuous : forall fuel n a,
  accepted (mlab st_gas st_air) n (EMixer a true) /\ ~ accepted (mlab st_air st_gas) n (EMixer a true) /\ ~ accepted (mlab st_gas st_air) n (EMixer a false) /\
  announced st_spec fuel (mlab st_gas st_air) n (EMixer a true) /\
  elements (mlab st_gas st_air (n, "Fl_I1")) = ["C"; "H"; "N"; "O"] /\ elements (mlab st_gas st_air (n, "Fl_O")) = ["C"; "H"; "N"; "O"].
Proof.
  intros fuel n a.
  match goal with |- _ /\ _ => split end; [|match goal with |- _ /\ _ => split end; [|match goal with |- _ /\ _ => split end; [|split; [apply mix_announced|split; reflexivity]]]].
  - apply (C55_refused st_spec fuel _ n (EMixer a true) (fun p => proj2 (mlab_wf p)) (mix_announced _ _ _ _ _ _ _)). split; [|discriminate]. intros x Hx. cbn in Hx |- *. tauto.
  - intros H. apply (C55_refused st_spec fuel _ n (EMixer a true) (fun p => proj1 (mlab_wf p)) (mix_announced _ _ _ _ _ _ _)) in H as [H _].
    specialize (H "C" ltac:(cbn; auto)). cbn in H. intuition discriminate.
  - intros H. apply (C55_refused st_spec fuel _ n (EMixer a false) (fun p => proj2 (mlab_wf p)) (mix_announced _ _ _ _ _ _ _)) in H as [_ H].
    specialize (H eq_refl "C" ltac:(cbn; auto)). cbn in H. intuition discriminate.
Qed.
