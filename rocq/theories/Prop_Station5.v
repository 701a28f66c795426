(* Claim C48, continued: mixing of streams, and the turbine. *)
From Coq Require Import FunctionalExtensionality Lia.
From Verif Require Import Lib_R Lib_Loop Spec_Wire Model_Thermo Proofs_Wire Prop_Static Prop_Thermo Prop_Turbo Proofs_TurboLoop Spec_Mix Model_Species Model_ThermoAdd Proofs_ThermoAdd Prop_Mix Model_Elem1 Model_Elem2 Proofs_Elem Prop_Station Prop_Station3 Proofs_Elem3 Prop_Station4.
Open Scope string_scope. Open Scope list_scope. Open Scope R_scope.

(* ---- ThermoAdd in flow mode, as a subsystem ---- *)
Definition flow_adder (a : adder) (names : list string) : Prop :=
  match a with
  | ACea c => exists o ds, cea_setup o = Ok c /\ wf_opts o /\ o_mix o = Flows ds /\ o_names o = names
  | ATab t => exists o, tab_setup o = Ok t /\ t_mode o = TFlow /\ t_names o = names
  end.
Lemma flow_adder_facts a names : flow_adder a names -> add_reacting a = false /\ add_names a = names /\
  forall e, let out := add_compute a e (fun _ => 0) in out (V "Wout") <> 0 ->
    out (V "Wout") = e (V "Fl_I:stat:W") + lsum (fun n => e (B n "W")) names /\
    out (V "Wout") * out (V "mass_avg_h") = e (V "Fl_I:stat:W") * e (V "Fl_I:tot:h") + lsum (fun n => e (B n "W") * e (B n "h")) names.
Proof.
  destruct a as [c|t].
  - intros (o & ds & SU & WF & MX & NM). destruct (setup_inv o c SU WF) as [d_in' [m' [IN' [PD' [AI [AM [AN [NN [Nm [SUB [WT X]]]]]]]]]]]. rewrite MX in X. destruct X as [R1 _].
    split; [unfold add_reacting; rewrite R1; reflexivity|]. split; [cbn; congruence|]. intros e out HW. rewrite <- NM. exact (C18_flows o c ds SU WF MX e (fun _ => 0) HW).
  - intros (o & SU & MX & NM). destruct (tab_setup_inv o t SU) as [LN [NM' [ND [TR TF]]]]. specialize (TF MX).
    split; [unfold add_reacting; rewrite TF; reflexivity|]. split; [cbn; congruence|]. intros e out HW. rewrite <- NM.
    pose proof (C18_tabular o t SU e (fun _ => 0) HW) as H. rewrite MX in H. exact H.
Qed.
Lemma flow_add_unit a names n x u v : flow_adder a names -> In n names -> In (x, (u, v)) [("h", ("Btu/lbm", "0.0")); ("W", ("lbm/s", "0.0")); ("composition", ("", "composition"))] ->
  unit_of (add_ins a) (n ++ ":" ++ x) = u.
Proof.
  intros Ha Hn Hx. destruct (flow_adder_facts a names Ha) as (R1 & R2 & _). unfold unit_of, add_ins. rewrite R1, R2. erewrite lookup_uniq; [| |].
  - instantiate (1 := (u, v)). reflexivity.
  - intros p Hp Ef. apply in_app_or in Hp. destruct Hp as [Hp|Hp].
    + cbn in Hx, Hp. repeat destruct Hx as [Hx|Hx]; try contradiction; injection Hx as <- <- <-; repeat destruct Hp as [<-|Hp]; try contradiction; try reflexivity; exfalso; revert Ef; cbn [fst]; apply neq_suffix; reflexivity.
    + apply in_flat_map in Hp. destruct Hp as [c [_ Hp]]. cbn in Hx, Hp.
      repeat destruct Hx as [Hx|Hx]; try contradiction; injection Hx as <- <- <-; repeat destruct Hp as [<-|Hp]; try contradiction; try reflexivity; exfalso; revert Ef; cbn [fst append]; apply suffix_clash; reflexivity.
  - rewrite map_app. apply in_or_app. right. apply in_map_iff. exists ((n ++ ":" ++ x)%string, (u, v)). split; [reflexivity|]. apply in_flat_map. exists n. split; [exact Hn|].
    cbn in Hx |- *. repeat destruct Hx as [Hx|Hx]; try contradiction; injection Hx as <- <- <-; cbn; tauto.
Qed.
Section Add.
Variables (nm : string) (a : adder) (pi po : list promo) (bs : list string) (w : state).
Hypothesis Ha : flow_adder a bs.
Hypothesis HM : srel (add_sub nm a pi po) (lin (add_sub nm a pi po) w) (lout (add_sub nm a pi po) w).
Let g x := gname nm pi x.
Let q x := gname nm po x.
Lemma add_units : (forall x, In x ["Fl_I:stat:W"; "Fl_I:tot:h"; "Fl_I:tot:composition"] ->
    unit_of (add_ins a) x = unit_of [("Fl_I:stat:W", ("lbm/s", "")); ("Fl_I:tot:h", ("Btu/lbm", "")); ("Fl_I:tot:composition", ("", ""))] x) /\
  (forall x, In x ["Wout"; "mass_avg_h"; "composition_out"] -> unit_of (add_outs a) x = unit_of [("Wout", ("lbm/s", "")); ("mass_avg_h", ("Btu/lbm", "")); ("composition_out", ("", ""))] x).
Proof. split; intros x Hx; unfold add_ins, add_outs; cbn in Hx; repeat destruct Hx as [<-|Hx]; try contradiction; reflexivity. Qed.
Lemma add_flow_facts : val w (q "Wout") <> 0 ->
  val w (q "Wout") = val w (g "Fl_I:stat:W") + lsum (fun n => val w (g (n ++ ":W")%string)) bs /\
  val w (q "Wout") * val w (q "mass_avg_h") = val w (g "Fl_I:stat:W") * val w (g "Fl_I:tot:h") + lsum (fun n => val w (g (n ++ ":W")%string) * val w (g (n ++ ":h")%string)) bs.
Proof.
  intros HW. destruct (flow_adder_facts a bs Ha) as (R1 & R2 & R3). destruct add_units as [UI UO]. set (e := vget (lin (add_sub nm a pi po) w)). specialize (R3 e). cbv zeta in R3.
  set (uh := ufac "Btu/lbm"). set (uw := ufac "lbm/s"). assert (N1 : uh <> 0) by apply ufac_n0. assert (N2 : uw <> 0) by apply ufac_n0.
  assert (EW : e (V "Fl_I:stat:W") = val w (g "Fl_I:stat:W") / uw) by (unfold e, vget, lin, add_sub; cbn [sins sname pin]; rewrite UI by inp; reflexivity).
  assert (Eh : e (V "Fl_I:tot:h") = val w (g "Fl_I:tot:h") / uh) by (unfold e, vget, lin, add_sub; cbn [sins sname pin]; rewrite UI by inp; reflexivity).
  assert (EWn : forall n, In n bs -> e (B n "W") = val w (g (n ++ ":W")%string) / uw).
  { intros n Hn. unfold e, vget, lin, add_sub. cbn [sins sname pin]. rewrite (flow_add_unit a bs n "W" "lbm/s" "0.0" Ha Hn) by inp. reflexivity. }
  assert (Ehn : forall n, In n bs -> e (B n "h") = val w (g (n ++ ":h")%string) / uh).
  { intros n Hn. unfold e, vget, lin, add_sub. cbn [sins sname pin]. rewrite (flow_add_unit a bs n "h" "Btu/lbm" "0.0" Ha Hn) by inp. reflexivity. }
  assert (OW : add_compute a e (fun _ => 0) (V "Wout") = val w (q "Wout") / uw).
  { unfold e. rewrite <- (HM (V "Wout")) by (cbn; tauto). unfold vget, lout, add_sub; cbn [souts sname pout]. rewrite UO by inp. reflexivity. }
  assert (Oh : add_compute a e (fun _ => 0) (V "mass_avg_h") = val w (q "mass_avg_h") / uh).
  { unfold e. rewrite <- (HM (V "mass_avg_h")) by (cbn; tauto). unfold vget, lout, add_sub; cbn [souts sname pout]. rewrite UO by inp. reflexivity. }
  rewrite OW, Oh, EW, Eh in R3. rewrite (lsum_ext (fun n => e (B n "W")) (fun n => val w (g (n ++ ":W")%string) / uw) bs EWn) in R3.
  rewrite (lsum_ext (fun n => e (B n "W") * e (B n "h")) (fun n => val w (g (n ++ ":W")%string) * val w (g (n ++ ":h")%string) / (uw * uh)) bs) in R3
    by (intros n Hn; rewrite (EWn n Hn), (Ehn n Hn); field; auto). rewrite !lsum_scale in R3.
  destruct R3 as [Q1 Q2]. { intros K. apply HW. replace (val w (q "Wout")) with (val w (q "Wout") / uw * uw) by (field; exact N2). rewrite K. ring. }
  split.
  - apply (Rmult_eq_reg_r (/ uw)); [|apply Rinv_neq_0_compat; exact N2]. rewrite Rmult_plus_distr_r. exact Q1.
  - apply (Rmult_eq_reg_r (/ (uw * uh))); [|apply Rinv_neq_0_compat; apply Rmult_integral_contrapositive; auto]. rewrite Rmult_plus_distr_r.
    replace (val w (q "Wout") * val w (q "mass_avg_h") * / (uw * uh)) with (val w (q "Wout") / uw * (val w (q "mass_avg_h") / uh)) by (field; auto). rewrite Q2. unfold Rdiv. field. auto.
Qed.
(* chemical elements (CEA): the mixed stream contains, of every element, what the streams bring in *)
Lemma add_flow_elements o c ds d_in m : a = ACea c -> cea_setup o = Ok c -> wf_opts o -> o_mix o = Flows ds -> o_names o = bs -> o_inflow o = Some d_in -> cea_port_data o = Ok m ->
  let wt := weight (o_spec o) in
  (forall x, In x (dkeys m) -> wt x <> 0) -> mass wt (sorted (dkeys d_in)) (w (g "Fl_I:tot:composition")) <> 0 ->
  (forall nd, In nd (combine bs ds) -> mass wt (sorted (dkeys (snd nd))) (w (g (fst nd ++ ":composition")%string)) <> 0) ->
  val w (g "Fl_I:stat:W") + lsum (fun n => val w (g (n ++ ":W")%string)) bs <> 0 ->
  val w (q "Wout") = val w (g "Fl_I:stat:W") + lsum (fun n => val w (g (n ++ ":W")%string)) bs /\
  mass wt (sorted (dkeys m)) (w (q "composition_out")) = 1 /\
  forall x, val w (q "Wout") * mass_fraction wt (sorted (dkeys m)) (w (q "composition_out")) x =
    val w (g "Fl_I:stat:W") * mass_fraction wt (sorted (dkeys d_in)) (w (g "Fl_I:tot:composition")) x +
    lsum (fun nd => val w (g (fst nd ++ ":W")%string) * mass_fraction wt (sorted (dkeys (snd nd))) (w (g (fst nd ++ ":composition")%string)) x) (combine bs ds).
Proof.
  intros EA SU WF MX NM IN PD wt Hw Hm Hr HW. destruct add_units as [UI UO]. set (e := vget (lin (add_sub nm a pi po) w)).
  set (uw := ufac "lbm/s"). assert (N2 : uw <> 0) by apply ufac_n0.
  assert (EW : e (V "Fl_I:stat:W") = val w (g "Fl_I:stat:W") / uw) by (unfold e, vget, lin, add_sub; cbn [sins sname pin]; rewrite UI by inp; reflexivity).
  assert (Ec : (fun i => e (I "Fl_I:tot:composition" i)) = w (g "Fl_I:tot:composition")).
  { apply functional_extensionality. intros i. unfold e, vget, lin, add_sub. cbn [sins sname pin]. rewrite UI by inp. unfold g. change (ufac (unit_of _ "Fl_I:tot:composition")) with 1. field. }
  assert (EWn : forall n, In n bs -> e (B n "W") = val w (g (n ++ ":W")%string) / uw).
  { intros n Hn. unfold e, vget, lin, add_sub. cbn [sins sname pin]. rewrite (flow_add_unit a bs n "W" "lbm/s" "0.0" Ha Hn) by inp. reflexivity. }
  assert (Ecn : forall n, In n bs -> (fun i => e (I (n ++ ":composition") i)) = w (g (n ++ ":composition")%string)).
  { intros n Hn. apply functional_extensionality. intros i. unfold e, vget, lin, add_sub. cbn [sins sname pin].
    change (n ++ ":composition")%string with (n ++ ":" ++ "composition")%string. rewrite (flow_add_unit a bs n "composition" "" "composition" Ha Hn) by inp. rewrite ufac_none. unfold g. field. }
  assert (Cb : forall nd, In nd (combine bs ds) -> In (fst nd) bs) by (intros [n d] H; apply in_combine_l in H; exact H).
  assert (SW : lsum (fun n => e (B n "W")) bs = lsum (fun n => val w (g (n ++ ":W")%string)) bs / uw).
  { rewrite <- lsum_scale. apply lsum_ext. exact EWn. }
  pose proof (C17_flows o c d_in ds m SU WF IN MX PD e (fun _ => 0)) as H. cbv zeta in H. rewrite NM in H. fold wt in H. rewrite Ec in H.
  destruct H as (H1 & H2 & H3); [exact Hw|exact Hm| | |].
  - intros nd Hnd. rewrite (Ecn (fst nd) (Cb nd Hnd)). apply Hr. exact Hnd.
  - rewrite EW, SW. intros K. apply HW. apply (Rmult_eq_reg_r (/ uw)); [|apply Rinv_neq_0_compat; exact N2]. unfold Rdiv in K. rewrite Rmult_plus_distr_r, K. ring.
  - assert (OW : cea_compute c e (fun _ => 0) (V "Wout") = val w (q "Wout") / uw).
    { unfold e. change (cea_compute c) with (add_compute (ACea c)). rewrite <- EA. rewrite <- (HM (V "Wout")) by (cbn; tauto). unfold vget, lout, add_sub; cbn [souts sname pout]. rewrite UO by inp. reflexivity. }
    rewrite OW, EW, SW in H1. rewrite OW, EW in H3.
    assert (Q : val w (q "Wout") = val w (g "Fl_I:stat:W") + lsum (fun n => val w (g (n ++ ":W")%string)) bs).
    { apply (Rmult_eq_reg_r (/ uw)); [|apply Rinv_neq_0_compat; exact N2]. rewrite Rmult_plus_distr_r. exact H1. }
    split; [exact Q|].
    assert (LM : add_size a = List.length (sorted (dkeys m))) by (rewrite EA; cbn [add_size]; rewrite (proj1 (C19_cea_vector o c m SU WF PD)); reflexivity).
    assert (OC : forall j, In j (seq 0 (List.length (sorted (dkeys m)))) -> cea_compute c e (fun _ => 0) (I "composition_out" j) = w (q "composition_out") j).
      { intros j Hj. unfold e. change (cea_compute c) with (add_compute (ACea c)). rewrite <- EA. rewrite <- (HM (I "composition_out" j)).
        - unfold vget, lout, add_sub; cbn [souts sname pout]. rewrite UO by inp. change (ufac (unit_of _ "composition_out")) with 1. unfold q. field.
        - unfold add_vars. apply in_or_app. right. apply in_or_app. left. rewrite LM. apply in_map. exact Hj. }
    split; [rewrite <- H2; unfold mass; apply lsum_ext; intros j Hj; rewrite (OC j Hj); reflexivity|]. intros x. specialize (H3 x).
    assert (MF : mass_fraction wt (sorted (dkeys m)) (fun j => cea_compute c e (fun _ => 0) (I "composition_out" j)) x = mass_fraction wt (sorted (dkeys m)) (w (q "composition_out")) x).
    { unfold mass_fraction, mass, amount. set (l := seq 0 (List.length (sorted (dkeys m)))) in *.
      rewrite (lsum_ext (fun i => if string_dec (nth i (sorted (dkeys m)) "") x then cea_compute c e (fun _ => 0) (I "composition_out" i) else 0)
                 (fun i => if string_dec (nth i (sorted (dkeys m)) "") x then w (q "composition_out") i else 0) l) by (intros j Hj; rewrite (OC j Hj); reflexivity).
      rewrite (lsum_ext (fun i => cea_compute c e (fun _ => 0) (I "composition_out" i) * wt (nth i (sorted (dkeys m)) "")) (fun i => w (q "composition_out") i * wt (nth i (sorted (dkeys m)) "")) l)
        by (intros j Hj; rewrite (OC j Hj); reflexivity). reflexivity. }
    rewrite MF in H3. rewrite (lsum_ext _ (fun nd => val w (g (fst nd ++ ":W")%string) * mass_fraction wt (sorted (dkeys (snd nd))) (w (g (fst nd ++ ":composition")%string)) x / uw) (combine bs ds)) in H3.
    + rewrite lsum_scale in H3. apply (Rmult_eq_reg_r (/ uw)); [|apply Rinv_neq_0_compat; exact N2]. unfold Rdiv in H3. rewrite Rmult_plus_distr_r. lra.
    + intros nd Hnd. rewrite (EWn _ (Cb nd Hnd)), (Ecn _ (Cb nd Hnd)). unfold Rdiv. ring.
Qed.
End Add.

(* ---- the turbine's power component: names and units ---- *)
Section Pwr.
Variables (bs : list string) (w : state).
Let e := vget (lin (pwr_turb_sub bs) w).
Definition bleed_alias (b x : string) : string := if String.eqb x "W" then (b ++ ":stat:W")%string else if String.eqb x "ht" then (b ++ ":tot:h")%string else (b ++ "_ideal.h")%string.
Lemma ep_gname b x : In b bs -> In x ["W"; "ht"; "ht_ideal"] -> gname "pwr_turb" (pin (pwr_turb_sub bs)) (b ++ ":" ++ x) = bleed_alias b x.
Proof.
  intros Hb Hx. unfold gname, pwr_turb_sub. cbn [pin pname app]. rewrite !(String.eqb_sym (b ++ ":" ++ x)).
  rewrite !(eqb_suffix b (":" ++ x)) by (cbn in Hx; repeat destruct Hx as [<-|Hx]; try contradiction; reflexivity).
  cbn in Hx. repeat destruct Hx as [<-|Hx]; try contradiction.
  - change (b ++ ":" ++ "W")%string with (b ++ ":W")%string. rewrite (pname_in_PA (fun b => (b ++ ":W")%string) (fun b => (b ++ ":stat:W")%string)); [reflexivity|exact Hb|].
    intros c _ E. apply sapp_inj_r in E. congruence.
  - change (b ++ ":" ++ "ht")%string with (b ++ ":ht")%string. rewrite (pname_skip_PA (fun b => (b ++ ":W")%string)) by (intros c _; apply suffix_clash; reflexivity).
    rewrite (pname_in_PA (fun b => (b ++ ":ht")%string) (fun b => (b ++ ":tot:h")%string)); [reflexivity|exact Hb|]. intros c _ E. apply sapp_inj_r in E. congruence.
  - change (b ++ ":" ++ "ht_ideal")%string with (b ++ ":ht_ideal")%string. rewrite (pname_skip_PA (fun b => (b ++ ":W")%string)) by (intros c _; apply suffix_clash; reflexivity).
    rewrite (pname_skip_PA (fun b => (b ++ ":ht")%string)) by (intros c _; apply suffix_clash; reflexivity).
    rewrite <- (app_nil_r (map _ _)). rewrite (pname_in_PA (fun b => (b ++ ":ht_ideal")%string) (fun b => (b ++ "_ideal.h")%string)); [reflexivity|exact Hb|]. intros c _ E. apply sapp_inj_r in E. congruence.
Qed.
Lemma ep_in b x u : In b bs -> In (x, u) [("W", "lbm/s"); ("ht", "Btu/lbm"); ("ht_ideal", "Btu/lbm")] -> e (B b x) = val w (bleed_alias b x) / ufac u.
Proof.
  intros Hb Hx. assert (Hx' : In x ["W"; "ht"; "ht_ideal"]) by (cbn in Hx |- *; repeat destruct Hx as [Hx|Hx]; try contradiction; injection Hx as <- _; tauto).
  unfold e, vget, lin. change (sname (pwr_turb_sub bs)) with "pwr_turb". rewrite (ep_gname b x Hb Hx').
  assert (U : unit_of (sins (pwr_turb_sub bs)) (b ++ ":" ++ x) = u).
  { unfold unit_of, pwr_turb_sub. cbn [sins]. erewrite lookup_uniq; [| |].
    - instantiate (1 := (u, "0.0")). reflexivity.
    - intros p Hp Ef. apply in_app_or in Hp. destruct Hp as [Hp|Hp].
      + exfalso. revert Ef. cbn in Hx, Hp. repeat destruct Hx as [Hx|Hx]; try contradiction; injection Hx as <- <-; repeat destruct Hp as [<-|Hp]; try contradiction; cbn [fst]; apply neq_suffix; reflexivity.
      + apply in_flat_map in Hp. destruct Hp as [c [_ Hp]]. cbn in Hx, Hp.
        repeat destruct Hx as [Hx|Hx]; try contradiction; injection Hx as <- <-; repeat destruct Hp as [<-|Hp]; try contradiction; try reflexivity; exfalso; revert Ef; cbn [fst append]; apply suffix_clash; reflexivity.
    - rewrite map_app. apply in_or_app. right. apply in_map_iff. exists ((b ++ ":" ++ x)%string, (u, "0.0")). split; [reflexivity|]. apply in_flat_map. exists b. split; [exact Hb|].
      cbn in Hx |- *. repeat destruct Hx as [Hx|Hx]; try contradiction; injection Hx as <- <-; cbn; tauto. }
  rewrite U. reflexivity.
Qed.
Lemma ep_facts : srel (pwr_turb_sub bs) (lin (pwr_turb_sub bs) w) (lout (pwr_turb_sub bs) w) ->
  val w "Fl_I:tot:h" - val w "ht_out_b4bld" = val w "eff" * (val w "Fl_I:tot:h" - val w "pwr_turb.ht_out_ideal") /\
  (val w "Nmech" <> 0 -> val w "trq" / ufac "ft*lbf" * val w "Nmech" = HP_per_RPM_to_FT_LBF * (val w "power" / ufac "hp")) /\
  (val w "W_out" <> 0 ->
   val w "W_out" * val w "pwr_turb.ht_out" = val w "Fl_I:stat:W" * val w "ht_out_b4bld" + lsum (fun b => val w (b ++ ":stat:W") * (val w (b ++ ":tot:h") - val w "eff" * (val w (b ++ ":tot:h") - val w (b ++ "_ideal.h")))) bs /\
   val w "power" / ufac "hp" = BTU_s2HP * ((val w "Fl_I:stat:W" * val w "Fl_I:tot:h" + lsum (fun b => val w (b ++ ":stat:W") * val w (b ++ ":tot:h")) bs - val w "W_out" * val w "pwr_turb.ht_out") / ufac "Btu/s")).
Proof.
  intros HB. set (c := compute (enthalpy_and_power bs) e (fun _ => 0)).
  assert (HO : forall v, In v (outs (enthalpy_and_power bs)) -> vget (lout (pwr_turb_sub bs) w) v = c v) by exact HB.
  set (uw := ufac "lbm/s"). set (uh := ufac "Btu/lbm"). assert (N1 : uw <> 0) by apply ufac_n0. assert (N2 : uh <> 0) by apply ufac_n0.
  assert (EW : e (V "W_in") = val w "Fl_I:stat:W" / uw) by reflexivity. assert (Eh : e (V "ht_in") = val w "Fl_I:tot:h" / uh) by reflexivity.
  assert (EO : e (V "W_out") = val w "W_out" / uw) by reflexivity. assert (EE : e (V "eff") = val w "eff" / 1) by reflexivity. assert (EN : e (V "Nmech") = val w "Nmech" / 1) by reflexivity.
  assert (EI : e (V "ht_out_ideal") = val w "pwr_turb.ht_out_ideal" / uh).
  { unfold e, vget, lin. change (sname (pwr_turb_sub bs)) with "pwr_turb".
    assert (G : gname "pwr_turb" (pin (pwr_turb_sub bs)) "ht_out_ideal" = "pwr_turb.ht_out_ideal"); [|rewrite G; reflexivity].
    unfold gname, pwr_turb_sub. cbn [pin pname app String.eqb Ascii.eqb Bool.eqb].
    rewrite (pname_skip_PA (fun b => (b ++ ":W")%string)) by (intros d _; apply neq_suffix'; reflexivity). rewrite (pname_skip_PA (fun b => (b ++ ":ht")%string)) by (intros d _; apply neq_suffix'; reflexivity).
    rewrite <- (app_nil_r (map _ _)). rewrite (pname_skip_PA (fun b => (b ++ ":ht_ideal")%string)) by (intros d _; apply neq_suffix'; reflexivity). reflexivity. }
  assert (OB : c (V "ht_out_b4bld") = val w "ht_out_b4bld" / uh) by (rewrite <- HO by (cbn; tauto); reflexivity). assert (OH : c (V "ht_out") = val w "pwr_turb.ht_out" / uh) by (rewrite <- HO by (cbn; tauto); reflexivity).
  assert (OP : c (V "power") = val w "power" / ufac "hp") by (rewrite <- HO by (cbn; tauto); reflexivity). assert (OT : c (V "trq") = val w "trq" / ufac "ft*lbf") by (rewrite <- HO by (cbn; tauto); reflexivity).
  pose proof (ep_b4bld bs e (fun _ => 0)) as B1. pose proof (ep_ht_out bs e (fun _ => 0)) as B2. pose proof (ep_trq_power bs e (fun _ => 0)) as B3.
  change (ep_compute bs e (fun _ => 0)) with c in B1, B2, B3. rewrite OB, Eh, EI, EE in B1. rewrite OT, OP, EN in B3.
  assert (X1 : val w "ht_out_b4bld" = val w "Fl_I:tot:h" * (1 - val w "eff") + val w "pwr_turb.ht_out_ideal" * val w "eff").
  { apply (Rmult_eq_reg_r (/ uh)); [|apply Rinv_neq_0_compat; exact N2]. unfold Rdiv in B1. rewrite B1. field. exact N2. }
  split; [rewrite X1; ring|]. split.
  { intros HN. rewrite B3. field. split; [apply ufac_n0|exact HN]. }
  intros HW.
  assert (NW : e (V "W_out") <> 0). { rewrite EO. apply Rmult_integral_contrapositive. split; [exact HW|apply Rinv_neq_0_compat; exact N1]. }
  destruct (C29_turbine_balance bs e (fun _ => 0) NW) as (B4 & _). fold c in B4. rewrite OP, EW, Eh, EO, OH in B4.
  rewrite OH, EW, EO, Eh, EI, EE in B2.
  assert (U : ufac "Btu/s" = uh * uw) by (unfold uh, uw; change (u_btu = u_btu / u_lbm * u_lbm); field; unfold u_lbm; lra).
  rewrite (lsum_ext _ (fun b => val w (b ++ ":stat:W") * val w (b ++ ":tot:h") / (uw * uh)) bs) in B4.
  2: { intros b Hb. rewrite (ep_in b "W" "lbm/s"), (ep_in b "ht" "Btu/lbm") by (try exact Hb; inp). change (bleed_alias b "W") with (b ++ ":stat:W")%string. change (bleed_alias b "ht") with (b ++ ":tot:h")%string. unfold uw, uh. field. auto. }
  rewrite (lsum_ext _ (fun b => val w (b ++ ":stat:W") * (val w (b ++ ":tot:h") - val w "eff" * (val w (b ++ ":tot:h") - val w (b ++ "_ideal.h"))) / (val w "W_out" * uh)) bs) in B2.
  2: { intros b Hb. rewrite (ep_in b "W" "lbm/s"), (ep_in b "ht" "Btu/lbm"), (ep_in b "ht_ideal" "Btu/lbm") by (try exact Hb; inp).
       change (bleed_alias b "W") with (b ++ ":stat:W")%string. change (bleed_alias b "ht") with (b ++ ":tot:h")%string. change (bleed_alias b "ht_ideal") with (b ++ "_ideal.h")%string. unfold uw, uh. field. auto. }
  rewrite lsum_scale in B2, B4. split.
  - apply (Rmult_eq_reg_r (/ (val w "W_out" * uh))); [|apply Rinv_neq_0_compat; apply Rmult_integral_contrapositive; auto].
    replace (val w "W_out" * val w "pwr_turb.ht_out" * / (val w "W_out" * uh)) with (val w "pwr_turb.ht_out" / uh) by (field; auto). rewrite B2, X1. field. auto.
  - rewrite B4, U. f_equal. field. auto.
Qed.
End Pwr.
