(* Claim C48, continued: bleeds (BleedOut) and the combustor. *)
From Coq Require Import FunctionalExtensionality Lia.
From Verif Require Import Lib_R Spec_Wire Model_Thermo Proofs_Wire Prop_Static Prop_Thermo Prop_Elem1 Prop_Mix Model_Elem1 Proofs_Elem Prop_Station.
Open Scope string_scope. Open Scope list_scope. Open Scope R_scope.

(* ---------- BleedOut: every bleed takes its fraction of the mass flow at the inlet's total state, the rest leaves through the outlet ---------- *)
Lemma lookup_all {A} (d a : A) (f : string -> string) bs b : In b bs -> lookup d (map (fun b => (f b, a)) bs) (f b) = a.
Proof.
  induction bs as [|c r IH]; cbn; [intros []|]. intros H. destruct (String.eqb (f b) (f c)) eqn:E; [reflexivity|].
  destruct H as [->|H]; [rewrite String.eqb_refl in E; discriminate|auto].
Qed.
Lemma pname_globs (f : string -> string) bs b x : In b bs -> pname (map (fun b => PG (f b)) bs) (f b ++ x) = Some (f b ++ x)%string.
Proof.
  induction bs as [|c r IH]; cbn; [intros []|]. intros H. destruct (prefix (f c) (f b ++ x)) eqn:E; [reflexivity|].
  destruct H as [->|H]; [rewrite prefix_app in E; discriminate|auto].
Qed.
Lemma lsum_scale {A} k (f : A -> R) l : lsum (fun x => f x / k) l = lsum f l / k.
Proof. induction l as [|x r IH]; cbn [lsum map fold_right] in *; unfold lsum in *; cbn; [unfold Rdiv; ring|]. rewrite IH. unfold Rdiv. ring. Qed.
Theorem C48_bleed_out tp me bs statics design w : (forall b, In b bs -> ok_name (b ++ ":tot")) -> solves (bleed_out tp me bs statics design) w ->
  total_ok tp me w "Fl_O:tot" /\ same w "Fl_O:tot:composition" "Fl_I:tot:composition" /\ val w "Fl_O:tot:T" = val w "Fl_I:tot:T" /\ val w "Fl_O:tot:P" = val w "Fl_I:tot:P" /\
  (forall b, In b bs -> total_ok tp me w (b ++ ":tot") /\ same w (b ++ ":tot:composition") "Fl_I:tot:composition" /\
     val w (b ++ ":tot:T") = val w "Fl_I:tot:T" /\ val w (b ++ ":tot:P") = val w "Fl_I:tot:P" /\
     val w (b ++ ":stat:W") = val w (b ++ ":frac_W") * val w "Fl_I:stat:W") /\
  val w "Fl_O:stat:W" + lsum (fun b => val w (b ++ ":stat:W")) bs = val w "Fl_I:stat:W" /\
  (statics = true -> outlet_ok tp me design w "Fl_O:tot" "Fl_O:stat" (if design then "MN" else "area")).
Proof.
  intros Hn [Hs Hc]. unfold bleed_out in Hs, Hc. cbn [subs conns] in Hs, Hc.
  set (from_in := [PA "composition" "Fl_I:tot:composition"; PA "T" "Fl_I:tot:T"; PA "P" "Fl_I:tot:P"]) in *.
  assert (Hs' : forall s, In s ([tsub tp me "real_flow" total_TP "Fl_O:tot" from_in [PG "Fl_O:"]] ++
     (if statics then [tsub tp me "out_stat" (stat_mode design) "Fl_O:stat" [PA "composition" "Fl_I:tot:composition"; PN (if design then "MN" else "area")] [PG "Fl_O:stat:"]]
      else [pass_sub "W_passthru" "W_out" "Fl_O:stat:W"])) -> srel s (lin s w) (lout s w)) by (intros s H; apply Hs; apply in_or_app; right; apply in_or_app; right; exact H).
  destruct (sub_TP tp me "real_flow" "Fl_O:tot" "Fl_O:tot" from_in [PG "Fl_O:"] w) as ((T1 & T2 & T3) & T4 & _); [okn|shw|apply Hs'; insub|].
  pose proof (Hs (bld_calcs_sub bs) ltac:(insub)) as HB.
  (* the mass flows *)
  set (e := vget (lin (bld_calcs_sub bs) w)).
  set (u := ufac "lbm/s"). assert (N : u <> 0) by apply ufac_n0.
  assert (EW : e (V "W_in") = val w "Fl_I:stat:W" / u) by reflexivity.
  assert (EF : forall b, In b bs -> e (B b "frac_W") = val w (b ++ ":frac_W")).
  { intros b Hb. unfold e, vget, lin, bld_calcs_sub. cbn [sname pin sins]. unfold gname. cbn [pname].
    change (b ++ ":" ++ "frac_W")%string with (b ++ ":frac_W")%string. rewrite (String.eqb_sym (b ++ ":frac_W")), (eqb_suffix b ":frac_W" "W_in") by reflexivity. rewrite suffixb_app.
    unfold unit_of. cbn [lookup]. rewrite (String.eqb_sym (b ++ ":frac_W")), (eqb_suffix b ":frac_W" "W_in") by reflexivity.
    rewrite (lookup_all ("", "") ("", "0.0") (fun b => (b ++ ":frac_W")%string) bs b Hb). unfold val. cbn [fst]. rewrite ufac_none. field. }
  assert (EO : forall b, In b bs -> vget (lout (bld_calcs_sub bs) w) (B b "stat:W") = val w (b ++ ":stat:W") / u).
  { intros b Hb. unfold vget, lout, bld_calcs_sub. cbn [sname pout souts]. unfold gname. cbn [pname].
    change (b ++ ":" ++ "stat:W")%string with (b ++ ":stat:W")%string. rewrite (String.eqb_sym (b ++ ":stat:W")), (eqb_suffix b ":stat:W" "W_out") by reflexivity.
    replace (b ++ ":stat:W")%string with ((b ++ ":") ++ "stat:W")%string by apply sapp_assoc.
    rewrite (pname_globs (fun b => (b ++ ":")%string) bs b "stat:W" Hb). rewrite sapp_assoc. change (":" ++ "stat:W")%string with ":stat:W".
    unfold unit_of. cbn [lookup]. rewrite (String.eqb_sym (b ++ ":stat:W")), (eqb_suffix b ":stat:W" "W_out") by reflexivity.
    rewrite (lookup_all ("", "") ("lbm/s", "") (fun b => (b ++ ":stat:W")%string) bs b Hb). reflexivity. }
  destruct (C32_bleed_conserves bs e (fun _ => 0)) as (B1 & B2 & _). cbv zeta in B1, B2. fold e in HB.
  assert (R1 : forall b, In b bs -> val w (b ++ ":stat:W") = val w (b ++ ":frac_W") * val w "Fl_I:stat:W").
  { intros b Hb. specialize (HB (B b "stat:W")). rewrite EO in HB by exact Hb. rewrite B1, EF, EW in HB by exact Hb.
    assert (HB' := HB ltac:(cbn [bleed_calcs outs]; right; apply (in_map (fun b => B b "stat:W")); exact Hb)).
    replace (val w (b ++ ":stat:W")) with (val w (b ++ ":stat:W") / u * u) by (field; exact N). rewrite HB'. field. exact N. }
  assert (R2 : val w "W_out" + lsum (fun b => val w (b ++ ":stat:W")) bs = val w "Fl_I:stat:W").
  { pose proof (HB (V "W_out") ltac:(left; reflexivity)) as HO. change (val w "W_out" / u = compute (bleed_calcs bs) e (fun _ => 0) (V "W_out")) in HO.
    rewrite <- HO, EW in B2. rewrite (lsum_ext _ (fun b => val w (b ++ ":stat:W") / u) bs) in B2.
    - rewrite lsum_scale in B2. unfold Rdiv in B2. rewrite <- Rmult_plus_distr_r in B2. apply Rmult_eq_reg_r in B2; [exact B2|]. apply Rinv_neq_0_compat. exact N.
    - intros b Hb. rewrite <- EO by exact Hb. symmetry. apply HB. right. apply (in_map (fun b => B b "stat:W")). exact Hb. }
  assert (Z : val w "Fl_O:stat:W" = val w "W_out" /\ (statics = true -> outlet_ok tp me design w "Fl_O:tot" "Fl_O:stat" (if design then "MN" else "area"))).
  { destruct statics; cbn [app] in Hs', Hc.
    - assert (O : outlet_ok tp me design w "Fl_O:tot" "Fl_O:stat" (if design then "MN" else "area") /\ val w "Fl_O:stat:W" = val w "out_stat.W") by
        (destruct design; outl tp me Hs' Hc "out_stat" "Fl_O:tot" "Fl_O:stat" ltac:(apply same_sym, T2)).
      destruct O as [O1 O2]. split; [|auto]. rewrite O2. apply (Hc "W_out" "out_stat.W"). insub.
    - split; [|discriminate]. apply (pass_fact w "W_passthru"). apply Hs'. insub. }
  destruct Z as [Z1 Z2]. split; [exact T1|]. split; [exact T2|]. split; [apply T4|]. split; [apply T3|]. split; [|split; [rewrite Z1; exact R2|exact Z2]].
  intros b Hb.
  destruct (sub_TP tp me (b ++ "_flow") (b ++ ":tot") (b ++ ":tot") from_in [PG (b ++ ":tot:")%string] w) as ((A1 & A2 & A3) & A4 & _).
  - apply Hn. exact Hb.
  - replace (b ++ ":tot:")%string with ((b ++ ":tot") ++ ":")%string by apply sapp_assoc. apply shows_glob.
  - apply Hs. apply in_or_app. right. apply in_or_app. left.
    apply (in_map (fun b => tsub tp me (b ++ "_flow")%string total_TP (b ++ ":tot")%string from_in [PG (b ++ ":tot:")%string])). exact Hb.
  - assert (At : forall x, at_ (b ++ ":tot") x = (b ++ ":tot:" ++ x)%string) by (intros; unfold at_; rewrite sapp_assoc; reflexivity).
    rewrite At in A2, A3, A4. split; [exact A1|]. split; [exact A2|]. split; [apply A4|]. split; [apply A3|]. apply R1. exact Hb.
Qed.
Print Assumptions C48_bleed_out.

(* ---------- Combustor ---------- *)
(* the adder a combustor builds: one reactant, the fuel, under the mix name 'mix' (combustor.py:96-108) *)
Definition fuel_adder (a : adder) : Prop :=
  match a with
  | ACea c => exists o r, cea_setup o = Ok c /\ o_mix o = Reactants [r] /\ o_names o = ["mix"]
  | ATab t => exists o r, tab_setup o = Ok t /\ t_mode o = TReactant r /\ t_names o = ["mix"]
  end.
Lemma lsum1 {A} (f : A -> R) x : lsum f [x] = f x.
Proof. unfold lsum. cbn. ring. Qed.
Lemma fuel_adder_facts a : fuel_adder a -> add_reacting a = true /\ add_names a = ["mix"] /\
  forall e, let out := add_compute a e (fun _ => 0) in let W := e (V "Fl_I:stat:W") in out (V "Wout") <> 0 ->
    out (V "Wout") = W + out (B "mix" "W") /\ out (V "Wout") * out (V "mass_avg_h") = W * e (V "Fl_I:tot:h") + out (B "mix" "W") * e (B "mix" "h") /\
    (match a with ACea _ => out (B "mix" "W") = W * e (B "mix" "ratio") | ATab _ => True end).
Proof.
  destruct a as [c|t]; intros (o & r & SU & MX & NM).
  - assert (S : ad_reactants c <> None /\ ad_names c = o_names o).
    { revert SU. unfold cea_setup. cbv zeta. destruct (cea_port_data o); [|discriminate]. destruct (mk_properties (o_spec o) (o_inflow o)); [|discriminate].
      destruct (mk_properties (o_spec o) (Some a)); [|discriminate]. rewrite MX. destruct (nodupb (o_names o)); [|discriminate].
      destruct (get_all _ _); [|discriminate]. intros H. injection H as <-. cbn. split; [discriminate|reflexivity]. }
    destruct S as [S1 S2]. split; [unfold add_reacting; destruct (ad_reactants c); congruence|]. split; [cbn; congruence|].
    intros e out W HW. destruct (C18_reactants o c [r] SU MX ltac:(rewrite NM; reflexivity) e (fun _ => 0) HW) as (A1 & A2 & A3).
    rewrite NM in *. rewrite !lsum1 in A2, A3. split; [exact A2|]. split; [exact A3|]. apply A1. left. reflexivity.
  - destruct (tab_setup_inv o t SU) as [LN [NM' [ND [TR TF]]]]. destruct (TR r MX) as [IX IR].
    split; [cbn; rewrite IX; reflexivity|]. split; [cbn; congruence|].
    intros e out W HW. destruct (C18_tabular o t SU e (fun _ => 0) HW) as (A2 & A3). rewrite MX, NM in *. rewrite !lsum1 in A2, A3. auto.
Qed.
Theorem C48_combustor tp me a statics design w : fuel_adder a -> solves (combustor tp me a statics design) w ->
  total_ok tp me w "Fl_O:tot" /\ val w "Fl_O:tot:P" = val w "Fl_I:tot:P" * (1 - val w "dPqP") /\
  (val w "Fl_O:stat:W" <> 0 ->
     val w "Fl_O:stat:W" = val w "Fl_I:stat:W" + val w "Wfuel" /\
     val w "Fl_O:stat:W" * val w "Fl_O:tot:h" = val w "Fl_I:stat:W" * val w "Fl_I:tot:h" + val w "Wfuel" * val w "mix_fuel.mix:h" /\
     (match a with ACea _ => val w "Wfuel" = val w "Fl_I:stat:W" * val w "Fl_I:FAR" | ATab _ => True end)) /\
  (statics = true -> outlet_ok tp me design w "Fl_O:tot" "Fl_O:stat" (if design then "MN" else "area")).
Proof.
  intros Ha [Hs Hc]. unfold combustor in Hs, Hc. cbn [subs conns app] in Hs, Hc.
  destruct (fuel_adder_facts a Ha) as (R1 & R2 & R3).
  set (ms := add_sub "mix_fuel" a [PN "Fl_I:stat:W"; PA "mix:ratio" "Fl_I:FAR"; PN "Fl_I:tot:composition"; PN "Fl_I:tot:h"] [PA "mix:W" "Wfuel"; PN "Wout"]) in *.
  pose proof (Hs ms ltac:(insub)) as HM. pose proof (p_loss_fact w (Hs p_loss_sub ltac:(insub))) as HP.
  destruct (sub_hP tp me "vitiated_flow" "Fl_O:tot" "Fl_O:tot" [] [PG "Fl_O:"] w) as ((T1 & T2 & T3) & T4); [okn|shw|apply Hs; insub|].
  pose proof (Hc "mix_fuel.mass_avg_h" "vitiated_flow.h" ltac:(insub) 0%nat) as Ch. pose proof (Hc "p_loss.Pt_out" "vitiated_flow.P" ltac:(insub) 0%nat) as Cp.
  pose proof (Hc "mix_fuel.composition_out" "vitiated_flow.composition" ltac:(insub)) as Cc.
  assert (Z : val w "Fl_O:stat:W" = val w "Wout" /\ (statics = true -> outlet_ok tp me design w "Fl_O:tot" "Fl_O:stat" (if design then "MN" else "area"))).
  { destruct statics; cbn [app] in Hs, Hc.
    - assert (O : outlet_ok tp me design w "Fl_O:tot" "Fl_O:stat" (if design then "MN" else "area") /\ val w "Fl_O:stat:W" = val w "out_stat.W").
      { assert (K : same w "out_stat.composition" "Fl_O:tot:composition").
        { eapply same_trans; [|apply same_sym, T2]. intros k. change (w "out_stat.composition" k = w "vitiated_flow.composition" k). rewrite Cc. apply Hc. insub. }
        destruct design; outl tp me Hs Hc "out_stat" "Fl_O:tot" "Fl_O:stat" ltac:(exact K). }
      destruct O as [O1 O2]. split; [|auto]. rewrite O2. apply (Hc "Wout" "out_stat.W"). insub.
    - split; [|discriminate]. apply (pass_fact w "W_passthru"). apply Hs. insub. }
  destruct Z as [Z1 Z2]. split; [exact T1|]. split; [rewrite <- HP; unfold val; rewrite <- Cp; apply T3|]. split; [|exact Z2]. rewrite Z1. intros HW.
  set (uh := ufac "Btu/lbm"). set (uw := ufac "lbm/s"). assert (N1 : uh <> 0) by apply ufac_n0. assert (N2 : uw <> 0) by apply ufac_n0.
  assert (UI : forall x, In x ["Fl_I:stat:W"; "Fl_I:tot:h"; "mix:h"; "mix:ratio"] -> unit_of (add_ins a) x = unit_of [("Fl_I:stat:W", ("lbm/s", "")); ("Fl_I:tot:h", ("Btu/lbm", "")); ("mix:h", ("Btu/lbm", "")); ("mix:ratio", ("", ""))] x).
  { intros x Hx. unfold add_ins. rewrite R1, R2. cbn in Hx. repeat destruct Hx as [<-|Hx]; try reflexivity. contradiction. }
  assert (UO : forall x, In x ["Wout"; "mass_avg_h"; "mix:W"] -> unit_of (add_outs a) x = unit_of [("Wout", ("lbm/s", "")); ("mass_avg_h", ("Btu/lbm", "")); ("mix:W", ("lbm/s", ""))] x).
  { intros x Hx. unfold add_outs. rewrite R1, R2. cbn in Hx. repeat destruct Hx as [<-|Hx]; try reflexivity. contradiction. }
  set (e := vget (lin ms w)). specialize (R3 e). cbv zeta in R3.
  assert (EW : e (V "Fl_I:stat:W") = val w "Fl_I:stat:W" / uw) by (unfold e, vget, lin, ms, add_sub; cbn [sins sname pin]; rewrite UI by inp; reflexivity).
  assert (Eh : e (V "Fl_I:tot:h") = val w "Fl_I:tot:h" / uh) by (unfold e, vget, lin, ms, add_sub; cbn [sins sname pin]; rewrite UI by inp; reflexivity).
  assert (Em : e (B "mix" "h") = val w "mix_fuel.mix:h" / uh).
  { unfold e, vget, lin, ms, add_sub; cbn [sins sname pin]. change ("mix" ++ ":" ++ "h")%string with "mix:h". rewrite UI by inp. reflexivity. }
  assert (Er : e (B "mix" "ratio") = val w "Fl_I:FAR" / 1).
  { unfold e, vget, lin, ms, add_sub; cbn [sins sname pin]. change ("mix" ++ ":" ++ "ratio")%string with "mix:ratio". rewrite UI by inp. reflexivity. }
  assert (OW : add_compute a e (fun _ => 0) (V "Wout") = val w "Wout" / uw).
  { unfold e. rewrite <- (HM (V "Wout")) by (cbn; tauto). unfold vget, lout, ms, add_sub; cbn [souts sname pout]. rewrite UO by inp. reflexivity. }
  assert (Oh : add_compute a e (fun _ => 0) (V "mass_avg_h") = val w "mix_fuel.mass_avg_h" / uh).
  { unfold e. rewrite <- (HM (V "mass_avg_h")) by (cbn; tauto). unfold vget, lout, ms, add_sub; cbn [souts sname pout]. rewrite UO by inp. reflexivity. }
  assert (Of : add_compute a e (fun _ => 0) (B "mix" "W") = val w "Wfuel" / uw).
  { unfold e. rewrite <- (HM (B "mix" "W")).
    - unfold vget, lout, ms, add_sub; cbn [souts sname pout]. change ("mix" ++ ":" ++ "W")%string with "mix:W". rewrite UO by inp. reflexivity.
    - unfold add_vars. rewrite R1, R2. apply in_or_app. right. apply in_or_app. right. left. reflexivity. }
  rewrite OW, Oh, Of, EW, Eh, Em, Er in R3.
  destruct R3 as (Q1 & Q2 & Q3). { intros K. apply HW. replace (val w "Wout") with (val w "Wout" / uw * uw) by (field; exact N2). rewrite K. ring. }
  assert (Hh : val w "Fl_O:tot:h" = val w "mix_fuel.mass_avg_h") by (unfold val; rewrite <- Ch; exact T4). rewrite Hh.
  assert (S1 : val w "Wout" = val w "Fl_I:stat:W" + val w "Wfuel") by (apply (Rmult_eq_reg_r (/ uw)); [|apply Rinv_neq_0_compat; exact N2]; rewrite Rmult_plus_distr_r; exact Q1).
  split; [exact S1|]. split.
  - apply (Rmult_eq_reg_r (/ uw * / uh)); [|apply Rmult_integral_contrapositive; split; apply Rinv_neq_0_compat; assumption].
    unfold Rdiv in Q2. transitivity (val w "Wout" * / uw * (val w "mix_fuel.mass_avg_h" * / uh)); [ring|]. rewrite Q2. ring.
  - destruct a; [|exact Logic.I]. apply (Rmult_eq_reg_r (/ uw)); [|apply Rinv_neq_0_compat; exact N2]. unfold Rdiv in Q3. rewrite Q3. field. exact N2.
Qed.
Print Assumptions C48_combustor.
