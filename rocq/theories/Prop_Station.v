(* Claim C48: the stations of the elements are consistent. For every element, in every converged state of its group: the outlet's total state is the
   state of the gas at the outlet's own temperature, pressure and composition; pressure, enthalpy, mass flow and composition of the outlet are related to
   the inlet's as the element promises; the outlet's static state has the total entropy and satisfies energy, continuity and the Mach relation. *)
From Coq Require Import FunctionalExtensionality Lia.
From Verif Require Import Lib_R Spec_Wire Model_Thermo Proofs_Wire Prop_Static Prop_Thermo Model_Elem1 Proofs_Elem.
Open Scope string_scope. Open Scope list_scope. Open Scope R_scope.

(* ---- specification ---- *)
(* value of a scalar variable (SI) *)
Definition val (w : state) (x : string) : R := w x 0%nat.
(* the total state at station fl is that of the gas with the composition reported at the station *)
Definition total_ok tp me (w : state) (fl : string) : Prop := station tp me (w (at_ fl "composition")) w fl.
(* the static state `stat` of the stream with total state `tot`: Mach number (design) or area (off-design) as given *)
Definition outlet_ok tp me (design : bool) (w : state) (tot stat given : string) : Prop :=
  station tp me (w (at_ tot "composition")) w stat /\ val w (at_ stat "S") = val w (at_ tot "S") /\
  (if design then val w (at_ stat "MN") = val w given else val w (at_ stat "area") = val w given) /\
  (0 < val w (at_ stat "gamma") * val w (at_ stat "R") * val w (at_ stat "T") -> val w (at_ stat "rho") <> 0 -> val w (at_ tot "h") <> 0 ->
   (if design then / 10 ^ 16 <= val w given else val w given <> 0) -> static_ok w stat (val w (at_ tot "h"))).

Ltac insub := cbn [subs conns app]; repeat (first [left; reflexivity | right]).
Ltac shw := match goal with |- shows ?n _ ?f _ => first [exact (shows_glob n f) | exact (shows_none n f) | apply shows_pre; reflexivity] end.
Ltac okn := split; [reflexivity|discriminate].
Lemma outlet_of tp me design nm tot stat pi po w given sW gW : ok_name stat -> shows nm po stat stat ->
  srel (tsub tp me nm (stat_mode design) stat pi po) (lin (tsub tp me nm (stat_mode design) stat pi po) w) (lout (tsub tp me nm (stat_mode design) stat pi po) w) ->
  same w (gname nm pi "composition") (at_ tot "composition") -> val w (gname nm pi "S") = val w (at_ tot "S") -> val w (gname nm pi "ht") = val w (at_ tot "h") ->
  gname nm pi (if design then "MN" else "area") = given -> at_ stat "W" = sW -> gname nm pi "W" = gW ->
  outlet_ok tp me design w tot stat given /\ val w sW = val w gW.
Proof.
  intros Hn Hs H Hc HS Hh Hg <- <-. unfold outlet_ok.
  assert (Ec : w (gname nm pi "composition") = w (at_ tot "composition")) by (apply functional_extensionality; exact Hc).
  destruct design; cbn [stat_mode] in H.
  - destruct (sub_MN tp me nm stat stat pi po w Hn Hs H) as ((H1 & H2 & H3) & H4 & H5). rewrite Ec in H1. subst given. split; [|apply H3].
    split; [exact H1|]. split; [unfold val in *; rewrite H2; exact HS|]. split; [apply H4|].
    intros G1 G2 G3 G4. unfold val in *. rewrite <- Hh in *. apply H5; [split; assumption|assumption|assumption].
  - destruct (sub_A tp me nm stat stat pi po w Hn Hs H) as ((H1 & H2 & H3) & H4 & H5). rewrite Ec in H1. subst given. split; [|apply H3].
    split; [exact H1|]. split; [unfold val in *; rewrite H2; exact HS|]. split; [apply H4|].
    intros G1 G2 G3 G4. unfold val in *. rewrite <- Hh in *. apply H5; [split; assumption|assumption|assumption].
Qed.
Ltac outl tp me Hs Hc nm tot stat tac :=
  eapply (outlet_of tp me _ nm tot stat);
  [okn| |apply Hs; insub|tac|apply (Hc (at_ tot "S")); insub|apply (Hc (at_ tot "h")); insub|reflexivity|reflexivity|reflexivity]; shw.
(* explicit components, in SI *)
Lemma p_loss_fact w : srel p_loss_sub (lin p_loss_sub w) (lout p_loss_sub w) -> val w "p_loss.Pt_out" = val w "Fl_I:tot:P" * (1 - val w "dPqP").
Proof.
  intros H. specialize (H (V "Pt_out") ltac:(inp)). set (u := ufac "lbf/inch**2"). assert (N : u <> 0) by apply ufac_n0.
  change (w "p_loss.Pt_out" 0%nat / u = w "Fl_I:tot:P" 0%nat / u * (1 - w "dPqP" 0%nat / 1)) in H. unfold val.
  replace (w "p_loss.Pt_out" 0%nat) with (w "p_loss.Pt_out" 0%nat / u * u) by (field; exact N). rewrite H. field. exact N.
Qed.
Lemma pass_fact w nm a b : srel (pass_sub nm a b) (lin (pass_sub nm a b) w) (lout (pass_sub nm a b) w) -> val w b = val w a.
Proof.
  intros H. specialize (H (I b 0)). cbn [pass_through outs] in H. specialize (H ltac:(cbn; auto)).
  cbn [pass_through compute seq fold_left] in H. unfold upd in H. destruct (var_eq_dec (I b 0) (I b 0)) as [_|N]; [|congruence]. cbn [vget] in H.
  unfold lin, lout, pass_sub, gname, pname in H. cbn [sname pin pout sins souts] in H.
  assert (P : forall s, prefix "" s = true) by (destruct s; reflexivity). rewrite !P in H. unfold unit_of in H. cbn [lookup] in H. rewrite !String.eqb_refl in H. cbn [fst] in H. apply udiv_eq in H. exact H.
Qed.

(* ---------- inlet: temperature and composition pass, pressure falls by the ram recovery, mass flow passes ---------- *)
Theorem C48_inlet tp me statics design w : solves (inlet tp me statics design) w ->
  total_ok tp me w "Fl_O:tot" /\ same w "Fl_O:tot:composition" "Fl_I:tot:composition" /\ val w "Fl_O:tot:T" = val w "Fl_I:tot:T" /\
  val w "Fl_O:tot:P" = val w "Fl_I:tot:P" * val w "ram_recovery" /\ val w "Fl_O:stat:W" = val w "Fl_I:stat:W" /\
  val w "F_ram" / ufac "lbf" = (val w "Fl_I:stat:W" / ufac "lbm/s") * (val w "Fl_I:stat:V" / ufac "ft/s") / g_c /\
  (statics = true -> outlet_ok tp me design w "Fl_O:tot" "Fl_O:stat" (if design then "MN" else "area")).
Proof.
  intros [Hs Hc]. unfold inlet in Hs, Hc. cbn [subs conns app] in Hs, Hc.
  pose proof (Hs inlet_calcs_sub ltac:(insub)) as Hi.
  destruct (sub_TP tp me "real_flow" "Fl_O:tot" "Fl_O:tot" [PA "T" "Fl_I:tot:T"; PA "composition" "Fl_I:tot:composition"] [PG "Fl_O:"] w) as ((T1 & T2 & T3) & T4 & _);
    [okn|shw|apply Hs; insub|].
  pose proof (Hc "calcs_inlet.Pt_out" "real_flow.P" ltac:(insub)) as Cp.
  assert (P : val w "calcs_inlet.Pt_out" = val w "Fl_I:tot:P" * val w "ram_recovery").
  { specialize (Hi (V "Pt_out") ltac:(inp)). set (u := ufac "lbf/inch**2"). assert (N : u <> 0) by apply ufac_n0.
    change (w "calcs_inlet.Pt_out" 0%nat / u = w "Fl_I:tot:P" 0%nat / u * (w "ram_recovery" 0%nat / 1)) in Hi. unfold val.
    replace (w "calcs_inlet.Pt_out" 0%nat) with (w "calcs_inlet.Pt_out" 0%nat / u * u) by (field; exact N). rewrite Hi. field. exact N. }
  assert (Po : val w "Fl_O:tot:P" = val w "Fl_I:tot:P" * val w "ram_recovery") by (rewrite <- P; unfold val; rewrite <- Cp; apply T3).
  assert (F : val w "F_ram" / ufac "lbf" = (val w "Fl_I:stat:W" / ufac "lbm/s") * (val w "Fl_I:stat:V" / ufac "ft/s") / g_c) by (exact (Hi (V "F_ram") ltac:(inp))).
  assert (Z : val w "Fl_O:stat:W" = val w "Fl_I:stat:W" /\ (statics = true -> outlet_ok tp me design w "Fl_O:tot" "Fl_O:stat" (if design then "MN" else "area"))).
  { destruct statics; cbn [app] in Hs, Hc.
    - assert (O : outlet_ok tp me design w "Fl_O:tot" "Fl_O:stat" (if design then "MN" else "area") /\ val w "Fl_O:stat:W" = val w "Fl_I:stat:W") by
        (destruct design; outl tp me Hs Hc "out_stat" "Fl_O:tot" "Fl_O:stat" ltac:(apply same_sym, T2)).
      destruct O; split; auto.
    - split; [|discriminate]. apply (pass_fact w "W_passthru"). apply Hs. insub. }
  destruct Z as [Z1 Z2]. split; [exact T1|]. split; [exact T2|]. split; [apply T4|]. split; [exact Po|]. split; [exact Z1|]. split; [exact F|exact Z2].
Qed.
Print Assumptions C48_inlet.

(* ---------- duct: pressure falls by dPqP, enthalpy rises by the heat added per unit mass flow ---------- *)
Theorem C48_duct tp me statics design with_MN expMN w : solves (duct tp me statics design with_MN expMN) w ->
  total_ok tp me w "Fl_O:tot" /\ same w "Fl_O:tot:composition" "Fl_I:tot:composition" /\
  val w "Fl_O:tot:P" = val w "Fl_I:tot:P" * (1 - val w "dPqP") /\
  (val w "Fl_I:stat:W" <> 0 -> val w "Fl_I:stat:W" * (val w "Fl_O:tot:h" - val w "Fl_I:tot:h") = val w "Q_dot") /\
  val w "Fl_O:stat:W" = val w "Fl_I:stat:W" /\
  (with_MN = true -> 0 < val w "Fl_I:stat:MN" -> val w "dPqP" = val w "s_dPqP" * rpow (val w "Fl_I:stat:MN") expMN) /\
  (statics = true -> outlet_ok tp me design w "Fl_O:tot" "Fl_O:stat" (if design then "MN" else "area")).
Proof.
  intros [Hs Hc]. unfold duct in Hs, Hc. cbn [subs conns app] in Hs, Hc.
  assert (Hs' : forall s, In s ([p_loss_sub; q_calc_sub; tsub tp me "real_flow" total_hP "Fl_O:tot" [PA "composition" "Fl_I:tot:composition"] [PG "Fl_O:"]] ++
     (if statics then [tsub tp me "out_stat" (stat_mode design) "Fl_O:stat"
                         [PA "composition" "Fl_I:tot:composition"; PA "W" "Fl_I:stat:W"; PN (if design then "MN" else "area")] [PG "Fl_O:stat:"]]
      else [pass_sub "W_passthru" "Fl_I:stat:W" "Fl_O:stat:W"])) -> srel s (lin s w) (lout s w)) by (intros s H; apply Hs; right; apply in_or_app; right; exact H).
  pose proof (p_loss_fact w (Hs' _ ltac:(insub))) as HP. pose proof (Hs' q_calc_sub ltac:(insub)) as HQ.
  destruct (sub_hP tp me "real_flow" "Fl_O:tot" "Fl_O:tot" [PA "composition" "Fl_I:tot:composition"] [PG "Fl_O:"] w) as ((T1 & T2 & T3) & T4);
    [okn|shw|apply Hs'; insub|].
  pose proof (Hc "q_calc.ht_out" "real_flow.h" ltac:(insub) 0%nat) as Ch. pose proof (Hc "p_loss.Pt_out" "real_flow.P" ltac:(insub) 0%nat) as Cp.
  specialize (HQ (V "ht_out") ltac:(inp)).
  assert (Q : val w "Fl_I:stat:W" <> 0 -> val w "Fl_I:stat:W" * (val w "Fl_O:tot:h" - val w "Fl_I:tot:h") = val w "Q_dot").
  { intros NW. set (uh := ufac "Btu/lbm"). set (uw := ufac "lbm/s"). set (uq := ufac "Btu/s").
    assert (N1 : uh <> 0) by apply ufac_n0. assert (N2 : uw <> 0) by apply ufac_n0. assert (N3 : uq <> 0) by apply ufac_n0.
    change (w "q_calc.ht_out" 0%nat / uh = w "Fl_I:tot:h" 0%nat / uh + (w "Q_dot" 0%nat / uq) / (w "Fl_I:stat:W" 0%nat / uw)) in HQ.
    assert (Hh : val w "Fl_O:tot:h" = w "q_calc.ht_out" 0%nat) by (unfold val; rewrite <- Ch; exact T4). rewrite Hh. unfold val in *.
    replace (w "q_calc.ht_out" 0%nat) with (w "q_calc.ht_out" 0%nat / uh * uh) by (field; exact N1). rewrite HQ.
    assert (U : uq = uh * uw) by (unfold uq, uh, uw; change (u_btu = u_btu / u_lbm * u_lbm); field; unfold u_lbm; lra). rewrite U.
    field. repeat split; assumption. }
  assert (M : with_MN = true -> 0 < val w "Fl_I:stat:MN" -> val w "dPqP" = val w "s_dPqP" * rpow (val w "Fl_I:stat:MN") expMN).
  { intros -> HM. pose proof (Hs (dPqP_MN_sub design expMN) ltac:(insub)) as H. destruct design.
    - specialize (H (V "s_dPqP") ltac:(inp)). change (w "s_dPqP" 0%nat / 1 = (w "dPqP" 0%nat / 1) / rpow (w "Fl_I:stat:MN" 0%nat / 1) expMN) in H. unfold val in *.
      replace (w "Fl_I:stat:MN" 0%nat / 1) with (w "Fl_I:stat:MN" 0%nat) in H by field. assert (Pp : 0 < rpow (w "Fl_I:stat:MN" 0%nat) expMN) by (rewrite rpow_pos by exact HM; apply exp_pos).
      replace (w "s_dPqP" 0%nat) with (w "s_dPqP" 0%nat / 1) by field. rewrite H. field. lra.
    - specialize (H (V "dPqP") ltac:(inp)). change (w "dPqP" 0%nat / 1 = (w "s_dPqP" 0%nat / 1) * rpow (w "Fl_I:stat:MN" 0%nat / 1) expMN) in H. unfold val in *.
      replace (w "Fl_I:stat:MN" 0%nat / 1) with (w "Fl_I:stat:MN" 0%nat) in H by field. replace (w "dPqP" 0%nat) with (w "dPqP" 0%nat / 1) by field. rewrite H. field. }
  assert (Z : val w "Fl_O:stat:W" = val w "Fl_I:stat:W" /\ (statics = true -> outlet_ok tp me design w "Fl_O:tot" "Fl_O:stat" (if design then "MN" else "area"))).
  { destruct statics; cbn [app] in Hs', Hc.
    - assert (O : outlet_ok tp me design w "Fl_O:tot" "Fl_O:stat" (if design then "MN" else "area") /\ val w "Fl_O:stat:W" = val w "Fl_I:stat:W") by
        (destruct design; outl tp me Hs' Hc "out_stat" "Fl_O:tot" "Fl_O:stat" ltac:(apply same_sym, T2)).
      destruct O; split; auto.
    - split; [|discriminate]. apply (pass_fact w "W_passthru"). apply Hs'. insub. }
  destruct Z as [Z1 Z2]. split; [exact T1|]. split; [exact T2|]. split; [rewrite <- HP; unfold val; rewrite <- Cp; apply T3|]. auto.
Qed.
Print Assumptions C48_duct.

(* ---------- splitter: both outlets have the inlet's total state, and share its mass flow in the ratio BPR ---------- *)
Theorem C48_splitter tp me statics design w : solves (splitter tp me statics design) w ->
  (forall i, In i ["1"; "2"] -> let tot := ("Fl_O" ++ i ++ ":tot")%string in
     total_ok tp me w tot /\ same w (at_ tot "composition") "Fl_I:tot:composition" /\ val w (at_ tot "T") = val w "Fl_I:tot:T" /\ val w (at_ tot "P") = val w "Fl_I:tot:P" /\
     (statics = true -> outlet_ok tp me design w tot ("Fl_O" ++ i ++ ":stat")%string ((if design then "MN" else "area") ++ i)%string)) /\
  (val w "BPR" <> -1 -> val w "Fl_O1:stat:W" + val w "Fl_O2:stat:W" = val w "Fl_I:stat:W" /\ val w "Fl_O2:stat:W" = val w "BPR" * val w "Fl_O1:stat:W").
Proof.
  intros [Hs Hc]. unfold splitter in Hs, Hc. cbn [subs conns app] in Hs, Hc.
  destruct (sub_TP tp me "real_flow1" "Fl_O1:tot" "Fl_O1:tot" [PA "composition" "Fl_I:tot:composition"; PA "P" "Fl_I:tot:P"; PA "T" "Fl_I:tot:T"] [PG "Fl_O1:tot:"] w) as ((A1 & A2 & A3) & A4 & _);
    [okn|shw|apply Hs; insub|].
  destruct (sub_TP tp me "real_flow2" "Fl_O2:tot" "Fl_O2:tot" [PA "composition" "Fl_I:tot:composition"; PA "P" "Fl_I:tot:P"; PA "T" "Fl_I:tot:T"] [PG "Fl_O2:tot:"] w) as ((B1 & B2 & B3) & B4 & _);
    [okn|shw|apply Hs; insub|].
  pose proof (Hs split_calc_sub ltac:(insub)) as HW.
  assert (Z : (statics = true -> outlet_ok tp me design w "Fl_O1:tot" "Fl_O1:stat" (if design then "MN1" else "area1") /\ outlet_ok tp me design w "Fl_O2:tot" "Fl_O2:stat" (if design then "MN2" else "area2")) /\
    val w "Fl_O1:stat:W" = val w "split_calc.W1" /\ val w "Fl_O2:stat:W" = val w "split_calc.W2").
  { destruct statics; cbn [app] in Hs, Hc.
    - assert (O1 : outlet_ok tp me design w "Fl_O1:tot" "Fl_O1:stat" (if design then "MN1" else "area1") /\ val w "Fl_O1:stat:W" = val w "out1_stat.W") by
        (destruct design; outl tp me Hs Hc "out1_stat" "Fl_O1:tot" "Fl_O1:stat" ltac:(apply same_sym, A2)).
      assert (O2 : outlet_ok tp me design w "Fl_O2:tot" "Fl_O2:stat" (if design then "MN2" else "area2") /\ val w "Fl_O2:stat:W" = val w "out2_stat.W") by
        (destruct design; outl tp me Hs Hc "out2_stat" "Fl_O2:tot" "Fl_O2:stat" ltac:(apply same_sym, B2)).
      destruct O1 as [O1 E1], O2 as [O2 E2]. split; [auto|]. rewrite E1, E2. split; [apply (Hc "split_calc.W1" "out1_stat.W"); insub|apply (Hc "split_calc.W2" "out2_stat.W"); insub].
    - split; [discriminate|]. rewrite (pass_fact w "W1_passthru" "split_calc_W1" "Fl_O1:stat:W"), (pass_fact w "W2_passthru" "split_calc_W2" "Fl_O2:stat:W") by (apply Hs; insub).
      split; [apply (Hc "split_calc.W1" "split_calc_W1"); insub|apply (Hc "split_calc.W2" "split_calc_W2"); insub]. }
  destruct Z as (Z1 & Z2 & Z3). split.
  - intros i Hi. cbv zeta. destruct Hi as [<-|[<-|[]]].
    + split; [exact A1|]. split; [exact A2|]. split; [apply A4|]. split; [apply A3|]. intros Hst. destruct design; apply Z1; exact Hst.
    + split; [exact B1|]. split; [exact B2|]. split; [apply B4|]. split; [apply B3|]. intros Hst. destruct design; apply Z1; exact Hst.
  - intros NB. rewrite Z2, Z3. set (u := ufac "lbm/s"). assert (N : u <> 0) by apply ufac_n0.
    pose proof (HW (V "W1") ltac:(inp)) as H1. pose proof (HW (V "W2") ltac:(inp)) as H2.
    change (w "split_calc.W1" 0%nat / u = (w "Fl_I:stat:W" 0%nat / u) / (w "BPR" 0%nat / 1 + 1)) in H1.
    change (w "split_calc.W2" 0%nat / u = (w "Fl_I:stat:W" 0%nat / u) - (w "Fl_I:stat:W" 0%nat / u) / (w "BPR" 0%nat / 1 + 1)) in H2. unfold val in *.
    replace (w "split_calc.W1" 0%nat) with (w "split_calc.W1" 0%nat / u * u) by (field; exact N). replace (w "split_calc.W2" 0%nat) with (w "split_calc.W2" 0%nat / u * u) by (field; exact N).
    rewrite H1, H2. assert (w "BPR" 0%nat + 1 <> 0) by lra. split; field; split; auto; lra.
Qed.
Print Assumptions C48_splitter.
