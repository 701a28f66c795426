(* C76 for the species data that ship with the library. *)
From Coq Require Import Lia.
From Verif Require Import Lib_Py Lib_R Lib_Loop Model_Species Data_Thermo Proofs_Species Prop_Species Prop_Data.
From Verif Require Import Spec_Wire Model_Thermo Proofs_Wire Prop_Static Prop_Thermo Model_Equil Proofs_Equil Prop_Equil Model_Cea Prop_Cea Prop_Shipped Prop_Second Prop_Second2 Proofs_Props Proofs_Cea Proofs_Stable Proofs_Thermo Prop_ShippedEx Prop_SecondEx Prop_Cea2 Prop_Cycle2.
From Verif Require Import Model_Nozzle Model_ThermoAdd Model_Elem1 Model_Elem2 Proofs_Elem Proofs_Elem2 Proofs_ElemEx Proofs_ElemEx2 Prop_Station Prop_Station5.
Open Scope string_scope. Open Scope list_scope. Open Scope R_scope.

Section Shipped.
Variables (sd : specD) (d : dict R) (p : Model_Species.props).
Hypothesis Hsd : In sd shipped_specs.
Hypothesis Hp : mk_properties (specR sd) (Some d) = Ok p.
(* any two states of one composition, at temperatures between two junctions of the fits *)
Theorem C76_shipped_states hist Tlo Thi T1 T2 P1 P2 c a b : p_products p <> [] -> (201 <= Tlo /\ Thi < 999) \/ (1000 < Tlo /\ Thi < 6000) -> Tlo <= T1 <= Thi -> Tlo <= T2 <= Thi ->
  cea_tp (gas_of p hist) T1 P1 c a -> cea_tp (gas_of p hist) T2 P2 c b ->
  T1 * (b "S" - a "S") + T1 * ((19872035 / 10000000) / (83144598 / 10000) * b "R") * ln (P2 / P1) <= b "h" - a "h" /\
  b "h" - a "h" <= T2 * (b "S" - a "S") + T2 * ((19872035 / 10000000) / (83144598 / 10000) * a "R") * ln (P2 / P1).
Proof.
  intros Hne HT H1 H2 Ha Hb. pose proof (C65_gas_ok sd d p Hsd Hp hist Hne) as G. pose proof (C65_proper sd d p Hsd Hp hist Tlo Thi HT) as Pr. assert (T0 : 0 < Tlo) by lra.
  split; [exact (C76_states _ Tlo Thi T1 T2 P1 P2 c a b G T0 Pr H1 H2 Ha Hb)|].
  pose proof (C76_states _ Tlo Thi T2 T1 P2 P1 c b a G T0 Pr H2 H1 Hb Ha) as K. pose proof (proj1 Ha) as Q1. pose proof (proj1 Hb) as Q2.
  rewrite ln_div in K |- * by assumption. lra.
Qed.
(* the elements, over any of the shipped data sets *)
Theorem C76_shipped_elements hist Tlo Thi w : p_products p <> [] -> (201 <= Tlo /\ Thi < 999) \/ (1000 < Tlo /\ Thi < 6000) -> total_in (gas_of p hist) Tlo Thi w "Fl_I:tot" ->
  (forall statics design with_MN expMN, Spec_Wire.solves (duct (cea_tp (gas_of p hist)) CEA statics design with_MN expMN) w -> Tlo <= val w "Fl_O:tot:T" <= Thi -> 0 < val w "Fl_I:stat:W" -> 0 <= val w "dPqP" -> 0 <= val w "Q_dot" ->
    val w "Fl_I:tot:S" <= val w "Fl_O:tot:S") /\
  (forall mp rs bs statics design, (forall b, In b bs -> ok_name (b ++ ":tot")) -> Spec_Wire.solves (compressor (cea_tp (gas_of p hist)) CEA mp rs bs statics design) w ->
    Tlo <= val w "ideal_flow.flow:T" <= Thi -> Tlo <= val w "Fl_O:tot:T" <= Thi -> 0 < val w "eff" <= 1 -> 1 <= val w "PR" ->
    val w "Fl_I:tot:S" <= val w "Fl_O:tot:S" /\ val w "Fl_I:tot:h" <= val w "Fl_O:tot:h") /\
  (forall mp a statics design, flow_adder a [] -> Spec_Wire.solves (turbine (cea_tp (gas_of p hist)) CEA mp a [] statics design) w ->
    Tlo <= val w "ideal_flow.flow:T" <= Thi -> Tlo <= val w "real_flow_b4bld.Fl_O_b4bld:tot:T" <= Thi -> 0 <= val w "eff" <= 1 -> 1 <= val w "PR" -> 0 < val w "Fl_I:stat:W" ->
    val w "Fl_I:tot:S" <= val w "real_flow_b4bld.Fl_O_b4bld:tot:S" /\ (val w "Fl_O:stat:W" <> 0 -> 0 <= val w "power")) /\
  (forall nt lc, Spec_Wire.solves (nozzle (cea_tp (gas_of p hist)) CEA nt lc) w -> Tlo <= val w "Fl_O:tot:T" <= Thi -> Tlo <= val w "staticMN.flow:T" <= Thi -> Tlo <= val w "staticPs.flow:T" <= Thi ->
    Tlo <= val w "ideal_flow.flow:T" <= Thi -> 0 <= val w "dPqP" -> 0 < val w "Ps_exhaust" -> 1 < val w "PR" -> val w "Fl_I:tot:h" <> 0 ->
    val w "Fl_I:tot:S" <= val w "Fl_O:tot:S" /\ val w "staticPs.flow:V" <> 0 /\ val w "staticPs.flow:V" ^ 2 <= val w "ideal_flow.flow:V" ^ 2 /\ val w "staticMN.flow:P" < val w "Fl_O:tot:P").
Proof.
  intros Hne HT Hi. pose proof (C65_gas_ok sd d p Hsd Hp hist Hne) as G. pose proof (C65_proper sd d p Hsd Hp hist Tlo Thi HT) as Pr. assert (T0 : 0 < Tlo) by lra.
  split; [|split; [|split]].
  - intros st de wm em Hs Ho HW HL HQ. destruct (C76_duct _ Tlo Thi G T0 Pr st de wm em w Hs Hi Ho HW HL) as (_ & K & _). exact (K HQ).
  - intros mp rs bs st de Hn Hs HTi Ho He HPR. destruct (C76_compressor _ Tlo Thi G T0 Pr mp rs bs st de w Hn Hs Hi HTi Ho He HPR) as (K1 & K2 & _). auto.
  - intros mp a st de Ha Hs HTi Ho He HPR HW.
    destruct (C76_turbine _ Tlo Thi G T0 Pr mp a [] st de w ltac:(intros b []) Ha Hs Hi HTi Ho He HPR ltac:(intros b []) HW) as (K1 & _ & _ & K2). auto.
  - intros nt lc Hs Ho HTm HTp HTd HL HPs HPR Hh.
    destruct (C76_nozzle _ Tlo Thi G T0 Pr nt lc w Hs ltac:(intros T j HTj Hj; apply (sh_cp sd d p Hsd Hp); [lra|exact Hj]) Hi Ho HTm HTp HTd HL HPs HPR Hh) as (K1 & _ & (_ & K2) & _ & K3 & K4). auto.
Qed.
End Shipped.
Print Assumptions C76_shipped_states.
Print Assumptions C76_shipped_elements.

(* argon of the shipped data at 300 K and 900 K, and a duct carrying it that loses half of the pressure *)
Section One.
Variable g : gas.
Hypothesis H1 : np g = 1%nat.
Hypothesis H2 : ne g = 1%nat.
Hypothesis H3 : aij g 0 0 = 1.
Definition ap (T P : R) (x : string) : R := prop_of g (one_state g T P) x.
Definition aq (T P : R) (x : string) : R := if String.eqb x "T" then T else if String.eqb x "P" then P else ap T (P / ufac "bar") x * ufac (prop_unit CEA x).
Lemma ap_tp T P : 0 < P -> cea_tp g T P (fun _ => 1) (ap T P). Proof. intros HP. apply one_tp; auto. Qed.
Lemma aq_h T P Q : aq T P "h" = aq T Q "h".
Proof. change (ap T (P / ufac "bar") "h" * ufac "cal/g" = ap T (Q / ufac "bar") "h" * ufac "cal/g"). unfold ap. rewrite !h_val. reflexivity. Qed.
Definition a_duct : state := est4 [("dPqP", / 2); ("Q_dot", 0); ("q_calc.ht_out", aq 300 (10 ^ 5) "h"); ("real_flow.h", aq 300 (10 ^ 5) "h"); ("real_flow.base_thermo.h", aq 300 (10 ^ 5) "h"); ("p_loss.Pt_out", 10 ^ 5); ("real_flow.P", 10 ^ 5); ("Fl_I:stat:W", 1); ("Fl_O:stat:W", 1)]
  [("Fl_I:tot:", aq 300 (2 * 10 ^ 5)); ("Fl_O:tot:", aq 300 (10 ^ 5)); ("Fl_O:", aq 300 (10 ^ 5)); ("real_flow.", aq 300 (10 ^ 5))].
Lemma a_duct_ok : solves (duct (cea_tp g) CEA false true false 2) a_duct /\ total_in g 250 900 a_duct "Fl_I:tot".
Proof.
  split.
  - split; [|ex_conns]. intros s Hs. unfold duct in Hs. cbn [subs app map] in Hs. repeat destruct Hs as [<-|Hs]; try contradiction.
    + exact Logic.I.
    + intros o Ho. inlist Ho. change (10 ^ 5 / ufac "lbf/inch**2" = 2 * 10 ^ 5 / ufac "lbf/inch**2" * (1 - / 2 / 1)). field. apply ufac_n0.
    + intros o Ho. inlist Ho. change (aq 300 (10 ^ 5) "h" / ufac "Btu/lbm" = aq 300 (2 * 10 ^ 5) "h" / ufac "Btu/lbm" + 0 / ufac "Btu/s" / (1 / ufac "lbm/s")). rewrite (aq_h 300 (2 * 10 ^ 5) (10 ^ 5)). field. repeat split; apply ufac_n0.
    + apply (mk_hP (cea_tp g) CEA (cea_local g) "real_flow" "Fl_O:tot" "Fl_O:tot" (cons (PA "composition" "Fl_I:tot:composition") nil) (cons (PG "Fl_O:") nil) (a_duct) ltac:(okx) ltac:(shx) (ap 300 (10 ^ 5 / ufac "bar"))); [| |each|each|reflexivity].
      * change (cea_tp g 300 (10 ^ 5 / ufac "bar") (fun _ => 1) (ap 300 (10 ^ 5 / ufac "bar"))). apply ap_tp. apply Rdiv_lt_0_compat; [lra|apply ufac_pos].
      * each.
    + cbn. intros x Hx. inlist Hx. reflexivity.
  - split; [|change (250 <= 300 <= 900); lra]. exists (ap 300 (2 * 10 ^ 5 / ufac "bar")). split; [|each].
    change (cea_tp g 300 (2 * 10 ^ 5 / ufac "bar") (fun _ => 1) (ap 300 (2 * 10 ^ 5 / ufac "bar"))). apply ap_tp. apply Rdiv_lt_0_compat; [lra|apply ufac_pos].
Qed.
End One.
Example C76_shipped_ex : exists p, In janaf_dec shipped_specs /\ mk_properties (specR janaf_dec) (Some (("Ar", 1) :: nil)) = Ok p /\ p_products p <> [] /\
  (forall hist, exists a b, cea_tp (gas_of p hist) 300 1 (fun _ => 1) a /\ cea_tp (gas_of p hist) 900 20 (fun _ => 1) b) /\
  (forall hist, exists w, solves (duct (cea_tp (gas_of p hist)) CEA false true false 2) w /\ total_in (gas_of p hist) 250 900 w "Fl_I:tot" /\ val w "Fl_O:tot:T" = 300 /\ val w "Fl_I:stat:W" = 1 /\ val w "dPqP" = / 2 /\ val w "Q_dot" = 0).
Proof.
  destruct mk_argon as (p & Hp & E1 & E2 & E3). exists p. split; [left; reflexivity|]. split; [exact Hp|]. split; [rewrite E1; discriminate|]. split.
  - intros hist. do 2 eexists. split; apply one_tp; cbn [gas_of np ne aij]; rewrite ?E1, ?E2; auto; lra.
  - intros hist. exists (a_duct (gas_of p hist)). destruct (a_duct_ok (gas_of p hist)) as [A B]; [cbn [gas_of np]; rewrite E1; reflexivity|cbn [gas_of ne]; rewrite E2; reflexivity|exact E3|].
    split; [exact A|]. split; [exact B|]. repeat split; reflexivity.
Qed.
Print Assumptions C76_shipped_ex.
