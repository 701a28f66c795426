(* Claim C42: what a Thermo group computes in each mode. *)
From Coq Require Import FunctionalExtensionality Ascii Lia.
From Verif Require Import Lib_R Spec_Wire Model_Thermo Proofs_Wire Prop_Static.
Open Scope string_scope. Open Scope list_scope. Open Scope R_scope.

(* ---- the mode option ---- *)
Theorem C42_modes (s : string) : (exists m, parse_mode s = Some m) <->
  In s ["total_TP"; "total_SP"; "total_hP"; "static_MN"; "static_A"; "static_Ps"].
Proof.
  unfold parse_mode, modes. cbn [find mode_name]. split.
  - intros [m H]. repeat (let E := fresh in destruct (String.eqb _ s) eqn:E in H; [apply String.eqb_eq in E; subst; cbn; tauto|]). discriminate.
  - cbn. intros H. repeat destruct H as [<-|H]; try (eexists; reflexivity). contradiction.
Qed.
Theorem C42_mode_roundtrip (m : mode) : parse_mode (mode_name m) = Some m.
Proof. destruct m; reflexivity. Qed.

(* ---- specification ---- *)
(* variable x of station fl *)
Definition at_ (fl x : string) : string := (fl ++ ":" ++ x)%string.
Definition prop_names : list string := ["h"; "S"; "gamma"; "Cp"; "Cv"; "rho"; "R"].
(* units in which the property calculation of a method works *)
Definition p_unit (me : method) : string := match me with CEA => "bar" | TABULAR => "Pa" end.
Definition prop_unit (me : method) (x : string) : string := unit_of (base_outs me) x.
(* all properties of station fl (SI) are those the property calculation gives at the station's own temperature and pressure *)
Definition station tp (me : method) (comp : nat -> R) (w : state) (fl : string) : Prop :=
  exists p, tp (w (at_ fl "T") 0%nat) (w (at_ fl "P") 0%nat / ufac (p_unit me)) comp p /\
            forall x, In x prop_names -> w (at_ fl x) 0%nat = p x * ufac (prop_unit me x).
(* energy, speed of sound, Mach number and continuity at a static station, in SI units *)
Definition static_ok (w : state) (fl : string) (ht : R) : Prop :=
  w (at_ fl "h") 0%nat + w (at_ fl "V") 0%nat ^ 2 / 2 = ht /\
  w (at_ fl "Vsonic") 0%nat ^ 2 = w (at_ fl "gamma") 0%nat * w (at_ fl "R") 0%nat * w (at_ fl "T") 0%nat /\ 0 <= w (at_ fl "Vsonic") 0%nat /\
  w (at_ fl "V") 0%nat = w (at_ fl "MN") 0%nat * w (at_ fl "Vsonic") 0%nat /\
  w (at_ fl "rho") 0%nat * w (at_ fl "V") 0%nat * w (at_ fl "area") 0%nat = w (at_ fl "W") 0%nat.
(* the group's unit system: SI values agree index by index *)
Definition same (w : state) (a b : string) : Prop := forall k, w a k = w b k.

(* ---- extraction from a solution ---- *)
Lemma base_fact tp me m w P :
  gname "base_thermo" (base_pin m) "T" = "T" -> gname "base_thermo" (base_pin m) "P" = P -> gname "base_thermo" (base_pin m) "composition" = "composition" ->
  srel (base_sub tp me m) (lin (base_sub tp me m) w) (lout (base_sub tp me m) w) ->
  exists p, tp (w "T" 0%nat) (w P 0%nat / ufac (p_unit me)) (w "composition") p /\
    forall x, In x prop_names -> w (gname "base_thermo" (base_pout m) x) 0%nat = p x * ufac (prop_unit me x).
Proof.
  intros ET EP EC H. cbn [base_sub srel] in H.
  exists (fun x => lout (base_sub tp me m) w x 0%nat). split.
  - revert H. unfold lin; cbn [base_sub sname pin sins]. rewrite ET, EP, EC.
    assert (U1 : ufac (unit_of (base_ins me) "T") = 1) by (destruct me; reflexivity).
    assert (U2 : ufac (unit_of (base_ins me) "composition") = 1) by (destruct me; reflexivity).
    assert (U3 : unit_of (base_ins me) "P" = p_unit me) by (destruct me; reflexivity).
    rewrite U1, U2, U3. 
    replace (fun k : nat => w "composition" k / 1) with (w "composition") by (apply functional_extensionality; intros; field).
    replace (w "T" 0%nat / 1) with (w "T" 0%nat) by field. auto.
  - intros x _. unfold lout; cbn [base_sub sname pout souts]. fold (prop_unit me x). unfold Rdiv.
    rewrite Rmult_assoc, Rinv_l by apply ufac_n0. ring.
Qed.
Lemma flow_fact m fl w : srel (flow_sub m fl) (lin (flow_sub m fl) w) (lout (flow_sub m fl) w) ->
  forall x, In x (names eng_props) -> same w (at_ fl x) (gname "flow" (flow_pin m) x).
Proof. intros H. unfold flow_sub in H. exact (proj1 (unit_sub_iff _ _ _ _ _) H). Qed.
Lemma flow_static_fact fl w : srel (flow_static_sub fl) (lin (flow_static_sub fl) w) (lout (flow_static_sub fl) w) ->
  forall x, In x (names eng_static) -> same w (at_ fl x) x.
Proof.
  intros H x Hx. unfold flow_static_sub in H. pose proof (proj1 (unit_sub_iff _ _ _ _ _) H x Hx) as E. unfold same, at_. intros k. rewrite (E k).
  cbn in Hx. repeat destruct Hx as [<-|Hx]; try reflexivity. contradiction.
Qed.
(* the balance drives its left-hand side, connected to src, to the value promoted as rhs *)
Lemma balance_fact m u rhs src w : unit_of (balance_ins m) "lhs:T" = u -> unit_of (balance_ins m) "rhs:T" = u ->
  gname "balance" (balance_pin m) "lhs:T" = "balance.lhs:T" -> gname "balance" (balance_pin m) "rhs:T" = rhs ->
  srel (balance_sub m) (lin (balance_sub m) w) (lout (balance_sub m) w) -> w "balance.lhs:T" 0%nat = w src 0%nat ->
  w src 0%nat = w rhs 0%nat.
Proof.
  intros U1 U2 G1 G2 H C. cbn [balance_sub srel] in H. revert H. unfold lin. cbn [balance_sub sname pin sins]. rewrite U1, U2, G1, G2, C.
  apply udiv_eq.
Qed.

Ltac inp := cbn; tauto.
(* station from the three facts, when the balanced property is called q at group level (src) *)
Lemma station_of (tp : R -> R -> (nat -> R) -> (string -> R) -> Prop) me m fl w P (comp : nat -> R) p :
  tp (w "T" 0%nat) (w P 0%nat / ufac (p_unit me)) comp p ->
  (forall x, In x prop_names -> w (gname "base_thermo" (base_pout m) x) 0%nat = p x * ufac (prop_unit me x)) ->
  (forall x, In x (names eng_props) -> same w (at_ fl x) (gname "flow" (flow_pin m) x)) ->
  gname "flow" (flow_pin m) "T" = "T" -> gname "flow" (flow_pin m) "P" = P ->
  (forall x, In x prop_names -> w (gname "flow" (flow_pin m) x) 0%nat = w (gname "base_thermo" (base_pout m) x) 0%nat) ->
  station tp me comp w fl.
Proof.
  intros H1 H2 H3 E1 E2 H4. exists p. split.
  - rewrite (H3 "T" ltac:(inp) 0%nat), (H3 "P" ltac:(inp) 0%nat), E1, E2. auto.
  - intros x Hx. rewrite (H3 x) by (cbn in Hx |- *; tauto). rewrite (H4 x Hx). auto.
Qed.

(* ---- total_TP: properties at the given temperature, pressure and composition ---- *)
Theorem C42_total_TP tp me fl w : solves (thermo tp me total_TP fl) w ->
  station tp me (w (at_ fl "composition")) w fl /\
  same w (at_ fl "T") "T" /\ same w (at_ fl "P") "P" /\ same w (at_ fl "composition") "composition".
Proof.
  intros [Hs _].
  assert (Hb := Hs (base_sub tp me total_TP) ltac:(inp)). assert (Hf := flow_fact _ _ _ (Hs (flow_sub total_TP fl) ltac:(inp))).
  destruct (base_fact _ _ total_TP _ "P" eq_refl eq_refl eq_refl Hb) as (p & Hp & Hx).
  assert (Ec : w (at_ fl "composition") = w "composition") by (apply functional_extensionality; apply (Hf "composition"); inp).
  split; [|repeat split; apply Hf; inp].
  eapply station_of with (m := total_TP) (P := "P"); eauto; rewrite ?Ec; auto. 
  intros x Hi. cbn in Hi. repeat destruct Hi as [<-|Hi]; try reflexivity. contradiction.
Qed.
(* ---- total_hP: the temperature is found so that the enthalpy is the given one ---- *)
Theorem C42_total_hP tp me fl w : solves (thermo tp me total_hP fl) w ->
  station tp me (w (at_ fl "composition")) w fl /\
  w (at_ fl "h") 0%nat = w "h" 0%nat /\ same w (at_ fl "P") "P" /\ same w (at_ fl "composition") "composition".
Proof.
  intros [Hs Hc].
  assert (Hb := Hs (base_sub tp me total_hP) ltac:(inp)). assert (Hf := flow_fact _ _ _ (Hs (flow_sub total_hP fl) ltac:(inp))).
  assert (Hl := balance_fact total_hP "cal/g" "h" "base_thermo.h" w eq_refl eq_refl eq_refl eq_refl (Hs (balance_sub total_hP) ltac:(inp))
                  (Hc "base_thermo.h" "balance.lhs:T" ltac:(inp) 0%nat)).
  destruct (base_fact _ _ total_hP _ "P" eq_refl eq_refl eq_refl Hb) as (p & Hp & Hx).
  assert (Ec : w (at_ fl "composition") = w "composition") by (apply functional_extensionality; apply (Hf "composition"); inp).
  split; [|split; [apply (Hf "h"); inp|split; apply Hf; inp]].
  eapply station_of with (m := total_hP) (P := "P"); eauto; rewrite ?Ec; auto. 
  intros x Hi. cbn in Hi. repeat destruct Hi as [<-|Hi]; try reflexivity; try contradiction. symmetry. exact Hl.
Qed.
(* ---- total_SP: the temperature is found so that the entropy is the given one ---- *)
Theorem C42_total_SP tp me fl w : solves (thermo tp me total_SP fl) w ->
  station tp me (w (at_ fl "composition")) w fl /\
  w (at_ fl "S") 0%nat = w "S" 0%nat /\ same w (at_ fl "P") "P" /\ same w (at_ fl "composition") "composition".
Proof.
  intros [Hs Hc].
  assert (Hb := Hs (base_sub tp me total_SP) ltac:(inp)). assert (Hf := flow_fact _ _ _ (Hs (flow_sub total_SP fl) ltac:(inp))).
  assert (Hl := balance_fact total_SP "cal/(g*degK)" "S" "base_thermo.S" w eq_refl eq_refl eq_refl eq_refl (Hs (balance_sub total_SP) ltac:(inp))
                  (Hc "base_thermo.S" "balance.lhs:T" ltac:(inp) 0%nat)).
  destruct (base_fact _ _ total_SP _ "P" eq_refl eq_refl eq_refl Hb) as (p & Hp & Hx).
  assert (Ec : w (at_ fl "composition") = w "composition") by (apply functional_extensionality; apply (Hf "composition"); inp).
  split; [|split; [apply (Hf "S"); inp|split; apply Hf; inp]].
  eapply station_of with (m := total_SP) (P := "P"); eauto; rewrite ?Ec; auto. 
  intros x Hi. cbn in Hi. repeat destruct Hi as [<-|Hi]; try reflexivity; try contradiction. symmetry. exact Hl.
Qed.

(* ---- static modes ---- *)
(* what holds in all three: isentropic with the given entropy, properties at the static temperature and pressure, given mass flow *)
Lemma static_common tp me m fl w : has "static" m = true -> In m [static_MN; static_A; static_Ps] ->
  solves (thermo tp me m fl) w ->
  station tp me (w "composition") w fl /\ w (at_ fl "S") 0%nat = w "S" 0%nat /\ same w (at_ fl "P") "Ps" /\ same w (at_ fl "W") "W" /\
  (forall x, In x ["T"; "h"; "gamma"; "R"; "rho"; "V"; "Vsonic"; "MN"; "area"] -> same w (at_ fl x) x).
Proof.
  intros _ Hm [Hs Hc].
  assert (Q : forall G : Prop, (m = static_MN -> G) -> (m = static_A -> G) -> (m = static_Ps -> G) -> G) by (intros G; destruct m; cbn in Hm; intuition discriminate).
  assert (Hb : srel (base_sub tp me m) (lin (base_sub tp me m) w) (lout (base_sub tp me m) w)) by (apply Hs; apply Q; intros ->; inp).
  assert (Hf : forall x, In x (names eng_props) -> same w (at_ fl x) (gname "flow" (flow_pin m) x)) by (apply flow_fact; apply Hs; apply Q; intros ->; inp).
  assert (Hg : forall x, In x (names eng_static) -> same w (at_ fl x) x) by (apply flow_static_fact; apply Hs; apply Q; intros ->; inp).
  assert (Hl : w "base_thermo.S" 0%nat = w "S" 0%nat).
  { apply balance_fact with (m := m) (u := "cal/(g*degK)"); [apply Q; intros ->; reflexivity ..| |].
    - apply Hs. apply Q; intros ->; inp.
    - apply Hc. apply Q; intros ->; inp. }
  assert (Hpp : gname "base_thermo" (base_pin m) "P" = "Ps" /\ gname "base_thermo" (base_pin m) "T" = "T" /\ gname "base_thermo" (base_pin m) "composition" = "composition")
    by (apply Q; intros ->; repeat split; reflexivity).
  destruct Hpp as (E1 & E2 & E3).
  destruct (base_fact _ _ _ _ "Ps" E2 E1 E3 Hb) as (p & Hp & Hx).
  assert (F : gname "flow" (flow_pin m) "T" = "T" /\ gname "flow" (flow_pin m) "P" = "Ps" /\ gname "flow" (flow_pin m) "S" = "S" /\
              gname "flow" (flow_pin m) "h" = "h" /\ gname "flow" (flow_pin m) "gamma" = "gamma" /\ gname "flow" (flow_pin m) "R" = "R" /\
              gname "flow" (flow_pin m) "rho" = "rho") by (apply Q; intros ->; repeat split; reflexivity).
  destruct F as (F1 & F2 & F3 & F4 & F5 & F6 & F7).
  split.
  - eapply station_of with (P := "Ps"); eauto. intros x Hi.
    assert (Gx : x = "S" \/ gname "flow" (flow_pin m) x = gname "base_thermo" (base_pout m) x).
    { cbn in Hi. repeat destruct Hi as [<-|Hi]; try (left; reflexivity); try contradiction; right; apply Q; intros ->; reflexivity. }
    destruct Gx as [->|Gx]; [|rewrite Gx; reflexivity].
    rewrite F3. replace (gname "base_thermo" (base_pout m) "S") with "base_thermo.S" by (apply Q; intros ->; reflexivity). symmetry; exact Hl.
  - split; [rewrite (Hf "S" ltac:(inp)), F3; reflexivity|]. split; [rewrite <- F2; apply Hf; inp|]. split; [apply Hg; inp|].
    intros x Hi. cbn in Hi.
    repeat destruct Hi as [<-|Hi]; try contradiction;
      first [apply Hg; inp | rewrite <- F1 at 2; apply Hf; inp | rewrite <- F4 at 2; apply Hf; inp | rewrite <- F5 at 2; apply Hf; inp
            | rewrite <- F6 at 2; apply Hf; inp | rewrite <- F7 at 2; apply Hf; inp].
Qed.

(* static_Ps: the static pressure is given *)
Theorem C42_static_Ps tp me fl w : solves (thermo tp me static_Ps fl) w ->
  station tp me (w "composition") w fl /\ w (at_ fl "S") 0%nat = w "S" 0%nat /\ same w (at_ fl "P") "Ps" /\ same w (at_ fl "W") "W" /\
  (0 < w (at_ fl "gamma") 0%nat -> 0 < w (at_ fl "R") 0%nat -> 0 < w (at_ fl "T") 0%nat -> w (at_ fl "rho") 0%nat <> 0 ->
   w (at_ fl "h") 0%nat < w "ht" 0%nat -> static_ok w fl (w "ht" 0%nat)).
Proof.
  intros H. destruct (static_common tp me static_Ps fl w eq_refl ltac:(inp) H) as (H1 & H2 & H3 & H4 & H5).
  do 4 (split; [assumption|]).
  assert (E : forall x, In x ["T"; "h"; "gamma"; "R"; "rho"; "V"; "Vsonic"; "MN"; "area"] -> w (at_ fl x) 0%nat = w x 0%nat) by (intros x Hx; apply H5; auto).
  unfold static_ok. rewrite (H4 0%nat), !E by inp. intros Hg HR HT Hr Hh.
  destruct H as [Hs _]. assert (Hp := Hs ps_calc_sub ltac:(inp)). cbn [ps_calc_sub srel] in Hp. unfold expl_rel in Hp.
  set (e := vget (lin ps_calc_sub w)) in *.
  assert (R1 : forall x, In x ["gamma"; "R"; "Ts"; "ht"; "hs"; "W"; "rho"] -> e (V x) = w (gname "ps_calc" (pin ps_calc_sub) x) 0%nat).
  { intros x Hx. unfold e, vget, lin. replace (ufac (unit_of (sins ps_calc_sub) x)) with 1; [cbn [ps_calc_sub sname pin]; field|].
    cbn in Hx. repeat destruct Hx as [<-|Hx]; try reflexivity. contradiction. }
  assert (R2 : forall x, In x ["MN"; "V"; "Vsonic"; "area"] -> w x 0%nat = compute ps_calc e (fun _ => 0) (V x)).
  { intros x Hx. rewrite <- Hp by (cbn in Hx; repeat destruct Hx as [<-|Hx]; try inp; contradiction).
    unfold vget, lout. replace (ufac (unit_of (souts ps_calc_sub) x)) with 1 by (cbn in Hx; repeat destruct Hx as [<-|Hx]; try reflexivity; contradiction).
    replace (gname (sname ps_calc_sub) (pout ps_calc_sub) x) with x by (cbn in Hx; repeat destruct Hx as [<-|Hx]; try reflexivity; contradiction). field. }
  assert (G : e (V "gamma") = w "gamma" 0%nat /\ e (V "R") = w "R" 0%nat /\ e (V "Ts") = w "T" 0%nat /\ e (V "ht") = w "ht" 0%nat /\ e (V "hs") = w "h" 0%nat /\
              e (V "W") = w "W" 0%nat /\ e (V "rho") = w "rho" 0%nat) by (rewrite !R1 by inp; repeat split; reflexivity).
  destruct G as (G1 & G2 & G3 & G4 & G5 & G6 & G7).
  pose proof (C25_consistent e (fun _ => 0)) as C. cbv zeta in C. rewrite G1, G2, G3, G4, G5, G6, G7 in C. rewrite <- !R2 in C by inp.
  destruct (C Hg HR HT Hr Hh) as (C1 & C2 & C3 & C4 & C5 & C6).
  repeat split; try lra. 
Qed.


(* static_MN: the Mach number is given, pressure and area are found *)
Theorem C42_static_MN tp me fl w : solves (thermo tp me static_MN fl) w ->
  station tp me (w "composition") w fl /\ w (at_ fl "S") 0%nat = w "S" 0%nat /\ same w (at_ fl "P") "Ps" /\ same w (at_ fl "W") "W" /\ same w (at_ fl "MN") "MN" /\
  (w "ht" 0%nat <> 0 -> 0 < w (at_ fl "gamma") 0%nat * w (at_ fl "R") 0%nat * w (at_ fl "T") 0%nat -> w (at_ fl "rho") 0%nat <> 0 -> / 10 ^ 16 <= w "MN" 0%nat ->
   static_ok w fl (w "ht" 0%nat)).
Proof.
  intros H. destruct (static_common tp me static_MN fl w eq_refl ltac:(inp) H) as (H1 & H2 & H3 & H4 & H5).
  do 4 (split; [assumption|]). split; [apply H5; inp|].
  assert (E : forall x, In x ["T"; "h"; "gamma"; "R"; "rho"; "V"; "Vsonic"; "MN"; "area"] -> w (at_ fl x) 0%nat = w x 0%nat) by (intros x Hx; apply H5; auto).
  unfold static_ok. rewrite (H4 0%nat), !E by inp. intros Hh Hg Hr HM.
  destruct H as [Hs _]. assert (Hp := Hs ps_MN_sub ltac:(inp)). cbn [ps_MN_sub srel] in Hp. unfold impl_rel in Hp.
  set (e := impl_env ps_resid_MN _ _) in *.
  assert (D : forall a : R, a / ufac "" = a) by (intros; change (ufac "") with 1; field).
  assert (D1 : forall a : R, a / ufac "J/kg" = a) by (intros; change (ufac "J/kg") with 1; field).
  assert (G : e (V "gamma") = w "gamma" 0%nat /\ e (V "R") = w "R" 0%nat /\ e (V "Ts") = w "T" 0%nat /\ e (V "ht") = w "ht" 0%nat /\ e (V "hs") = w "h" 0%nat /\
              e (V "W") = w "W" 0%nat /\ e (V "rho") = w "rho" 0%nat /\ e (V "MN") = w "MN" 0%nat /\
              e (V "V") = w "V" 0%nat /\ e (V "Vsonic") = w "Vsonic" 0%nat /\ e (V "area") = w "area" 0%nat).
  { repeat split.
    - change (w "gamma" 0%nat / ufac "" = w "gamma" 0%nat). change (ufac "") with 1. field.
    - change (w "R" 0%nat / 1 = w "R" 0%nat). field.
    - change (w "T" 0%nat / 1 = w "T" 0%nat). field.
    - change (w "ht" 0%nat / 1 = w "ht" 0%nat). field.
    - change (w "h" 0%nat / 1 = w "h" 0%nat). field.
    - change (w "W" 0%nat / 1 = w "W" 0%nat). field.
    - change (w "rho" 0%nat / 1 = w "rho" 0%nat). field.
    - change (w "MN" 0%nat / 1 = w "MN" 0%nat). field.
    - change (w "V" 0%nat / 1 = w "V" 0%nat). field.
    - change (w "Vsonic" 0%nat / 1 = w "Vsonic" 0%nat). field.
    - change (w "area" 0%nat / 1 = w "area" 0%nat). field. }
  destruct G as (G1 & G2 & G3 & G4 & G5 & G6 & G7 & G8 & G9 & G10 & G11).
  pose proof (C26_mach_mode_partial e (fun _ => 0)) as C. unfold flow_state_ok in C. rewrite G1, G2, G3, G4, G5, G6, G7, G8, G9, G10, G11 in C.
  apply C; auto.
Qed.
(* static_A: the area is given, pressure and Mach number are found *)
Theorem C42_static_A tp me fl w : solves (thermo tp me static_A fl) w ->
  station tp me (w "composition") w fl /\ w (at_ fl "S") 0%nat = w "S" 0%nat /\ same w (at_ fl "P") "Ps" /\ same w (at_ fl "W") "W" /\ same w (at_ fl "area") "area" /\
  (w "ht" 0%nat <> 0 -> 0 < w (at_ fl "gamma") 0%nat * w (at_ fl "R") 0%nat * w (at_ fl "T") 0%nat -> w (at_ fl "rho") 0%nat <> 0 -> w "area" 0%nat <> 0 ->
   static_ok w fl (w "ht" 0%nat)).
Proof.
  intros H. destruct (static_common tp me static_A fl w eq_refl ltac:(inp) H) as (H1 & H2 & H3 & H4 & H5).
  do 4 (split; [assumption|]). split; [apply H5; inp|].
  assert (E : forall x, In x ["T"; "h"; "gamma"; "R"; "rho"; "V"; "Vsonic"; "MN"; "area"] -> w (at_ fl x) 0%nat = w x 0%nat) by (intros x Hx; apply H5; auto).
  unfold static_ok. rewrite (H4 0%nat), !E by inp. intros Hh Hg Hr HM.
  destruct H as [Hs _]. assert (Hp := Hs ps_area_sub ltac:(inp)). cbn [ps_area_sub srel] in Hp. unfold impl_rel in Hp.
  set (e := impl_env ps_resid_area _ _) in *.
  assert (G : e (V "gamma") = w "gamma" 0%nat /\ e (V "R") = w "R" 0%nat /\ e (V "Ts") = w "T" 0%nat /\ e (V "ht") = w "ht" 0%nat /\ e (V "hs") = w "h" 0%nat /\
              e (V "W") = w "W" 0%nat /\ e (V "rho") = w "rho" 0%nat /\ e (V "MN") = w "MN" 0%nat /\
              e (V "V") = w "V" 0%nat /\ e (V "Vsonic") = w "Vsonic" 0%nat /\ e (V "area") = w "area" 0%nat).
  { repeat split.
    - change (w "gamma" 0%nat / 1 = w "gamma" 0%nat). field.
    - change (w "R" 0%nat / 1 = w "R" 0%nat). field.
    - change (w "T" 0%nat / 1 = w "T" 0%nat). field.
    - change (w "ht" 0%nat / 1 = w "ht" 0%nat). field.
    - change (w "h" 0%nat / 1 = w "h" 0%nat). field.
    - change (w "W" 0%nat / 1 = w "W" 0%nat). field.
    - change (w "rho" 0%nat / 1 = w "rho" 0%nat). field.
    - change (w "MN" 0%nat / 1 = w "MN" 0%nat). field.
    - change (w "V" 0%nat / 1 = w "V" 0%nat). field.
    - change (w "Vsonic" 0%nat / 1 = w "Vsonic" 0%nat). field.
    - change (w "area" 0%nat / 1 = w "area" 0%nat). field. }
  destruct G as (G1 & G2 & G3 & G4 & G5 & G6 & G7 & G8 & G9 & G10 & G11).
  pose proof (C26_area_mode_partial e (fun _ => 0)) as C. unfold flow_state_ok in C. rewrite G1, G2, G3, G4, G5, G6, G7, G8, G9, G10, G11 in C.
  apply C; auto.
Qed.

(* ---- the group is well formed, and its inputs are exactly those its mode needs ---- *)
Definition fixed_outs (m : mode) : list string :=
  match m with
  | total_TP => ["h"; "S"; "gamma"; "Cp"; "Cv"; "rho"; "R"]
  | total_SP => ["h"; "base_thermo.S"; "gamma"; "Cp"; "Cv"; "rho"; "R"; "T"]
  | total_hP => ["base_thermo.h"; "S"; "gamma"; "Cp"; "Cv"; "rho"; "R"; "T"]
  | static_MN => ["h"; "base_thermo.S"; "gamma"; "Cp"; "Cv"; "rho"; "R"; "T"; "Ps"; "V"; "Vsonic"; "area"]
  | static_A => ["h"; "base_thermo.S"; "gamma"; "Cp"; "Cv"; "rho"; "R"; "T"; "Ps"; "V"; "Vsonic"; "MN"]
  | static_Ps => ["h"; "base_thermo.S"; "gamma"; "Cp"; "Cv"; "rho"; "R"; "T"; "MN"; "V"; "Vsonic"; "area"]
  end.
Definition station_vars (m : mode) : list string :=
  ["T"; "P"; "h"; "S"; "gamma"; "Cp"; "Cv"; "rho"; "R"; "composition"] ++ (if has "static" m then ["area"; "W"; "V"; "Vsonic"; "MN"] else []).
Lemma thermo_outs tp me m fl : g_outs (thermo tp me m fl) = fixed_outs m ++ map (at_ fl) (station_vars m).
Proof.
  unfold g_outs, thermo; cbn [subs]. rewrite !flat_map_app. 
  assert (F : flat_map out_names [flow_sub m fl] = map (at_ fl) (names eng_props)) by (cbn [flat_map]; unfold flow_sub; rewrite unit_out_names, app_nil_r; reflexivity).
  assert (G : flat_map out_names [flow_static_sub fl] = map (at_ fl) (names eng_static)) by (cbn [flat_map]; unfold flow_static_sub; rewrite unit_out_names, app_nil_r; reflexivity).
  rewrite F. unfold station_vars. rewrite map_app. 
  replace (flat_map out_names (if has "static" m then [flow_static_sub fl] else [])) with (map (at_ fl) (if has "static" m then ["area"; "W"; "V"; "Vsonic"; "MN"] else []))
    by (destruct (has "static" m); [rewrite G|]; reflexivity).
  rewrite !app_assoc. f_equal. f_equal. destruct m, me; reflexivity.
Qed.
Lemma at_inj fl x y : at_ fl x = at_ fl y -> x = y.
Proof. unfold at_. intros H. apply sapp_inj in H. injection H; auto. Qed.
(* OpenMDAO rejects variable names containing a dot *)
Definition dotted (s : string) : bool := contains "." s.
Lemma dotted_cons c s : dotted (String c s) = (if Ascii.ascii_dec "."%char c then true else false) || dotted s.
Proof. unfold dotted. change (contains "." (String c s)) with (prefix "." (String c s) || contains "." s). f_equal. cbn [prefix]. destruct (Ascii.ascii_dec "."%char c); [destruct s; reflexivity|reflexivity]. Qed.
Lemma dotted_app a b : dotted (a ++ b) = dotted a || dotted b.
Proof. induction a as [|c a IH]; [reflexivity|]. cbn [append]. rewrite !dotted_cons, IH, orb_assoc. reflexivity. Qed.
Definition clash (ys xs : list string) : bool := existsb (fun y => dotted y || existsb (fun x => negb (dotted x) && negb (String.eqb x (at_ "guess" y)) && suffixb (":" ++ y) x) xs) ys.
Lemma sapp_len (a b : string) : String.length (a ++ b) = (String.length a + String.length b)%nat.
Proof. induction a; cbn; congruence. Qed.
Lemma sapp_inj_r a b c : (a ++ c)%string = (b ++ c)%string -> a = b.
Proof.
  revert b. induction a as [|x a IH]; intros [|y b] H; auto.
  - exfalso. apply (f_equal String.length) in H. cbn in H. rewrite sapp_len in H. lia.
  - exfalso. apply (f_equal String.length) in H. cbn in H. rewrite sapp_len in H. lia.
  - cbn in H. injection H as -> H. f_equal. auto.
Qed.
(* a usable station name: no dot, and not "guess", whose variables the static solvers read (Fl_O:tot, Fl_O1:stat, bleed names etc. all are) *)
Definition ok_name (fl : string) : Prop := dotted fl = false /\ fl <> "guess".
Lemma clash_spec ys xs fl x : ok_name fl -> clash ys xs = false -> In x xs -> ~ In x (map (at_ fl) ys).
Proof.
  intros [Hd Hg] H Hx Hm. apply in_map_iff in Hm as (y & E & Hy). subst x.
  assert (C : clash ys xs = true); [|congruence]. unfold clash. apply existsb_exists. exists y. split; [auto|].
  destruct (dotted y) eqn:Ey; [reflexivity|]. cbn [orb]. apply existsb_exists. exists (at_ fl y).
  split; [auto|]. rewrite !andb_true_iff. split; [|apply suffixb_app].
  split; [|apply negb_true_iff, String.eqb_neq; unfold at_; intros E; apply sapp_inj_r in E; auto]. unfold at_. rewrite !dotted_app, Hd, Ey. reflexivity.
Qed.
Fixpoint nodupb (l : list string) : bool := match l with [] => true | x :: r => negb (memb x r) && nodupb r end.
Lemma nodupb_spec l : nodupb l = true -> NoDup l.
Proof.
  induction l as [|x r IH]; cbn; intros H; [constructor|]. apply andb_true_iff in H as [H1 H2]. constructor; [|auto].
  apply memb_not. apply negb_true_iff; auto.
Qed.
Lemma nodup_map_at fl l : NoDup l -> NoDup (map (at_ fl) l).
Proof. induction 1; cbn; constructor; auto. intros Hi. apply in_map_iff in Hi as (y & E & Hy). apply at_inj in E. subst; auto. Qed.
Lemma nodup_app {A} (l r : list A) : NoDup l -> NoDup r -> (forall x, In x l -> ~ In x r) -> NoDup (l ++ r).
Proof.
  intros Hl Hr. induction Hl as [|x l Hx Hl IH]; cbn; intros D; [auto|]. constructor.
  - rewrite in_app_iff. intros [|]; [auto|]. apply (D x); cbn; auto.
  - apply IH. intros y Hy. apply D. cbn; auto.
Qed.
Theorem C42_outputs tp me m fl (Hfl : ok_name fl) : NoDup (g_outs (thermo tp me m fl)) /\
  forall x, In x (station_vars m) -> In (at_ fl x) (g_outs (thermo tp me m fl)).
Proof.
  rewrite thermo_outs. split.
  - apply nodup_app.
    + apply nodupb_spec. destruct m; reflexivity.
    + apply nodup_map_at. apply nodupb_spec. destruct m; reflexivity.
    + intros x Hx. apply (clash_spec) with (xs := fixed_outs m); [auto|destruct m; reflexivity|auto].
  - intros x Hx. apply in_or_app. right. apply in_map. auto.
Qed.
(* what must be supplied: composition, and per mode the quantities that define the state *)
Definition needed (m : mode) : list string :=
  "composition" ::
  match m with
  | total_TP => ["T"; "P"]
  | total_SP => ["S"; "P"]
  | total_hP => ["h"; "P"]
  | static_MN => ["S"; "ht"; "W"; "guess:gamt"; "guess:Pt"; "MN"]
  | static_A => ["S"; "ht"; "W"; "guess:gamt"; "guess:Pt"; "guess:MN"; "area"]
  | static_Ps => ["S"; "ht"; "W"; "Ps"]
  end.
(* a static station's composition variable is exposed as an input of its own: it is not tied to the composition input *)
Definition stray (m : mode) : list string := if has "static" m then ["flow.composition"] else [].
Lemma filter_ext_in' {A} (f g : A -> bool) l : (forall x, In x l -> f x = g x) -> filter f l = filter g l.
Proof. induction l; cbn; intros H; [auto|]. rewrite (H a) by auto. rewrite IHl by auto. reflexivity. Qed.
Lemma memb_app x a b : memb x (a ++ b) = memb x a || memb x b.
Proof. unfold memb. apply existsb_app. Qed.
Theorem C42_inputs tp me m fl x (Hfl : ok_name fl) : In x (g_ins (thermo tp me m fl)) <-> In x (needed m ++ stray m).
Proof.
  set (C := flat_map in_names (subs (thermo tp me m fl))).
  assert (EQ : g_ins (thermo tp me m fl) = dedup (filter (fun x => negb (memb x (fixed_outs m) || memb x (map snd (conns (thermo tp me m fl))))) C)).
  { unfold g_ins. rewrite thermo_outs. f_equal. apply filter_ext_in'. intros y Hy. rewrite memb_app.
    replace (memb y (map (at_ fl) (station_vars m))) with false; [rewrite orb_false_r; reflexivity|].
    symmetry. apply memb_not. apply (clash_spec) with (xs := C); [auto| |auto]. unfold C. destruct m, me; vm_compute; reflexivity. }
  rewrite EQ. unfold C. destruct m, me; vm_compute; tauto.
Qed.
Lemma Forall_forall2 {A} (P : A -> Prop) l : Forall P l -> forall x, In x l -> P x.
Proof. intros H. apply Forall_forall. auto. Qed.
Theorem C42_wired tp me m fl (Hfl : ok_name fl) : wired (thermo tp me m fl).
Proof.
  assert (PP : forall s, In s (subs (thermo tp me m fl)) -> Forall (promo_ok (names (sins s))) (pin s) /\ Forall (promo_ok (names (souts s))) (pout s)).
  { assert (U : forall n l pi, In "T" (names l) \/ In "W" (names l) -> Forall (promo_ok (names (souts (unit_sub n fl l pi)))) (pout (unit_sub n fl l pi))).
    { intros n l pi H. cbn [unit_sub souts pout]. constructor; [|constructor]. cbn [promo_ok]. rewrite unit_names.
      destruct H as [H|H]; [exists (at_ fl "T")|exists (at_ fl "W")]; (split; [apply in_map_iff; eexists; split; [reflexivity|exact H]|]);
      unfold at_; rewrite <- sapp_assoc; apply prefix_app. }
    intros s Hs. destruct m, me; cbn in Hs; repeat destruct Hs as [<-|Hs]; try contradiction; 
      (split; [repeat (apply Forall_cons || apply Forall_nil); cbn; try tauto; exists "guess:Pt"; (split; [|reflexivity]); cbn; tauto
              | first [apply U; cbn; tauto | repeat (apply Forall_cons || apply Forall_nil); cbn; tauto]]). }
  constructor.
  - apply C42_outputs; auto.
  - intros a b H. rewrite thermo_outs. apply in_or_app. left. destruct m; cbn in H; repeat destruct H as [H|H]; try contradiction; injection H as <- <-; inp.
  - intros a b H. split; [destruct m, me; cbn in H; repeat destruct H as [H|H]; try contradiction; injection H as <- <-; inp|].
    rewrite thermo_outs. rewrite in_app_iff. intros [K|K].
    + destruct m; cbn in H; repeat destruct H as [H|H]; try contradiction; injection H as <- <-; cbn in K; repeat destruct K as [K|K]; try discriminate; contradiction.
    + revert K. apply (clash_spec) with (xs := [b]); [auto| |cbn; auto]. destruct m; cbn in H; repeat destruct H as [H|H]; try contradiction; injection H as <- <-; reflexivity.
  - destruct m; cbn; repeat constructor; cbn; tauto.
  - intros s p Hs Hp. eapply Forall_forall; [apply PP; exact Hs|auto].
  - intros s p Hs Hp. eapply Forall_forall; [apply PP; exact Hs|auto].
Qed.
(* shared inputs with different units or initial values are settled by set_input_defaults: setup raises no ambiguity error *)
Definition decls_of (g : group) : list (string * (string * string)) :=
  flat_map (fun s => map (fun m => (gname (sname s) (pin s) (fst m), snd m)) (sins s)) (subs g).
Definition amb_ok (ds : list string) (ins : list string) (l : list (string * (string * string))) : bool :=
  forallb (fun a => memb (fst a) ds || negb (memb (fst a) ins) ||
    forallb (fun b => negb (String.eqb (fst a) (fst b)) || (String.eqb (fst (snd a)) (fst (snd b)) && String.eqb (snd (snd a)) (snd (snd b)))) l) l.
Theorem C42_unambiguous tp me m fl (Hfl : ok_name fl) : unambiguous (thermo tp me m fl).
Proof.
  intros x Hx Hd s t y z uv uv' Hs Ht Hy Hz Ey Ez. apply C42_inputs in Hx; [|auto].
  assert (K : amb_ok (defaults (thermo tp me m fl)) (needed m ++ stray m) (decls_of (thermo tp me m fl)) = true) by (destruct m, me; vm_compute; reflexivity).
  unfold amb_ok in K. rewrite forallb_forall in K.
  assert (D : forall s y uv, In s (subs (thermo tp me m fl)) -> In (y, uv) (sins s) -> In (gname (sname s) (pin s) y, uv) (decls_of (thermo tp me m fl))).
  { clear. intros s y uv Hs Hy. unfold decls_of. apply in_flat_map. exists s. split; [auto|]. apply in_map_iff. exists (y, uv). auto. }
  pose proof (D s y uv Hs Hy) as D1. pose proof (D t z uv' Ht Hz) as D2. rewrite Ey in D1. rewrite Ez in D2.
  specialize (K _ D1). cbn [fst snd] in K. apply memb_not in Hd. apply memb_in in Hx. rewrite Hd, Hx in K. cbn [orb negb] in K.
  rewrite forallb_forall in K. specialize (K _ D2). cbn [fst snd] in K. rewrite String.eqb_refl in K. cbn [negb orb] in K.
  apply andb_true_iff in K as [K1 K2]. apply String.eqb_eq in K1, K2. destruct uv, uv'; cbn in *. congruence.
Qed.

(* ---- a concrete solution (hypotheses are met), and the composition of static stations ---- *)
(* an ideal gas in the TABULAR method's (SI) units *)
Definition gas (T P : R) (comp : nat -> R) (p : string -> R) : Prop :=
  p "h" = 1000 * T /\ p "S" = 1000 * ln T - 287 * ln P /\ p "gamma" = 7/5 /\ p "Cp" = 1000 /\ p "Cv" = 713 /\ p "rho" = P / (287 * T) /\ p "R" = 287.
(* T = 300 K, P = 1e5 Pa, ht = 310 kJ/kg; the two compositions are arbitrary *)
Definition wst (c c' : R) : state := fun x _ => lookup 0
  ([("T", 300); ("Ps", 100000); ("h", 1000 * 300); ("S", 1000 * ln 300 - 287 * ln 100000); ("base_thermo.S", 1000 * ln 300 - 287 * ln 100000);
    ("balance.lhs:T", 1000 * ln 300 - 287 * ln 100000); ("gamma", 7/5); ("Cp", 1000); ("Cv", 713); ("rho", 100000 / (287 * 300)); ("R", 287);
    ("composition", c); ("flow.composition", c'); ("ht", 310000); ("W", 10);
    ("V", sqrt (2 * (310000 - 1000 * 300))); ("Vsonic", sqrt (7/5 * 287 * 300)); ("MN", sqrt (2 * (310000 - 1000 * 300)) / sqrt (7/5 * 287 * 300));
    ("area", 10 / (100000 / (287 * 300) * sqrt (2 * (310000 - 1000 * 300))));
    ("s:T", 300); ("s:P", 100000); ("s:h", 1000 * 300); ("s:S", 1000 * ln 300 - 287 * ln 100000); ("s:gamma", 7/5); ("s:Cp", 1000); ("s:Cv", 713);
    ("s:rho", 100000 / (287 * 300)); ("s:R", 287); ("s:composition", c'); ("s:W", 10); ("s:V", sqrt (2 * (310000 - 1000 * 300)));
    ("s:Vsonic", sqrt (7/5 * 287 * 300)); ("s:MN", sqrt (2 * (310000 - 1000 * 300)) / sqrt (7/5 * 287 * 300));
    ("s:area", 10 / (100000 / (287 * 300) * sqrt (2 * (310000 - 1000 * 300))))]) x.
Lemma wst_solves c c' : solves (thermo gas TABULAR static_Ps "s") (wst c c').
Proof.
  assert (D : forall a : R, a / 1 = a) by (intros; field).
  split.
  - intros s Hs. cbn in Hs. repeat destruct Hs as [<-|Hs]; try contradiction.
    + change (gas (300 / 1) (100000 / 1) (fun _ => c / 1) (fun x => lout (base_sub gas TABULAR static_Ps) (wst c c') x 0%nat)). rewrite !D. unfold gas.
      change (1000 * 300 / 1 = 1000 * 300 /\ (1000 * ln 300 - 287 * ln 100000) / 1 = 1000 * ln 300 - 287 * ln 100000 /\ 7/5/1 = 7/5 /\ 1000/1 = 1000 /\ 713 /1 = 713 /\
              100000 / (287 * 300) / 1 = 100000 / (287 * 300) /\ 287/1 = 287). rewrite !D. repeat split; reflexivity.
    + change ((1000 * ln 300 - 287 * ln 100000) / ufac "cal/(g*degK)" = (1000 * ln 300 - 287 * ln 100000) / ufac "cal/(g*degK)"). reflexivity.
    + set (e := vget (lin ps_calc_sub (wst c c'))).
      assert (E1 : e (V "gamma") = 7/5) by (change (7/5/1 = 7/5); apply D). assert (E2 : e (V "R") = 287) by (change (287/1 = 287); apply D).
      assert (E3 : e (V "Ts") = 300) by (change (300/1 = 300); apply D). assert (E4 : e (V "ht") = 310000) by (change (310000/1 = 310000); apply D).
      assert (E5 : e (V "hs") = 1000 * 300) by (change (1000*300/1 = 1000*300); apply D). assert (E6 : e (V "W") = 10) by (change (10/1 = 10); apply D).
      assert (E7 : e (V "rho") = 100000 / (287 * 300)) by (change (100000 / (287 * 300)/1 = 100000 / (287 * 300)); apply D).
      assert (EV : pv_V e = sqrt (2 * (310000 - 1000 * 300))) by (unfold pv_V; rewrite E4, E5; destruct (Rle_dec _ _) as [|N]; [reflexivity|exfalso; apply N; lra]).
      assert (EVs : pv_Vsonic e = sqrt (7/5 * 287 * 300)) by (unfold pv_Vsonic; rewrite E1, E2, E3; reflexivity).
      cbn [ps_calc_sub srel]. intros o Ho. fold e. cbn [ps_calc compute]. unfold pv_compute. cbv zeta. rewrite EV, EVs, E6, E7.
      inlist Ho; vsimp; refine (_ : _ / 1 = _); rewrite D; reflexivity.
    + apply unit_sub_iff. intros x Hx k. cbn in Hx. repeat destruct Hx as [<-|Hx]; try reflexivity. contradiction.
    + apply unit_sub_iff. intros x Hx k. cbn in Hx. repeat destruct Hx as [<-|Hx]; try reflexivity. contradiction.
  - intros a b H k. cbn in H. repeat destruct H as [H|H]; try contradiction. injection H as <- <-. reflexivity.
Qed.
(* full claim: as for totals, the composition reported at a station is the composition the state was computed with. False for static
   stations: thermo.py:142-144 drops 'composition' from the promoted inputs of `flow`, so the station reports its initial value. *)
Theorem C42_static_composition_refuted :
  ~ (forall tp me m fl w, has "static" m = true -> solves (thermo tp me m fl) w -> same w (at_ fl "composition") "composition").
Proof.
  intros H. specialize (H gas TABULAR static_Ps "s" (wst 0 1) eq_refl (wst_solves 0 1) 0%nat). change (1 = 0) in H. lra.
Qed.
Example C42_nonvacuous : solves (thermo gas TABULAR static_Ps "s") (wst 0 0) /\ ok_name "s" /\ wst 0 0 (at_ "s" "h") 0%nat < wst 0 0 "ht" 0%nat /\
  0 < wst 0 0 (at_ "s" "gamma") 0%nat /\ 0 < wst 0 0 (at_ "s" "R") 0%nat /\ 0 < wst 0 0 (at_ "s" "T") 0%nat /\ wst 0 0 (at_ "s" "rho") 0%nat <> 0.
Proof.
  split; [apply wst_solves|]. split; [split; [reflexivity|discriminate]|].
  change (1000 * 300 < 310000 /\ 0 < 7/5 /\ 0 < 287 /\ 0 < 300 /\ 100000 / (287 * 300) <> 0). repeat split; lra.
Qed.
(* the same state also is one of the Mach number and area modes' solutions with that Mach number / area given *)
Lemma wst_MN c : solves (thermo gas TABULAR static_MN "s") (wst c c).
Proof.
  destruct (wst_solves c c) as [Hs Hc]. split; [|exact Hc]. intros s H. cbn in H. repeat destruct H as [<-|H]; try contradiction.
  - exact (Hs (base_sub gas TABULAR static_Ps) ltac:(inp)).
  - exact (Hs (balance_sub static_Ps) ltac:(inp)).
  - assert (D : forall a : R, a / 1 = a) by (intros; field).
    assert (P1 : 0 < sqrt (7/5 * 287 * 300)) by (apply sqrt_lt_R0; lra). assert (P2 : 0 < sqrt (2 * (310000 - 1000 * 300))) by (apply sqrt_lt_R0; lra).
    cbn [ps_MN_sub srel]. set (e := impl_env ps_resid_MN (lin ps_MN_sub (wst c c)) (lout ps_MN_sub (wst c c))).
    assert (E : e (V "gamma") = 7/5 /\ e (V "R") = 287 /\ e (V "Ts") = 300 /\ e (V "ht") = 310000 /\ e (V "hs") = 1000 * 300 /\ e (V "W") = 10 /\
                e (V "rho") = 100000 / (287 * 300) /\ e (V "MN") = sqrt (2 * (310000 - 1000 * 300)) / sqrt (7/5 * 287 * 300) /\
                e (V "V") = sqrt (2 * (310000 - 1000 * 300)) /\ e (V "Vsonic") = sqrt (7/5 * 287 * 300) /\ e (V "area") = 10 / (100000 / (287 * 300) * sqrt (2 * (310000 - 1000 * 300)))).
    { change (7/5/1 = 7/5 /\ 287/1 = 287 /\ 300/1 = 300 /\ 310000/1 = 310000 /\ 1000*300/1 = 1000*300 /\ 10/1=10 /\ 100000 / (287 * 300)/1 = 100000 / (287 * 300) /\
         sqrt (2 * (310000 - 1000 * 300)) / sqrt (7/5 * 287 * 300)/1 = sqrt (2 * (310000 - 1000 * 300)) / sqrt (7/5 * 287 * 300) /\
         sqrt (2 * (310000 - 1000 * 300))/1 = sqrt (2 * (310000 - 1000 * 300)) /\ sqrt (7/5 * 287 * 300)/1 = sqrt (7/5 * 287 * 300) /\
         10 / (100000 / (287 * 300) * sqrt (2 * (310000 - 1000 * 300)))/1 = 10 / (100000 / (287 * 300) * sqrt (2 * (310000 - 1000 * 300)))).
      rewrite !D. repeat split; reflexivity. }
    destruct E as (E1 & E2 & E3 & E4 & E5 & E6 & E7 & E8 & E9 & E10 & E11).
    assert (F : converged ps_resid_MN e (fun _ => 0)); [|exact F].
    apply C26_mach_mode_partial; rewrite ?E1, ?E2, ?E3, ?E4, ?E5, ?E6, ?E7, ?E8; try lra.
    + apply Rle_trans with (/ 1000); [apply Rinv_le_contravar; lra|].
      apply Rmult_le_reg_r with (sqrt (7/5 * 287 * 300)); [lra|].
      replace (sqrt (2 * (310000 - 1000 * 300)) / sqrt (7/5 * 287 * 300) * sqrt (7/5 * 287 * 300)) with (sqrt (2 * (310000 - 1000 * 300))) by (field; lra).
      assert (B1 : sqrt (7/5 * 287 * 300) <= sqrt (400 * 400)) by (apply sqrt_le_1_alt; lra). rewrite sqrt_square in B1 by lra.
      assert (B2 : sqrt (100 * 100) <= sqrt (2 * (310000 - 1000 * 300))) by (apply sqrt_le_1_alt; lra). rewrite sqrt_square in B2 by lra. lra.
    + unfold flow_state_ok. rewrite E1, E2, E3, E4, E5, E6, E7, E8, E9, E10, E11.
      split; [rewrite pow2_sqrt; lra|]. split; [rewrite pow2_sqrt; lra|]. split; [lra|]. split; field; repeat split; lra.
  - exact (Hs (flow_sub static_Ps "s") ltac:(inp)).
  - exact (Hs (flow_static_sub "s") ltac:(inp)).
Qed.
Example C42_nonvacuous_MN : solves (thermo gas TABULAR static_MN "s") (wst 0 0).
Proof. apply wst_MN. Qed.
Definition wtot : state := fun x _ => lookup 0
  [("T", 300); ("P", 100000); ("h", 1000 * 300); ("base_thermo.h", 1000 * 300); ("balance.lhs:T", 1000 * 300); ("S", 1000 * ln 300 - 287 * ln 100000); ("gamma", 7/5); ("Cp", 1000); ("Cv", 713); ("rho", 100000 / (287 * 300)); ("R", 287);
   ("s:T", 300); ("s:P", 100000); ("s:h", 1000 * 300); ("s:S", 1000 * ln 300 - 287 * ln 100000); ("s:gamma", 7/5); ("s:Cp", 1000); ("s:Cv", 713); ("s:rho", 100000 / (287 * 300)); ("s:R", 287)] x.
Example C42_nonvacuous_hP : solves (thermo gas TABULAR total_hP "s") wtot.
Proof.
  assert (D : forall a : R, a / 1 = a) by (intros; field). split.
  - intros s Hs. cbn in Hs. repeat destruct Hs as [<-|Hs]; try contradiction.
    + change (gas (300 / 1) (100000 / 1) (fun _ => 0 / 1) (fun x => lout (base_sub gas TABULAR total_hP) wtot x 0%nat)). rewrite !D. unfold gas.
      change (1000 * 300 / 1 = 1000 * 300 /\ (1000 * ln 300 - 287 * ln 100000) / 1 = 1000 * ln 300 - 287 * ln 100000 /\ 7/5/1 = 7/5 /\ 1000/1 = 1000 /\ 713 /1 = 713 /\
              100000 / (287 * 300) / 1 = 100000 / (287 * 300) /\ 287/1 = 287). rewrite !D. repeat split; reflexivity.
    + reflexivity.
    + apply unit_sub_iff. intros x Hx k. cbn in Hx. repeat destruct Hx as [<-|Hx]; try reflexivity. contradiction.
  - intros a b H k. cbn in H. repeat destruct H as [H|H]; try contradiction. injection H as <- <-. reflexivity.
Qed.
