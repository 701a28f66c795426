(* C76: the second law. What separates two equilibrium states of one gas: more pressure at the same entropy needs work, losing pressure without
   losing enthalpy makes entropy, and so no duct, compressor, turbine stage or nozzle of a converged CEA model destroys entropy. *)
From Coq Require Import Lia.
From Verif Require Import Lib_R Lib_Loop Spec_Wire Model_Thermo Proofs_Wire Prop_Static Prop_Thermo Model_Equil Proofs_Equil Proofs_Props Proofs_Thermo Prop_Equil Model_Cea Proofs_Cea Proofs_Stable Prop_Cea.
Open Scope string_scope. Open Scope list_scope. Open Scope R_scope.

Section G.
Variable g : gas.
Hypothesis Hg : gas_ok g.
(* at fixed mole numbers, enthalpy less T times entropy is least at T *)
Lemma exergy_min Tlo Thi m a b : 0 < Tlo -> regular_on g Tlo Thi -> Tlo <= a <= Thi -> Tlo <= b <= Thi -> (forall j, (j < np g)%nat -> 0 < m j) ->
  enth g m a - a * entr g m a <= enth g m b - a * entr g m b.
Proof.
  intros H0 Hr Ha Hb Hm. destruct (Rtotal_order a b) as [L|[->|L]]; [| lra |].
  - assert (R' : regular_on g a b) by (intros t Ht; apply Hr; lra). pose proof (tg_up g Hg a b ltac:(lra) R' m 0 Hm). lra.
  - assert (R' : regular_on g b a) by (intros t Ht; apply Hr; lra). pose proof (tg_low g Hg b a ltac:(lra) R' m 0 Hm). lra.
Qed.
Lemma t_phi m t : t * phi g m t = enth g m t - t * entr g m t.
Proof. unfold phi, enth, entr. rewrite <- !nsum_scal, <- nsum_minus. apply nsum_ext. intros; ring. Qed.
Lemma kmix_pressure m P1 P2 : 0 < P1 -> 0 < P2 -> kmix g m P2 - kmix g m P1 = nsum (np g) m * ln (P2 / P1).
Proof.
  intros H1 H2. unfold kmix. rewrite <- nsum_minus, <- nsum_scal_r. apply nsum_ext. intros j Hj. pose proof pref_pos as PP. change (101325 / 100000) with P_REF.
  rewrite !ln_div by assumption. ring.
Qed.
Lemma two_states Tlo Thi T1 T2 P1 P2 c e1 e2 : 0 < Tlo -> regular_on g Tlo Thi -> Tlo <= T1 <= Thi -> Tlo <= T2 <= Thi -> equilibrium g T1 P1 c e1 -> equilibrium g T2 P2 c e2 ->
  T1 * (prop_of g e2 "S" - prop_of g e1 "S") + T1 * (R_ENG * e2 (V "n_moles")) * ln (P2 / P1) <= prop_of g e2 "h" - prop_of g e1 "h".
Proof.
  intros H0 Hr HT1 HT2 E1 E2. pose proof (fun j => n_pos g T1 P1 c e1 E1 j) as Q1. pose proof (fun j => n_pos g T2 P2 c e2 E2 j) as Q2.
  assert (Z1 : 0 < P1) by (destruct E1 as ((A & _) & _ & _ & _ & B & _); rewrite <- B; exact A). assert (Z2 : 0 < P2) by (destruct E2 as ((A & _) & _ & _ & _ & B & _); rewrite <- B; exact A).
  pose proof (gibbs_two g Hg T1 P1 c e1 _ E1 Q2 (elems_c g _ _ _ _ E2)) as G1. rewrite !gibbs_split in G1.
  rewrite (S_val g Hg T1 P1 c e1 E1), (S_val g Hg T2 P2 c e2 E2), !h_val, (moles g T2 P2 c e2 E2).
  assert (X1 : e1 (V "T") = T1) by apply E1. assert (X2 : e2 (V "T") = T2) by apply E2. rewrite X1, X2.
  set (n1 := fun j => e1 (I "n" j)) in *. set (n2 := fun j => e2 (I "n" j)) in *. pose proof reng_pos as RE.
  apply (Rmult_le_compat_l T1) in G1; [|lra]. rewrite !Rmult_plus_distr_l, !t_phi in G1.
  pose proof (exergy_min Tlo Thi n2 T1 T2 H0 Hr HT1 HT2 Q2) as X. pose proof (kmix_pressure n2 P1 P2 Z1 Z2) as K. apply (f_equal (Rmult T1)) in K.
  assert (F : T1 * (entr g n2 T2 - kmix g n2 P2 - (entr g n1 T1 - kmix g n1 P1)) + T1 * (nsum (np g) n2 * ln (P2 / P1)) <= enth g n2 T2 - enth g n1 T1) by lra.
  apply (Rmult_le_compat_l R_ENG) in F; [|lra]. lra.
Qed.
End G.

(* ---------- two states of the gas as the property calculation gives them ---------- *)
(* the enthalpy difference is at least T1 times the entropy difference plus the work of an ideal gas at T1 *)
Theorem C76_states (g : gas) Tlo Thi T1 T2 P1 P2 c p q : gas_ok g -> 0 < Tlo -> proper_between g Tlo Thi -> Tlo <= T1 <= Thi -> Tlo <= T2 <= Thi -> cea_tp g T1 P1 c p -> cea_tp g T2 P2 c q ->
  T1 * (q "S" - p "S") + T1 * ((19872035 / 10000000) / (83144598 / 10000) * q "R") * ln (P2 / P1) <= q "h" - p "h".
Proof.
  intros G H0 Hr HT1 HT2 H1 H2. apply cea_equilibrium in H1 as (e & He & Hp). apply cea_equilibrium in H2 as (e' & He' & Hq). rewrite !Hp, !Hq by (cbn; tauto).
  assert (VR : prop_of g e' "R" = R_SI * e' (V "n_moles")) by (unfold prop_of; cbn [props_calcs compute]; unfold calcs_compute; cbv zeta; vsimp; reflexivity).
  rewrite VR. replace (19872035 / 10000000 / (83144598 / 10000) * (R_SI * e' (V "n_moles"))) with (R_ENG * e' (V "n_moles")) by (unfold R_ENG, R_SI; field).
  exact (two_states g G Tlo Thi T1 T2 P1 P2 c e e' H0 (proper_regular g _ _ Hr) HT1 HT2 He He').
Qed.
Print Assumptions C76_states.
(* the same at two stations, of one model or of two, in SI units. The code keeps the gas constant twice, in cal and in J: kR is their ratio *)
Definition kR : R := 19872035 / 10000000 * ufac "cal/g" / (83144598 / 10000).
Lemma kR_near : 9999 / 10000 < kR < 10001 / 10000.
Proof. unfold kR. change (ufac "cal/g") with (4184 / 10 ^ 3 * 10 ^ 3). lra. Qed.
Theorem C76_stations (g : gas) Tlo Thi c c' w w' fl fl' : gas_ok g -> 0 < Tlo -> proper_between g Tlo Thi -> station (cea_tp g) CEA c w fl -> station (cea_tp g) CEA c' w' fl' -> (forall i, (i < ne g)%nat -> c i = c' i) ->
  Tlo <= w (at_ fl "T") 0%nat <= Thi -> Tlo <= w' (at_ fl' "T") 0%nat <= Thi ->
  w (at_ fl "T") 0%nat * (w' (at_ fl' "S") 0%nat - w (at_ fl "S") 0%nat) + w (at_ fl "T") 0%nat * (kR * w' (at_ fl' "R") 0%nat) * ln (w' (at_ fl' "P") 0%nat / w (at_ fl "P") 0%nat) <= w' (at_ fl' "h") 0%nat - w (at_ fl "h") 0%nat.
Proof.
  intros G H0 Hr (p & Hp & Ep) (q & Hq & Eq) E HT HT'. apply (cea_comp g _ _ c c') in Hp; [|exact E].
  pose proof (C76_states g Tlo Thi _ _ _ _ _ _ _ G H0 Hr HT HT' Hp Hq) as K. rewrite (Ep "h"), (Ep "S"), (Eq "h"), (Eq "S"), (Eq "R") by (cbn; tauto).
  change (prop_unit CEA "h") with "cal/g". change (prop_unit CEA "S") with "cal/(g*degK)". change (prop_unit CEA "R") with "(N*m)/(kg*degK)". change (ufac "cal/(g*degK)") with (ufac "cal/g"). change (ufac "(N*m)/(kg*degK)") with 1.
  pose proof (ufac_pos "cal/g") as U. pose proof (proj1 Hp) as P1. pose proof (proj1 Hq) as P2. change (p_unit CEA) with "bar" in *. pose proof (ufac_pos "bar") as B.
  replace (w' (at_ fl' "P") 0%nat / ufac "bar" / (w (at_ fl "P") 0%nat / ufac "bar")) with (w' (at_ fl' "P") 0%nat / w (at_ fl "P") 0%nat) in K.
  2:{ field. split; [lra|]. intros Q. rewrite Q in P1. unfold Rdiv in P1. lra. }
  apply (Rmult_le_compat_r (ufac "cal/g")) in K; [|lra]. unfold kR.
  set (t := w (at_ fl "T") 0%nat) in *. set (l := ln (w' (at_ fl' "P") 0%nat / w (at_ fl "P") 0%nat)) in *. 
  replace (t * (q "S" * ufac "cal/g" - p "S" * ufac "cal/g") + t * (19872035 / 10000000 * ufac "cal/g" / (83144598 / 10000) * (q "R" * 1)) * l)
    with ((t * (q "S" - p "S") + t * (19872035 / 10000000 / (83144598 / 10000) * q "R") * l) * ufac "cal/g") by field. lra.
Qed.
Print Assumptions C76_stations.

(* one gas seen at two stations, inside a range of temperatures where the data belong together *)
Definition in_range (g : gas) (Tlo Thi : R) (w : state) (fl : string) (comp : nat -> R) : Prop :=
  station (cea_tp g) CEA comp w fl /\ Tlo <= w (at_ fl "T") 0%nat <= Thi.
Section Pair.
Variables (g : gas) (Tlo Thi : R).
Hypothesis G : gas_ok g.
Hypothesis H0 : 0 < Tlo.
Hypothesis Hr : proper_between g Tlo Thi.
Variables (w w' : state) (fl fl' : string) (c c' : nat -> R).
Hypothesis S1 : in_range g Tlo Thi w fl c.
Hypothesis S2 : in_range g Tlo Thi w' fl' c'.
Hypothesis E : forall i, (i < ne g)%nat -> c i = c' i.
Let h := w (at_ fl "h") 0%nat. Let h' := w' (at_ fl' "h") 0%nat.
Let s := w (at_ fl "S") 0%nat. Let s' := w' (at_ fl' "S") 0%nat.
Let P := w (at_ fl "P") 0%nat. Let P' := w' (at_ fl' "P") 0%nat.
Let T := w (at_ fl "T") 0%nat. Let T' := w' (at_ fl' "T") 0%nat.
Let r := w (at_ fl "R") 0%nat. Let r' := w' (at_ fl' "R") 0%nat.
Lemma pair_facts : 0 < P /\ 0 < P' /\ 0 < T /\ 0 < T' /\ 0 < kR * r /\ 0 < kR * r' /\
  T * (s' - s) + T * (kR * r') * ln (P' / P) <= h' - h /\ h' - h <= T' * (s' - s) + T' * (kR * r) * ln (P' / P).
Proof.
  destruct S1 as [A1 B1], S2 as [A2 B2]. destruct (C61_ideal_gas g c w fl G A1 ltac:(lra)) as (I1 & I2 & I3). destruct (C61_ideal_gas g c' w' fl' G A2 ltac:(lra)) as (J1 & J2 & J3).
  pose proof kR_near as KN. fold T r P in I1, I2, I3, B1. fold T' r' P' in J1, J2, J3, B2.
  assert (Pp : 0 < P) by (rewrite I1; repeat apply Rmult_lt_0_compat; lra). assert (Pp' : 0 < P') by (rewrite J1; repeat apply Rmult_lt_0_compat; lra).
  pose proof (C76_stations g Tlo Thi c c' w w' fl fl' G H0 Hr A1 A2 E B1 B2) as K1. pose proof (C76_stations g Tlo Thi c' c w' w fl' fl G H0 Hr A2 A1 (fun i Hi => eq_sym (E i Hi)) B2 B1) as K2.
  fold T r P h s T' r' P' h' s' in K1, K2. assert (L : ln (P / P') = - ln (P' / P)) by (rewrite !ln_div by assumption; ring). rewrite L in K2.
  do 4 (split; [lra|]). split; [apply Rmult_lt_0_compat; lra|]. split; [apply Rmult_lt_0_compat; lra|]. split; lra.
Qed.
Lemma ln_le0 : 0 < P -> 0 < P' -> P' <= P -> ln (P' / P) <= 0.
Proof. intros A B Hle. rewrite ln_div by assumption. destruct Hle as [L|EQ]; [pose proof (ln_increasing _ _ B L); lra|rewrite EQ; lra]. Qed.
(* no less enthalpy at no more pressure: no less entropy *)
Lemma more_entropy : h <= h' -> P' <= P -> s <= s' /\ (h < h' \/ P' < P -> s < s').
Proof.
  intros Hh HP. destruct pair_facts as (A & B & C & D & F & F' & K1 & K2). pose proof (ln_le0 A B HP) as L0.
  assert (Z : 0 <= T' * (kR * r) * - ln (P' / P)) by (apply Rmult_le_pos; [left; apply Rmult_lt_0_compat; lra|lra]).
  assert (K : (h' - h) + T' * (kR * r) * - ln (P' / P) <= T' * (s' - s)) by lra. split.
  - apply (Rmult_le_reg_l T'); lra.
  - intros [L|L]; apply (Rmult_lt_reg_l T'); try lra. assert (Z' : 0 < T' * (kR * r) * - ln (P' / P)).
    { apply Rmult_lt_0_compat; [apply Rmult_lt_0_compat; lra|]. pose proof (ln_increasing _ _ B L) as Q. rewrite ln_div by assumption. lra. } lra.
Qed.
(* no less entropy at no less pressure: no less enthalpy *)
Lemma more_enthalpy : s <= s' -> P <= P' -> h <= h' /\ (s < s' \/ P < P' -> h < h').
Proof.
  intros Hs HP. destruct pair_facts as (A & B & C & D & F & F' & K1 & K2).
  assert (L0 : 0 <= ln (P' / P)) by (rewrite ln_div by assumption; destruct HP as [L|EQ]; [pose proof (ln_increasing _ _ A L); lra|rewrite EQ; lra]).
  assert (Z : 0 <= T * (kR * r') * ln (P' / P)) by (apply Rmult_le_pos; [left; apply Rmult_lt_0_compat; lra|lra]).
  assert (Y : 0 <= T * (s' - s)) by (apply Rmult_le_pos; lra). split; [lra|]. intros [L|L].
  - assert (0 < T * (s' - s)) by (apply Rmult_lt_0_compat; lra). lra.
  - assert (0 < T * (kR * r') * ln (P' / P)) by (apply Rmult_lt_0_compat; [apply Rmult_lt_0_compat; lra|]; pose proof (ln_increasing _ _ A L) as Q; rewrite ln_div by assumption; lra). lra.
Qed.
End Pair.

(* an isentropic compression takes work, between that of an ideal gas with the constants at one end and at the other *)
Theorem C76_isentropic (g : gas) Tlo Thi c c' w w' fl fl' : gas_ok g -> 0 < Tlo -> proper_between g Tlo Thi -> in_range g Tlo Thi w fl c -> in_range g Tlo Thi w' fl' c' -> (forall i, (i < ne g)%nat -> c i = c' i) ->
  let x y := w (at_ fl y) 0%nat in let x' y := w' (at_ fl' y) 0%nat in
  x "S" = x' "S" -> x "P" < x' "P" ->
  x "h" < x' "h" /\ x "T" * (kR * x' "R") * ln (x' "P" / x "P") <= x' "h" - x "h" <= x' "T" * (kR * x "R") * ln (x' "P" / x "P").
Proof.
  intros G H0 Hr S1 S2 E x x' HS HP. subst x x'. cbv beta in *. destruct (pair_facts g Tlo Thi G H0 Hr w w' fl fl' c c' S1 S2 E) as (A & B & C & D & F & F' & K1 & K2).
  split; [apply (more_enthalpy g Tlo Thi G H0 Hr w w' fl fl' c c' S1 S2 E); [lra|lra|right; exact HP]|].
  rewrite HS in K1, K2. split; lra.
Qed.
Print Assumptions C76_isentropic.
(* a stream that keeps its enthalpy, or gains some, and loses pressure, or keeps it, gains entropy *)
Theorem C76_loss (g : gas) Tlo Thi c c' w w' fl fl' : gas_ok g -> 0 < Tlo -> proper_between g Tlo Thi -> in_range g Tlo Thi w fl c -> in_range g Tlo Thi w' fl' c' -> (forall i, (i < ne g)%nat -> c i = c' i) ->
  let x y := w (at_ fl y) 0%nat in let x' y := w' (at_ fl' y) 0%nat in
  x "h" <= x' "h" -> x' "P" <= x "P" -> x "S" <= x' "S" /\ (x "h" < x' "h" \/ x' "P" < x "P" -> x "S" < x' "S").
Proof. intros G H0 Hr S1 S2 E x x' Hh HP. exact (more_entropy g Tlo Thi G H0 Hr w w' fl fl' c c' S1 S2 E Hh HP). Qed.
Print Assumptions C76_loss.
(* where static and total state share their entropy, a moving stream's static pressure is below its total pressure *)
Theorem C76_static_pressure (g : gas) Tlo Thi comp w tot stat : gas_ok g -> 0 < Tlo -> proper_between g Tlo Thi -> in_range g Tlo Thi w tot comp -> in_range g Tlo Thi w stat comp ->
  w (at_ stat "S") 0%nat = w (at_ tot "S") 0%nat -> static_ok w stat (w (at_ tot "h") 0%nat) -> w (at_ stat "V") 0%nat <> 0 -> w (at_ stat "P") 0%nat < w (at_ tot "P") 0%nat.
Proof.
  intros G H0 Hr S1 S2 ES (B & _) HV. destruct (Rlt_or_le (w (at_ stat "P") 0%nat) (w (at_ tot "P") 0%nat)) as [L|L]; [exact L|exfalso].
  destruct (more_enthalpy g Tlo Thi G H0 Hr w w tot stat comp comp S1 S2 (fun _ _ => eq_refl) ltac:(lra) L) as [K _].
  assert (V2 : 0 < w (at_ stat "V") 0%nat ^ 2) by (rewrite <- Rsqr_pow2; apply Rsqr_pos_lt; exact HV). lra.
Qed.
Print Assumptions C76_static_pressure.
