(* Claims C61 (the CEA property calculation is a function and an ideal gas), C62 (it increases with temperature, so temperatures found from
   enthalpy or entropy are unique), C63 (stability: heat capacities and speed of sound), C64 (effect of pressure), for the equilibrium of any
   gas. A gas (Model_Equil.gas) gives the number of species np and of elements ne, the stoichiometry aij (element, species) and each species'
   enthalpy H0 and entropy S0 and heat capacity Cp0 (divided by R T, R and R). *)
From Coq Require Import Lia FunctionalExtensionality.
From Verif Require Import Lib_R Lib_Loop Spec_Wire Model_Thermo Proofs_Wire Prop_Static Prop_Thermo Model_Equil Proofs_Equil Proofs_Props Proofs_Thermo Prop_Equil Model_Cea Proofs_Cea Proofs_Stable.
Open Scope string_scope. Open Scope list_scope. Open Scope R_scope.

(* ---------- C61 ---------- *)
(* whatever the starting point, two converged property calculations at the same temperature, pressure and composition agree *)
Theorem C61_function (g : gas) T P c c' p q : gas_ok g -> cea_tp g T P c p -> cea_tp g T P c' q -> (forall i, (i < ne g)%nat -> c i = c' i) ->
  forall x, In x ["h"; "S"; "gamma"; "Cp"; "Cv"; "rho"; "R"] -> p x = q x.
Proof.
  intros G H1 H2 E x Hx. apply cea_equilibrium in H1 as (e & He & Hp). apply cea_equilibrium in H2 as (e' & He' & Hq).
  rewrite Hp, Hq by exact Hx. apply (same_props g G T P c c' e e' He He' E). exact Hx.
Qed.
(* so two stations of one model, or of two runs, with the same temperature, pressure and composition have the same properties (SI) *)
Theorem C61_stations (g : gas) c c' w w' fl fl' : gas_ok g -> station (cea_tp g) CEA c w fl -> station (cea_tp g) CEA c' w' fl' -> (forall i, (i < ne g)%nat -> c i = c' i) ->
  w (at_ fl "T") 0%nat = w' (at_ fl' "T") 0%nat -> w (at_ fl "P") 0%nat = w' (at_ fl' "P") 0%nat ->
  forall x, In x ["h"; "S"; "gamma"; "Cp"; "Cv"; "rho"; "R"] -> w (at_ fl x) 0%nat = w' (at_ fl' x) 0%nat.
Proof.
  intros G (p & Hp & Ep) (q & Hq & Eq) E ET EP x Hx. rewrite (Ep x Hx), (Eq x Hx). f_equal. rewrite ET, EP in Hp. exact (C61_function g _ _ _ _ _ _ G Hp Hq E x Hx).
Qed.
(* every CEA station satisfies the ideal gas law (SI: Pa, kg/m3, J/kg/K, K), with positive density and gas constant *)
Theorem C61_ideal_gas (g : gas) c w fl : gas_ok g -> station (cea_tp g) CEA c w fl -> 0 < w (at_ fl "T") 0%nat ->
  w (at_ fl "P") 0%nat = w (at_ fl "rho") 0%nat * w (at_ fl "R") 0%nat * w (at_ fl "T") 0%nat /\ 0 < w (at_ fl "R") 0%nat /\ 0 < w (at_ fl "rho") 0%nat.
Proof.
  intros G (p & Hp & Ep) HT. rewrite (Ep "rho"), (Ep "R") by (cbn; tauto). assert (HP := proj1 Hp). apply cea_equilibrium in Hp as (e & He & Hq).
  rewrite !Hq by (cbn; tauto). pose proof (moles g _ _ _ _ He) as EM. pose proof (N_pos g G _ _ _ _ He) as NP. rewrite <- EM in NP.
  assert (ET : e (V "T") = w (at_ fl "T") 0%nat) by apply He. assert (EP : e (V "P") = w (at_ fl "P") 0%nat / ufac "bar") by apply He.
  pose proof (proj1 (C24_ideal_gas g e (fun _ => 0)) NP ltac:(rewrite ET; exact HT)) as IG. pose proof (proj1 (proj2 (C24_ideal_gas g e (fun _ => 0)))) as IR.
  fold (prop_of g e "rho") (prop_of g e "R") in IG, IR. change (p_unit CEA) with "bar" in HP. rewrite ET, EP in IG. 
  change (prop_unit CEA "rho") with "g/cm**3". change (prop_unit CEA "R") with "(N*m)/(kg*degK)". change (ufac "g/cm**3") with (10 ^ 3). change (ufac "(N*m)/(kg*degK)") with 1.
  rewrite u_bar in *. assert (Rp : 0 < prop_of g e "R") by (rewrite IR; apply Rmult_lt_0_compat; lra).
  set (rho := prop_of g e "rho") in *. set (r := prop_of g e "R") in *. set (t := w (at_ fl "T") 0%nat) in *. set (pp := w (at_ fl "P") 0%nat) in *.
  assert (Pp : pp = rho * 10 ^ 3 * (r * 1) * t) by (replace (rho * 10 ^ 3 * (r * 1) * t) with (rho * r * t * 10 ^ 3) by ring; rewrite IG; field).
  split; [exact Pp|]. split; [lra|]. assert (0 < pp) by (apply (Rmult_lt_reg_r (/ 10 ^ 5)); [lra|unfold Rdiv in HP; lra]).
  apply (Rmult_lt_reg_r (r * 1 * t)); [apply Rmult_lt_0_compat; lra|]. rewrite Rmult_0_l. replace (rho * 10 ^ 3 * (r * 1 * t)) with (rho * 10 ^ 3 * (r * 1) * t) by ring. lra.
Qed.

(* ---------- C62 ---------- *)
(* between two temperatures, the species' data belong together (C15) and no heat capacity is negative or zero *)
Definition proper_between (g : gas) (T1 T2 : R) : Prop := forall T, T1 <= T <= T2 -> forall j, (j < np g)%nat ->
  derivable_pt_lim (fun t => t * H0 g j t) T (Cp0 g j T) /\ derivable_pt_lim (S0 g j) T (Cp0 g j T / T) /\ 0 < Cp0 g j T.
Lemma proper_regular g T1 T2 : proper_between g T1 T2 -> regular_on g T1 T2.
Proof. intros H T HT. split; [intros j Hj|intros j Hj]; destruct (H T HT j Hj) as (A & B & C); auto. Qed.
(* enthalpy and entropy of the reacting mixture strictly increase with temperature *)
Theorem C62_increasing (g : gas) T1 T2 P c p q : gas_ok g -> 0 < T1 < T2 -> proper_between g T1 T2 -> cea_tp g T1 P c p -> cea_tp g T2 P c q -> p "h" < q "h" /\ p "S" < q "S".
Proof.
  intros G HT Hr H1 H2. apply cea_equilibrium in H1 as (e & He & Hp). apply cea_equilibrium in H2 as (e' & He' & Hq). rewrite !Hp, !Hq by (cbn; tauto).
  split; [apply (h_increases g G T1 T2 P c)|apply (S_increases g G T1 T2 P c)]; auto; apply proper_regular; exact Hr.
Qed.
Lemma cea_comp g T P c c' p : (forall i, (i < ne g)%nat -> c i = c' i) -> cea_tp g T P c p -> cea_tp g T P c' p.
Proof. intros E (HP & w & H1 & H2 & H3 & H4 & H5). split; [exact HP|]. exists w. repeat split; auto; try apply H1. intros i Hi. rewrite H4, E by exact Hi. reflexivity. Qed.
Lemma station_T g c c' w w' fl fl' Tlo Thi x : gas_ok g -> station (cea_tp g) CEA c w fl -> station (cea_tp g) CEA c' w' fl' -> (forall i, (i < ne g)%nat -> c i = c' i) ->
  0 < Tlo -> proper_between g Tlo Thi -> Tlo <= w (at_ fl "T") 0%nat <= Thi -> Tlo <= w' (at_ fl' "T") 0%nat <= Thi ->
  w (at_ fl "P") 0%nat = w' (at_ fl' "P") 0%nat -> In x ["h"; "S"] -> w (at_ fl x) 0%nat = w' (at_ fl' x) 0%nat -> w (at_ fl "T") 0%nat = w' (at_ fl' "T") 0%nat.
Proof.
  intros G (p & Hp & Ep) (q & Hq & Eq) E H0 Hr HT HT' EP Hx EX.
  assert (Hx' : In x prop_names) by (cbn in Hx |- *; tauto). rewrite (Ep x Hx'), (Eq x Hx') in EX. apply Rmult_eq_reg_r in EX; [|apply ufac_n0].
  apply (cea_comp g _ _ c c') in Hp; [|exact E]. rewrite <- EP in Hq.
  set (t := w (at_ fl "T") 0%nat) in *. set (t' := w' (at_ fl' "T") 0%nat) in *.
  destruct (Rtotal_order t t') as [L|[L|L]]; [exfalso|exact L|exfalso].
  - destruct (C62_increasing g t t' _ _ _ _ G ltac:(lra) ltac:(intros T Ht; apply Hr; lra) Hp Hq) as [A B]. cbn in Hx. destruct Hx as [<-|[<-|[]]]; lra.
  - destruct (C62_increasing g t' t _ _ _ _ G ltac:(lra) ltac:(intros T Ht; apply Hr; lra) Hq Hp) as [A B]. cbn in Hx. destruct Hx as [<-|[<-|[]]]; lra.
Qed.
(* so the flow station that total_hP or total_SP finds from enthalpy (entropy), pressure and composition is unique *)
Definition found (m : mode) : string := match m with total_hP => "h" | _ => "S" end.
Theorem C62_total_unique (g : gas) m fl w w' Tlo Thi : gas_ok g -> In m [total_hP; total_SP] -> Spec_Wire.solves (thermo (cea_tp g) CEA m fl) w -> Spec_Wire.solves (thermo (cea_tp g) CEA m fl) w' ->
  0 < Tlo -> proper_between g Tlo Thi -> Tlo <= w (at_ fl "T") 0%nat <= Thi -> Tlo <= w' (at_ fl "T") 0%nat <= Thi ->
  w (found m) 0%nat = w' (found m) 0%nat -> w "P" 0%nat = w' "P" 0%nat -> (forall i, (i < ne g)%nat -> w "composition" i = w' "composition" i) ->
  forall x, In x ["T"; "P"; "h"; "S"; "gamma"; "Cp"; "Cv"; "rho"; "R"] -> w (at_ fl x) 0%nat = w' (at_ fl x) 0%nat.
Proof.
  intros G Hm S S' H0 Hr HT HT' EX EP EC.
  assert (K : exists c c', station (cea_tp g) CEA c w fl /\ station (cea_tp g) CEA c' w' fl /\ (forall i, (i < ne g)%nat -> c i = c' i) /\ w (at_ fl "P") 0%nat = w' (at_ fl "P") 0%nat /\
    w (at_ fl (found m)) 0%nat = w' (at_ fl (found m)) 0%nat /\ In (found m) ["h"; "S"]).
  { destruct Hm as [<-|[<-|[]]].
    - apply C42_total_hP in S as (A1 & A2 & A3 & A4). apply C42_total_hP in S' as (B1 & B2 & B3 & B4). cbn [found] in *. do 2 eexists. split; [exact A1|]. split; [exact B1|].
      split; [intros i Hi; rewrite A4, B4; auto|]. split; [rewrite A3, B3; auto|]. split; [congruence|cbn; auto].
    - apply C42_total_SP in S as (A1 & A2 & A3 & A4). apply C42_total_SP in S' as (B1 & B2 & B3 & B4). cbn [found] in *. do 2 eexists. split; [exact A1|]. split; [exact B1|].
      split; [intros i Hi; rewrite A4, B4; auto|]. split; [rewrite A3, B3; auto|]. split; [congruence|cbn; auto]. }
  destruct K as (c & c' & K1 & K2 & K3 & K4 & K5 & K6).
  assert (ET := station_T g c c' w w' fl fl Tlo Thi (found m) G K1 K2 K3 H0 Hr HT HT' K4 K6 K5).
  intros x Hx. destruct Hx as [<-|[<-|Hx]]; [exact ET|exact K4|]. exact (C61_stations g c c' w w' fl fl G K1 K2 K3 ET K4 x Hx).
Qed.
(* and so is the static state at given entropy, total enthalpy, flow and static pressure *)
Lemma sqrt_same a b : 0 <= a -> 0 <= b -> a ^ 2 = b ^ 2 -> a = b.
Proof. intros Ha Hb E. apply Rsqr_inj; auto. unfold Rsqr. lra. Qed.

(* ---------- C63 ---------- *)
(* Stability: if every species' heat capacity is above R, equilibrium heat capacities satisfy 0 < Cv <= Cp, Cp is at least that of the mixture with
   reactions frozen, and the isentropic exponent is positive *)
Theorem C63_stable (g : gas) T P c p : gas_ok g -> cea_tp g T P c p -> (forall j, (j < np g)%nat -> 1 < Cp0 g j T) ->
  0 < p "Cv" /\ p "Cv" <= p "Cp" /\ 0 < p "gamma" /\
  exists n, (forall j, (j < np g)%nat -> 0 < n j) /\ (forall i, (i < ne g)%nat -> nsum (np g) (fun j => aij g i j * n j) = c i) /\ p "h" = 19872035 / 10000000 * T * nsum (np g) (fun j => n j * H0 g j T) /\
    19872035 / 10000000 * nsum (np g) (fun j => n j * Cp0 g j T) <= p "Cp".
Proof.
  intros G Hc HC. apply cea_equilibrium in Hc as (e & He & Hp). rewrite !Hp by (cbn; tauto).
  pose proof (moles g _ _ _ _ He) as EM. pose proof (N_pos g G _ _ _ _ He) as NP. pose proof (Cpe_nonneg g G _ _ _ _ He) as C0. pose proof (yl_nonpos g G _ _ _ _ He) as Y0.
  pose proof (Cv_stable g G _ _ _ _ He) as CV. pose proof (fun j => n_pos g _ _ _ _ He j) as Nj. pose proof reng_pos as RE. assert (ET : e (V "T") = T) by apply He.
  set (N := nsum (np g) (fun j => e (I "n" j))) in *. set (xl := e (I "result_T" (ne g))) in *. set (yl := e (I "result_P" (ne g))) in *.
  assert (CF : N < Cpf g e).
  { unfold N, Cpf. apply Rminus_gt_0_lt. rewrite <- nsum_minus. apply nsum_pos; [apply G|]. intros j Hj. unfold nj. rewrite ET. specialize (HC j Hj). specialize (Nj j Hj).
    assert (0 < e (I "n" j) * (Cp0 g j T - 1)) by (apply Rmult_lt_0_compat; lra). lra. }
  assert (VCp : prop_of g e "Cp" = pc_Cp g e) by (unfold prop_of; cbn [props_calcs compute]; unfold calcs_compute; cbv zeta; vsimp; reflexivity).
  assert (VCv : prop_of g e "Cv" = pc_Cv g e) by (unfold prop_of; cbn [props_calcs compute]; unfold calcs_compute; cbv zeta; vsimp; reflexivity).
  assert (Vg : prop_of g e "gamma" = -1 * pc_Cp g e / pc_Cv g e / dlnVqdlnP g e) by (unfold prop_of; cbn [props_calcs compute]; unfold calcs_compute; cbv zeta; vsimp; reflexivity).
  assert (ECv : pc_Cv g e = R_ENG * (Cpf g e + Cpe g e + N * (1 - xl) ^ 2 / (-1 + yl))) by (unfold pc_Cv, pc_Cp, dlnVqdlnT, dlnVqdlnP; rewrite EM; fold xl yl; field; lra).
  assert (Pv : 0 < pc_Cv g e) by (rewrite ECv; apply Rmult_lt_0_compat; lra).
  assert (Neg : N * (1 - xl) ^ 2 / (-1 + yl) <= 0).
  { replace (N * (1 - xl) ^ 2 / (-1 + yl)) with (- (N * (1 - xl) ^ 2 * / (1 - yl))) by (field; lra).
    assert (0 <= N * (1 - xl) ^ 2 * / (1 - yl)); [|lra]. apply Rmult_le_pos; [apply Rmult_le_pos; [lra|apply pow2_ge_0]|left; apply Rinv_0_lt_compat; lra]. }
  assert (Le : pc_Cv g e <= pc_Cp g e) by (rewrite ECv; unfold pc_Cp; rewrite (Rmult_comm _ R_ENG); apply Rmult_le_compat_l; lra).
  rewrite VCp, VCv, Vg. split; [exact Pv|]. split; [exact Le|]. split.
  - unfold dlnVqdlnP. fold yl. replace (-1 * pc_Cp g e / pc_Cv g e / (-1 + yl)) with (pc_Cp g e / pc_Cv g e / (1 - yl)) by (field; lra). apply Rdiv_lt_0_compat; [apply Rdiv_lt_0_compat; lra|lra].
  - exists (fun j => e (I "n" j)). split; [exact Nj|]. split; [exact (elems_c g _ _ _ _ He)|]. split.
    + rewrite h_val, ET. unfold enth. rewrite (nsum_ext (np g) _ (fun j => T * (e (I "n" j) * H0 g j T))) by (intros; ring). rewrite nsum_scal. unfold R_ENG. ring.
    + unfold pc_Cp, Cpf, nj. rewrite ET. fold R_ENG. unfold Cpf, nj in CF. rewrite ET in CF. rewrite (Rmult_comm (_ + _) R_ENG). apply Rmult_le_compat_l; lra.
Qed.
(* so a CEA station always has a real, positive speed of sound, and the static station at a given static pressure is fully consistent as soon as its
   enthalpy is below the total enthalpy *)
Theorem C63_station (g : gas) c w fl : gas_ok g -> station (cea_tp g) CEA c w fl -> 0 < w (at_ fl "T") 0%nat -> (forall j, (j < np g)%nat -> 1 < Cp0 g j (w (at_ fl "T") 0%nat)) ->
  0 < w (at_ fl "gamma") 0%nat * w (at_ fl "R") 0%nat * w (at_ fl "T") 0%nat /\ 0 < w (at_ fl "Cv") 0%nat <= w (at_ fl "Cp") 0%nat.
Proof.
  intros G S HT HC. pose proof (C61_ideal_gas g c w fl G S HT) as (_ & HR & _). destruct S as (p & Hp & Ep). destruct (C63_stable g _ _ _ _ G Hp HC) as (A & B & C & _).
  rewrite (Ep "gamma"), (Ep "Cv"), (Ep "Cp") by (cbn; tauto). change (prop_unit CEA "gamma") with "". rewrite u_none. change (prop_unit CEA "Cv") with "cal/(g*degK)". change (prop_unit CEA "Cp") with "cal/(g*degK)".
  pose proof (ufac_pos "cal/(g*degK)") as U. split; [apply Rmult_lt_0_compat; [apply Rmult_lt_0_compat; lra|exact HT]|]. split; [apply Rmult_lt_0_compat; lra|apply Rmult_le_compat_r; lra].
Qed.
Theorem C63_static_Ps (g : gas) fl w : gas_ok g -> Spec_Wire.solves (thermo (cea_tp g) CEA static_Ps fl) w -> 0 < w (at_ fl "T") 0%nat ->
  (forall j, (j < np g)%nat -> 1 < Cp0 g j (w (at_ fl "T") 0%nat)) -> w (at_ fl "h") 0%nat < w "ht" 0%nat -> static_ok w fl (w "ht" 0%nat).
Proof.
  intros G S HT HC Hh. apply C42_static_Ps in S as (S & _ & _ & _ & K). destruct (C63_station g _ w fl G S HT HC) as [A _]. destruct (C61_ideal_gas g _ w fl G S HT) as (_ & HR & Hrho).
  apply K; auto; [|lra]. apply (Rmult_lt_reg_r (w (at_ fl "R") 0%nat * w (at_ fl "T") 0%nat)); [apply Rmult_lt_0_compat; lra|]. lra.
Qed.
(* the static station found from entropy, total enthalpy, flow and static pressure is unique (C62) *)
Theorem C62_static_unique (g : gas) fl w w' Tlo Thi : gas_ok g -> Spec_Wire.solves (thermo (cea_tp g) CEA static_Ps fl) w -> Spec_Wire.solves (thermo (cea_tp g) CEA static_Ps fl) w' ->
  0 < Tlo -> proper_between g Tlo Thi -> (forall T j, Tlo <= T <= Thi -> (j < np g)%nat -> 1 < Cp0 g j T) -> Tlo <= w (at_ fl "T") 0%nat <= Thi -> Tlo <= w' (at_ fl "T") 0%nat <= Thi ->
  (forall x, In x ["S"; "ht"; "W"; "Ps"] -> w x 0%nat = w' x 0%nat) -> (forall i, (i < ne g)%nat -> w "composition" i = w' "composition" i) -> w (at_ fl "h") 0%nat < w "ht" 0%nat ->
  (forall x, In x ["T"; "P"; "h"; "S"; "gamma"; "Cp"; "Cv"; "rho"; "R"; "W"; "Vsonic"] -> w (at_ fl x) 0%nat = w' (at_ fl x) 0%nat) /\
  (forall x, In x ["V"; "MN"; "area"] -> 0 <= w (at_ fl "V") 0%nat -> 0 <= w' (at_ fl "V") 0%nat -> w (at_ fl x) 0%nat = w' (at_ fl x) 0%nat).
Proof.
  intros G S S' H0 Hr HC HT HT' EI EC Hh.
  pose proof (C63_static_Ps g fl w G S ltac:(lra) (fun j Hj => HC _ j HT Hj) Hh) as K.
  pose proof (C63_static_Ps g fl w' G S' ltac:(lra) (fun j Hj => HC _ j HT' Hj)) as K'.
  apply C42_static_Ps in S as (A1 & A2 & A3 & A4 & _). apply C42_static_Ps in S' as (B1 & B2 & B3 & B4 & _).
  assert (EP : w (at_ fl "P") 0%nat = w' (at_ fl "P") 0%nat) by (rewrite A3, B3; apply EI; cbn; tauto).
  assert (ES : w (at_ fl "S") 0%nat = w' (at_ fl "S") 0%nat) by (rewrite A2, B2; apply EI; cbn; tauto).
  assert (ET := station_T g _ _ w w' fl fl Tlo Thi "S" G A1 B1 EC H0 Hr HT HT' EP ltac:(cbn; tauto) ES).
  assert (EX := C61_stations g _ _ w w' fl fl G A1 B1 EC ET EP).
  assert (EW : w (at_ fl "W") 0%nat = w' (at_ fl "W") 0%nat) by (rewrite A4, B4; apply EI; cbn; tauto).
  assert (Eht : w "ht" 0%nat = w' "ht" 0%nat) by (apply EI; cbn; tauto).
  rewrite (EX "h"), Eht in Hh by (cbn; tauto). specialize (K' Hh).
  destruct K as (K1 & K2 & K3 & K4 & K5). destruct K' as (L1 & L2 & L3 & L4 & L5). rewrite (EX "h"), Eht in K1 by (cbn; tauto).
  rewrite (EX "gamma"), (EX "R"), ET in K2 by (cbn; tauto). rewrite (EX "rho"), EW in K5 by (cbn; tauto).
  assert (EVs : w (at_ fl "Vsonic") 0%nat = w' (at_ fl "Vsonic") 0%nat) by (apply sqrt_same; [exact K3|exact L3|congruence]).
  split.
  - intros x Hx. destruct Hx as [<-|[<-|Hx]]; [exact ET|exact EP|]. repeat destruct Hx as [<-|Hx]; try contradiction; try (apply EX; cbn; tauto); [exact EW|exact EVs].
  - intros x Hx V0 V0'. assert (EV : w (at_ fl "V") 0%nat = w' (at_ fl "V") 0%nat) by (apply sqrt_same; auto; lra).
    destruct (C63_station g _ w' fl G B1 ltac:(lra) (fun j Hj => HC _ j HT' Hj)) as [GP _]. destruct (C61_ideal_gas g _ w' fl G B1 ltac:(lra)) as (_ & _ & Hrho).
    assert (Vp : 0 < w' (at_ fl "V") 0%nat). { destruct (Rle_lt_or_eq_dec _ _ V0') as [Q|Q]; [exact Q|]. rewrite <- Q in L1. replace (0 ^ 2 / 2) with 0 in L1 by field. lra. }
    assert (Sp : 0 < w' (at_ fl "Vsonic") 0%nat). { destruct (Rle_lt_or_eq_dec _ _ L3) as [Q|Q]; [exact Q|]. rewrite <- Q in L2. rewrite pow_i in L2 by lia. lra. }
    destruct Hx as [<-|[<-|[<-|[]]]]; [exact EV| |].
    + apply (Rmult_eq_reg_r (w' (at_ fl "Vsonic") 0%nat)); [|lra]. rewrite <- L4, <- EVs, <- K4. exact EV.
    + apply (Rmult_eq_reg_l (w' (at_ fl "rho") 0%nat * w' (at_ fl "V") 0%nat)); [|apply Rgt_not_eq, Rmult_lt_0_compat; lra]. rewrite L5, <- EV, K5. reflexivity.
Qed.

(* ---------- C64 ---------- *)
(* Le Chatelier: at the same temperature and composition, more pressure means fewer molecules (a gas constant that is not larger) and a larger density *)
Theorem C64_pressure (g : gas) T P1 P2 c p q : gas_ok g -> 0 < T -> P1 < P2 -> cea_tp g T P1 c p -> cea_tp g T P2 c q -> q "R" <= p "R" /\ p "rho" < q "rho".
Proof.
  intros G HT HP H1 H2. assert (Pp := proj1 H1). apply cea_equilibrium in H1 as (e & He & Hp). apply cea_equilibrium in H2 as (e' & He' & Hq). rewrite !Hp, !Hq by (cbn; tauto).
  pose proof (moles_decrease g G T P1 P2 c e e' HP He He') as M. pose proof (moles g _ _ _ _ He) as EM. pose proof (N_pos g G _ _ _ _ He) as NP. rewrite <- EM in NP.
  pose proof (moles g _ _ _ _ He') as EM'. pose proof (N_pos g G _ _ _ _ He') as NP'. rewrite <- EM' in NP'.
  assert (VR : forall e, prop_of g e "R" = R_SI * e (V "n_moles")) by (intros; unfold prop_of; cbn [props_calcs compute]; unfold calcs_compute; cbv zeta; vsimp; reflexivity).
  assert (Vr : forall e, prop_of g e "rho" = e (V "P") / (e (V "n_moles") * R_SI * e (V "T")) * 100) by (intros; unfold prop_of; cbn [props_calcs compute]; unfold calcs_compute; cbv zeta; vsimp; reflexivity).
  rewrite !VR, !Vr. assert (ET : e (V "T") = T) by apply He. assert (EP : e (V "P") = P1) by apply He. assert (ET' : e' (V "T") = T) by apply He'. assert (EP' : e' (V "P") = P2) by apply He'.
  rewrite ET, EP, ET', EP'. pose proof rsi_pos as RS. split; [apply Rmult_le_compat_l; lra|].
  apply Rmult_lt_compat_r; [lra|]. set (a := e (V "n_moles")) in *. set (b := e' (V "n_moles")) in *.
  apply Rlt_le_trans with (P2 / (a * R_SI * T)).
  - unfold Rdiv. apply Rmult_lt_compat_r; [|exact HP]. apply Rinv_0_lt_compat. repeat apply Rmult_lt_0_compat; lra.
  - unfold Rdiv. apply Rmult_le_compat_l; [lra|]. apply Rinv_le_contravar; [repeat apply Rmult_lt_0_compat; lra|]. apply Rmult_le_compat_r; [lra|]. apply Rmult_le_compat_r; lra.
Qed.
