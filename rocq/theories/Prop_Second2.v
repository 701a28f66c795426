(* C76 at the elements: ducts, compressors, turbines and nozzles of a converged CEA model make entropy, never destroy it. *)
From Coq Require Import Lia.
From Verif Require Import Lib_R Lib_Loop Spec_Wire Model_Thermo Proofs_Wire Prop_Static Prop_Thermo Model_Equil Proofs_Equil Proofs_Props Proofs_Thermo Prop_Equil Model_Cea Proofs_Cea Proofs_Stable Prop_Cea Prop_Second.
From Verif Require Import Model_Turbo Model_Nozzle Model_Connect Model_Elem1 Model_Elem2 Prop_Station Prop_Station2 Prop_Station3 Prop_Station4 Prop_Station5 Prop_Station6 Prop_Station7.
Open Scope string_scope. Open Scope list_scope. Open Scope R_scope.

(* a station with the composition it reports, inside the temperature range *)
Definition total_in (g : gas) (Tlo Thi : R) (w : state) (fl : string) : Prop := total_ok (cea_tp g) CEA w fl /\ Tlo <= val w (at_ fl "T") <= Thi.
Section E.
Variables (g : gas) (Tlo Thi : R).
Hypothesis G : gas_ok g.
Hypothesis H0 : 0 < Tlo.
Hypothesis Hr : proper_between g Tlo Thi.
Lemma in_rng w fl : total_in g Tlo Thi w fl -> in_range g Tlo Thi w fl (w (at_ fl "composition")). Proof. intros [A B]. split; [exact A|exact B]. Qed.
Lemma in_rng_c w fl comp : total_in g Tlo Thi w fl -> same w (at_ fl "composition") comp -> in_range g Tlo Thi w fl (w comp).
Proof.
  intros [(p & Hp & Ep) B] E. split; [|exact B]. exists p. split; [|exact Ep]. apply (cea_comp g _ _ (w (at_ fl "composition")) (w comp)); [intros i _; apply E|exact Hp].
Qed.
Lemma p_pos w fl : total_in g Tlo Thi w fl -> 0 < val w (at_ fl "P").
Proof.
  intros [A B]. destruct (C61_ideal_gas g _ w fl G A ltac:(unfold val in B; lra)) as (I1 & I2 & I3). unfold val in *. rewrite I1. repeat apply Rmult_lt_0_compat; lra.
Qed.

(* ---------- duct: with a loss of pressure and heat Q into it, the entropy rise is at least Q / T at the exit (Clausius) ---------- *)
Theorem C76_duct statics design with_MN expMN w : Spec_Wire.solves (duct (cea_tp g) CEA statics design with_MN expMN) w -> total_in g Tlo Thi w "Fl_I:tot" -> Tlo <= val w "Fl_O:tot:T" <= Thi ->
  0 < val w "Fl_I:stat:W" -> 0 <= val w "dPqP" ->
  val w "Q_dot" <= val w "Fl_I:stat:W" * val w "Fl_O:tot:T" * (val w "Fl_O:tot:S" - val w "Fl_I:tot:S") /\
  (0 <= val w "Q_dot" -> val w "Fl_I:tot:S" <= val w "Fl_O:tot:S") /\
  (val w "Q_dot" = 0 -> 0 < val w "dPqP" -> val w "Fl_I:tot:S" < val w "Fl_O:tot:S").
Proof.
  intros Hs Hi HT HW HL. destruct (C48_duct _ _ _ _ _ _ w Hs) as (A & B & C & D & _). specialize (D ltac:(lra)).
  assert (Ho : total_in g Tlo Thi w "Fl_O:tot") by (split; [exact A|exact HT]). pose proof (in_rng_c w "Fl_O:tot" "Fl_I:tot:composition" Ho B) as So. pose proof (in_rng w "Fl_I:tot" Hi) as Si.
  pose proof (pair_facts g Tlo Thi G H0 Hr w w "Fl_I:tot" "Fl_O:tot" _ _ Si So (fun _ _ => eq_refl)) as (P1 & P2 & T1 & T2 & F & _ & _ & K).
  assert (HP : val w "Fl_O:tot:P" <= val w "Fl_I:tot:P") by (rewrite C; unfold val in *; change (at_ "Fl_I:tot" "P") with "Fl_I:tot:P" in *; nra).
  pose proof (ln_le0 w w "Fl_I:tot" "Fl_O:tot" P1 P2 HP) as LN. 
  assert (M : val w "Fl_O:tot:h" - val w "Fl_I:tot:h" <= val w "Fl_O:tot:T" * (val w "Fl_O:tot:S" - val w "Fl_I:tot:S")).
  { unfold val in *. change (at_ "Fl_O:tot" "T") with "Fl_O:tot:T" in *. change (at_ "Fl_O:tot" "h") with "Fl_O:tot:h" in *. change (at_ "Fl_I:tot" "h") with "Fl_I:tot:h" in *. change (at_ "Fl_O:tot" "S") with "Fl_O:tot:S" in *. change (at_ "Fl_I:tot" "S") with "Fl_I:tot:S" in *.
    match type of K with _ <= ?a + ?b * ?l => assert (Z : b * l <= 0); [|lra] end. assert (0 <= w "Fl_O:tot:T" 0%nat * (kR * w (at_ "Fl_I:tot" "R") 0%nat)) by (left; apply Rmult_lt_0_compat; lra).
    rewrite <- (Rmult_0_r (w "Fl_O:tot:T" 0%nat * (kR * w (at_ "Fl_I:tot" "R") 0%nat))). apply Rmult_le_compat_l; [lra|exact LN]. }
  split; [|split].
  - rewrite <- D, Rmult_assoc. apply Rmult_le_compat_l; lra.
  - intros HQ. rewrite <- D in HQ. assert (Hh : val w "Fl_I:tot:h" <= val w "Fl_O:tot:h") by (apply (Rmult_le_reg_l (val w "Fl_I:stat:W")); lra).
    exact (proj1 (more_entropy g Tlo Thi G H0 Hr w w "Fl_I:tot" "Fl_O:tot" _ _ Si So (fun _ _ => eq_refl) Hh HP)).
  - intros HQ Hl. rewrite HQ in D. apply Rmult_integral in D as [D|D]; [lra|].
    refine (proj2 (more_entropy g Tlo Thi G H0 Hr w w "Fl_I:tot" "Fl_O:tot" _ _ Si So (fun _ _ => eq_refl) _ HP) _); [change (val w "Fl_I:tot:h" <= val w "Fl_O:tot:h"); lra|right].
    change (val w "Fl_O:tot:P" < val w "Fl_I:tot:P"). rewrite C. unfold val in *. change (at_ "Fl_I:tot" "P") with "Fl_I:tot:P" in *. nra.
Qed.
Print Assumptions C76_duct.

(* ---------- compressor: with an efficiency of at most one, entropy does not fall; enthalpy rises ---------- *)
Theorem C76_compressor mp rs bs statics design w : (forall b, In b bs -> ok_name (b ++ ":tot")) -> Spec_Wire.solves (compressor (cea_tp g) CEA mp rs bs statics design) w ->
  total_in g Tlo Thi w "Fl_I:tot" -> Tlo <= val w "ideal_flow.flow:T" <= Thi -> Tlo <= val w "Fl_O:tot:T" <= Thi -> 0 < val w "eff" <= 1 -> 1 <= val w "PR" ->
  val w "Fl_I:tot:S" <= val w "Fl_O:tot:S" /\ val w "Fl_I:tot:h" <= val w "Fl_O:tot:h" /\
  (1 < val w "PR" -> val w "Fl_I:tot:h" < val w "Fl_O:tot:h" /\ (val w "eff" < 1 -> val w "Fl_I:tot:S" < val w "Fl_O:tot:S")).
Proof.
  intros Hn Hs Hi HTi HT He HPR. destruct (C48_compressor _ _ _ _ _ _ _ w Hn Hs) as (A & B & C & (D1 & D2 & D3 & D4) & E & _). specialize (E ltac:(lra)).
  assert (Ho : total_in g Tlo Thi w "Fl_O:tot") by (split; [exact A|exact HT]). assert (Hd : total_in g Tlo Thi w "ideal_flow.flow") by (split; [exact D1|exact HTi]).
  pose proof (in_rng_c w "Fl_O:tot" "Fl_I:tot:composition" Ho B) as So. pose proof (in_rng_c w "ideal_flow.flow" "Fl_I:tot:composition" Hd D2) as Sd. pose proof (in_rng w "Fl_I:tot" Hi) as Si.
  pose proof (p_pos w "Fl_I:tot" Hi) as PP. change (at_ "Fl_I:tot" "P") with "Fl_I:tot:P" in PP.
  assert (HP : val w "Fl_I:tot:P" <= val w "ideal_flow.flow:P") by (rewrite D4, C; nra).
  destruct (more_enthalpy g Tlo Thi G H0 Hr w w "Fl_I:tot" "ideal_flow.flow" _ _ Si Sd (fun _ _ => eq_refl)) as [K1 K2]; [right; symmetry; exact D3|exact HP|].
  change (val w "Fl_I:tot:h" <= val w "ideal_flow.flow:h") in K1. change (val w "Fl_I:tot:S" < val w "ideal_flow.flow:S" \/ val w "Fl_I:tot:P" < val w "ideal_flow.flow:P" -> val w "Fl_I:tot:h" < val w "ideal_flow.flow:h") in K2.
  assert (J : val w "ideal_flow.flow:h" <= val w "Fl_O:tot:h" /\ val w "Fl_I:tot:h" <= val w "Fl_O:tot:h") by (split; nra).
  destruct (more_entropy g Tlo Thi G H0 Hr w w "ideal_flow.flow" "Fl_O:tot" _ _ Sd So (fun _ _ => eq_refl) (proj1 J)) as [M1 M2]; [change (val w "Fl_O:tot:P" <= val w "ideal_flow.flow:P"); lra|].
  change (val w "ideal_flow.flow:S" <= val w "Fl_O:tot:S") in M1. change (val w "ideal_flow.flow:h" < val w "Fl_O:tot:h" \/ val w "Fl_O:tot:P" < val w "ideal_flow.flow:P" -> val w "ideal_flow.flow:S" < val w "Fl_O:tot:S") in M2.
  split; [lra|]. split; [apply J|]. intros HP1. assert (L : val w "Fl_I:tot:h" < val w "ideal_flow.flow:h") by (apply K2; right; rewrite D4, C; nra).
  split; [nra|]. intros He1. rewrite <- D3. apply M2. left. nra.
Qed.
Print Assumptions C76_compressor.

(* ---------- turbine: the expanding stream's entropy does not fall, and the turbine never takes power ---------- *)
Lemma lsum_nonneg {A} (f : A -> R) l : (forall x, In x l -> 0 <= f x) -> 0 <= lsum f l.
Proof. induction l as [|a l IH]; intros Hf; cbn; [lra|]. pose proof (Hf a (or_introl eq_refl)). specialize (IH (fun x Hx => Hf x (or_intror Hx))). lra. Qed.
Theorem C76_turbine mp a bs statics design w : (forall b, In b bs -> contains ":" b = false) -> flow_adder a bs -> Spec_Wire.solves (turbine (cea_tp g) CEA mp a bs statics design) w ->
  total_in g Tlo Thi w "Fl_I:tot" -> Tlo <= val w "ideal_flow.flow:T" <= Thi -> Tlo <= val w "real_flow_b4bld.Fl_O_b4bld:tot:T" <= Thi -> 0 <= val w "eff" <= 1 -> 1 <= val w "PR" ->
  (forall b, In b bs -> Tlo <= val w (b ++ "_inflow.flow:T") <= Thi /\ Tlo <= val w (b ++ "_ideal.flow:T") <= Thi /\ 0 <= val w (b ++ ":stat:W") /\ 0 <= val w (b ++ ":frac_P") <= 1) ->
  0 < val w "Fl_I:stat:W" ->
  val w "Fl_I:tot:S" <= val w "real_flow_b4bld.Fl_O_b4bld:tot:S" /\ val w "real_flow_b4bld.Fl_O_b4bld:tot:h" <= val w "Fl_I:tot:h" /\
  (forall b, In b bs -> val w (b ++ "_ideal.flow:h") <= val w (b ++ ":tot:h")) /\
  (val w "Fl_O:stat:W" <> 0 -> 0 <= val w "power").
Proof.
  intros Hn Ha Hs Hi HTd HTb He HPR Hb HW. destruct (C48_turbine _ _ _ _ _ _ _ w Hn Ha Hs) as (A & B & C & (D1 & D2 & D3 & D4) & (F1 & F2 & F3 & F4) & Z & E & _). specialize (C ltac:(lra)).
  assert (Hd : total_in g Tlo Thi w "ideal_flow.flow") by (split; [exact D1|exact HTd]). assert (Hf : total_in g Tlo Thi w "real_flow_b4bld.Fl_O_b4bld:tot") by (split; [exact F1|exact HTb]).
  pose proof (in_rng_c w "ideal_flow.flow" "Fl_I:tot:composition" Hd D2) as Sd. pose proof (in_rng_c w "real_flow_b4bld.Fl_O_b4bld:tot" "Fl_I:tot:composition" Hf F2) as Sf. pose proof (in_rng w "Fl_I:tot" Hi) as Si.
  pose proof (p_pos w "ideal_flow.flow" Hd) as PP. change (at_ "ideal_flow.flow" "P") with "ideal_flow.flow:P" in PP.
  assert (HP : val w "Fl_O:tot:P" <= val w "Fl_I:tot:P") by (rewrite <- C; rewrite D4 in PP; nra).
  destruct (more_enthalpy g Tlo Thi G H0 Hr w w "ideal_flow.flow" "Fl_I:tot" _ _ Sd Si (fun _ _ => eq_refl)) as [K1 _]; [right; exact D3|change (val w "ideal_flow.flow:P" <= val w "Fl_I:tot:P"); lra|].
  change (val w "ideal_flow.flow:h" <= val w "Fl_I:tot:h") in K1.
  assert (J : val w "ideal_flow.flow:h" <= val w "real_flow_b4bld.Fl_O_b4bld:tot:h" /\ val w "real_flow_b4bld.Fl_O_b4bld:tot:h" <= val w "Fl_I:tot:h") by (split; nra).
  destruct (more_entropy g Tlo Thi G H0 Hr w w "ideal_flow.flow" "real_flow_b4bld.Fl_O_b4bld:tot" _ _ Sd Sf (fun _ _ => eq_refl) (proj1 J)) as [M1 _]; [change (val w "real_flow_b4bld.Fl_O_b4bld:tot:P" <= val w "ideal_flow.flow:P"); lra|].
  change (val w "ideal_flow.flow:S" <= val w "real_flow_b4bld.Fl_O_b4bld:tot:S") in M1.
  assert (HB : forall b, In b bs -> val w (b ++ "_ideal.flow:h") <= val w (b ++ ":tot:h")).
  { intros b Ib. destruct (Z b Ib) as ((Z1 & Z2 & Z3 & Z4) & (Y1 & Y2 & Y3 & Y4)). destruct (Hb b Ib) as (Q1 & Q2 & Q3 & Q4).
    assert (AT : forall m x, at_ (b ++ m)%string x = (b ++ (m ++ ":" ++ x))%string) by (intros m x; unfold at_; rewrite <- !Proofs_Wire.sapp_assoc; reflexivity).
    assert (HX : total_in g Tlo Thi w (b ++ "_inflow.flow")) by (split; [exact Z1|rewrite AT; exact Q1]). assert (HY : total_in g Tlo Thi w (b ++ "_ideal.flow")) by (split; [exact Y1|rewrite AT; exact Q2]).
    assert (CX : same w (at_ (b ++ "_inflow.flow") "composition") (b ++ ":tot:composition")) by (rewrite AT; exact Z2). assert (CY : same w (at_ (b ++ "_ideal.flow") "composition") (b ++ ":tot:composition")) by (rewrite AT; exact Y2).
    destruct (more_enthalpy g Tlo Thi G H0 Hr w w _ _ _ _ (in_rng_c w _ _ HY CY) (in_rng_c w _ _ HX CX) (fun _ _ => eq_refl)) as [K _].
    - rewrite !AT. right. exact Y3.
    - rewrite !AT. change (val w (b ++ "_ideal.flow:P") <= val w (b ++ "_inflow.flow:P")). rewrite Y4, Z4. nra.
    - rewrite !AT in K. change (val w (b ++ "_ideal.flow:h") <= val w (b ++ "_inflow.flow:h")) in K. lra. }
  split; [lra|]. split; [apply J|]. split; [exact HB|]. intros HO. destruct (E HO) as (E1 & E2 & E3). rewrite E2 in E3.
  set (sb := lsum (fun b => val w (b ++ ":stat:W") * (val w (b ++ ":tot:h") - val w "eff" * (val w (b ++ ":tot:h") - val w (b ++ "_ideal.flow:h")))) bs) in *. set (sa := lsum (fun b => val w (b ++ ":stat:W") * val w (b ++ ":tot:h")) bs) in *.
  assert (SD : sb <= sa).
  { subst sa sb. assert (X : forall l, (forall b, In b l -> In b bs) -> lsum (fun b => val w (b ++ ":stat:W") * (val w (b ++ ":tot:h") - val w "eff" * (val w (b ++ ":tot:h") - val w (b ++ "_ideal.flow:h")))) l <= lsum (fun b => val w (b ++ ":stat:W") * val w (b ++ ":tot:h")) l); [|apply X; auto].
    induction l as [|b l IH]; intros Hl; cbn; [lra|]. specialize (IH (fun x Hx => Hl x (or_intror Hx))). pose proof (HB b (Hl b (or_introl eq_refl))) as Q. destruct (Hb b (Hl b (or_introl eq_refl))) as (_ & _ & QW & _).
    assert (0 <= val w (b ++ ":stat:W") * (val w "eff" * (val w (b ++ ":tot:h") - val w (b ++ "_ideal.flow:h")))) by (apply Rmult_le_pos; [exact QW|apply Rmult_le_pos; lra]). lra. }
  assert (XW : 0 <= val w "Fl_I:stat:W" * (val w "Fl_I:tot:h" - val w "real_flow_b4bld.Fl_O_b4bld:tot:h")) by (apply Rmult_le_pos; lra).
  assert (BP : 0 < BTU_s2HP) by (unfold BTU_s2HP; lra). pose proof (ufac_pos "Btu/s") as U1. pose proof (ufac_pos "hp") as U2.
  assert (XP : 0 <= val w "power" / ufac "hp").
  { rewrite E3. apply Rmult_le_pos; [lra|]. apply Rmult_le_pos; [lra|left; apply Rinv_0_lt_compat; exact U1]. }
  replace (val w "power") with (val w "power" / ufac "hp" * ufac "hp") by (field; lra). apply Rmult_le_pos; lra.
Qed.
Print Assumptions C76_turbine.

(* ---------- nozzle: with a pressure ratio above one both expansions are real; losses make entropy and the lossless velocity is the largest ---------- *)
Theorem C76_nozzle nt lc w : Spec_Wire.solves (nozzle (cea_tp g) CEA nt lc) w -> (forall T j, Tlo <= T <= Thi -> (j < np g)%nat -> 1 < Cp0 g j T) -> total_in g Tlo Thi w "Fl_I:tot" -> Tlo <= val w "Fl_O:tot:T" <= Thi ->
  Tlo <= val w "staticMN.flow:T" <= Thi -> Tlo <= val w "staticPs.flow:T" <= Thi -> Tlo <= val w "ideal_flow.flow:T" <= Thi ->
  0 <= val w "dPqP" -> 0 < val w "Ps_exhaust" -> 1 < val w "PR" -> val w "Fl_I:tot:h" <> 0 ->
  (* entropy *)
  val w "Fl_I:tot:S" <= val w "Fl_O:tot:S" /\ (0 < val w "dPqP" -> val w "Fl_I:tot:S" < val w "Fl_O:tot:S") /\
  (* the full and the lossless expansion have a velocity, and it comes from the enthalpy *)
  (static_ok w "staticPs.flow" (val w "Fl_I:tot:h") /\ val w "staticPs.flow:V" <> 0) /\ (static_ok w "ideal_flow.flow" (val w "Fl_I:tot:h") /\ val w "ideal_flow.flow:V" <> 0) /\
  val w "staticPs.flow:V" ^ 2 <= val w "ideal_flow.flow:V" ^ 2 /\
  (* the sonic state is below the total pressure *)
  val w "staticMN.flow:P" < val w "Fl_O:tot:P".
Proof.
  intros Hs Hcp Hi HTo HTm HTp HTd HL HPs HPR Hh. destruct (C48_nozzle _ _ _ _ w Hs) as (A & B & C & D & E & ((M1 & M2 & M3) & M4) & ((F1 & F2 & F3) & F4) & ((I1 & I2 & I3) & I4) & _). specialize (E ltac:(lra)).
  assert (Ho : total_in g Tlo Thi w "Fl_O:tot") by (split; [exact A|exact HTo]). pose proof (in_rng_c w "Fl_O:tot" "Fl_I:tot:composition" Ho B) as So. pose proof (in_rng w "Fl_I:tot" Hi) as Si.
  assert (Sm : in_range g Tlo Thi w "staticMN.flow" (w "Fl_I:tot:composition")) by (split; [exact M1|exact HTm]).
  assert (Sf : in_range g Tlo Thi w "staticPs.flow" (w "Fl_I:tot:composition")) by (split; [exact F1|exact HTp]).
  assert (Sd : in_range g Tlo Thi w "ideal_flow.flow" (w "Fl_I:tot:composition")) by (split; [exact I1|exact HTd]).
  change (val w "staticPs.flow:S" = val w "Fl_O:tot:S") in F2. change (val w "ideal_flow.flow:S" = val w "Fl_I:tot:S") in I2. change (val w "staticMN.flow:S" = val w "Fl_O:tot:S") in M2.
  change (val w "staticPs.flow:P" = val w "Ps_exhaust") in F4. change (val w "ideal_flow.flow:P" = val w "Ps_exhaust") in I4. change (val w "staticMN.flow:MN" = 1) in M4.
  pose proof (p_pos w "Fl_I:tot" Hi) as PP. change (at_ "Fl_I:tot" "P") with "Fl_I:tot:P" in PP.
  assert (HP : val w "Fl_O:tot:P" <= val w "Fl_I:tot:P") by (rewrite D; nra). assert (HX : val w "Ps_exhaust" < val w "Fl_O:tot:P") by (rewrite <- E; nra).
  destruct (more_entropy g Tlo Thi G H0 Hr w w "Fl_I:tot" "Fl_O:tot" _ _ Si So (fun _ _ => eq_refl)) as [N1 N2]; [right; symmetry; exact C|exact HP|].
  change (val w "Fl_I:tot:S" <= val w "Fl_O:tot:S") in N1. change (val w "Fl_I:tot:h" < val w "Fl_O:tot:h" \/ val w "Fl_O:tot:P" < val w "Fl_I:tot:P" -> val w "Fl_I:tot:S" < val w "Fl_O:tot:S") in N2.
  (* an expansion below the total pressure gives up enthalpy *)
  destruct (more_enthalpy g Tlo Thi G H0 Hr w w "staticPs.flow" "Fl_O:tot" _ _ Sf So (fun _ _ => eq_refl)) as [_ K1]; [right; exact F2|left; change (val w "staticPs.flow:P" < val w "Fl_O:tot:P"); lra|].
  change (val w "staticPs.flow:S" < val w "Fl_O:tot:S" \/ val w "staticPs.flow:P" < val w "Fl_O:tot:P" -> val w "staticPs.flow:h" < val w "Fl_O:tot:h") in K1. specialize (K1 ltac:(right; lra)).
  destruct (more_enthalpy g Tlo Thi G H0 Hr w w "ideal_flow.flow" "Fl_I:tot" _ _ Sd Si (fun _ _ => eq_refl)) as [_ K2]; [right; exact I2|left; change (val w "ideal_flow.flow:P" < val w "Fl_I:tot:P"); lra|].
  change (val w "ideal_flow.flow:S" < val w "Fl_I:tot:S" \/ val w "ideal_flow.flow:P" < val w "Fl_I:tot:P" -> val w "ideal_flow.flow:h" < val w "Fl_I:tot:h") in K2. specialize (K2 ltac:(right; lra)).
  destruct (more_enthalpy g Tlo Thi G H0 Hr w w "ideal_flow.flow" "staticPs.flow" _ _ Sd Sf (fun _ _ => eq_refl)) as [K3 _]; [change (val w "ideal_flow.flow:S" <= val w "staticPs.flow:S"); lra|change (val w "ideal_flow.flow:P" <= val w "staticPs.flow:P"); lra|].
  change (val w "ideal_flow.flow:h" <= val w "staticPs.flow:h") in K3.
  (* the speed of sound is real *)
  assert (X : forall st, in_range g Tlo Thi w st (w "Fl_I:tot:composition") -> 0 < val w (at_ st "gamma") * val w (at_ st "R") * val w (at_ st "T") /\ 0 < val w (at_ st "gamma") /\ 0 < val w (at_ st "R") /\ 0 < val w (at_ st "T") /\ val w (at_ st "rho") <> 0).
  { intros st [Q1 Q2]. assert (QT : 0 < w (at_ st "T") 0%nat) by lra. destruct (C63_station g _ w st G Q1 QT (fun j Hj => Hcp _ j Q2 Hj)) as [Y _]. destruct (C61_ideal_gas g _ w st G Q1 QT) as (_ & YR & YD). unfold val.
    split; [exact Y|]. split; [|split; [exact YR|split; [exact QT|lra]]]. apply (Rmult_lt_reg_r (w (at_ st "R") 0%nat * w (at_ st "T") 0%nat)); [apply Rmult_lt_0_compat; lra|lra]. }
  destruct (X _ Sf) as (X1 & X2 & X3 & X4 & X5). destruct (X _ Sd) as (Y1 & Y2 & Y3 & Y4 & Y5). destruct (X _ Sm) as (Z1 & Z2 & Z3 & Z4 & Z5).
  specialize (F3 ltac:(repeat split; assumption) X1 X5 ltac:(lra)). specialize (I3 ltac:(repeat split; assumption) Y1 Y5 ltac:(lra)). specialize (M3 Logic.I Z1 Z5 ltac:(lra)).
  rewrite C in F3, M3, K1. pose proof (proj1 F3) as VF. pose proof (proj1 I3) as VI. change (val w "staticPs.flow:h" + val w "staticPs.flow:V" ^ 2 / 2 = val w "Fl_I:tot:h") in VF. change (val w "ideal_flow.flow:h" + val w "ideal_flow.flow:V" ^ 2 / 2 = val w "Fl_I:tot:h") in VI.
  split; [exact N1|]. split; [intros Hl; apply N2; right; rewrite D; nra|]. split; [split; [exact F3|intros Q; rewrite Q in VF; lra]|]. split; [split; [exact I3|intros Q; rewrite Q in VI; lra]|]. split; [lra|].
  apply (C76_static_pressure g Tlo Thi (w "Fl_I:tot:composition") w "Fl_O:tot" "staticMN.flow" G H0 Hr So Sm M2); [rewrite <- C in M3; exact M3|].
  destruct M3 as (_ & VS & _ & VM & _). change (w "staticMN.flow:V" 0%nat = w "staticMN.flow:MN" 0%nat * w "staticMN.flow:Vsonic" 0%nat) in VM. change (val w "staticMN.flow:MN") with (w "staticMN.flow:MN" 0%nat) in M4. rewrite M4 in VM.
  change (w (at_ "staticMN.flow" "V") 0%nat) with (w "staticMN.flow:V" 0%nat). intros Q. rewrite Q in VM. change (w (at_ "staticMN.flow" "Vsonic") 0%nat) with (w "staticMN.flow:Vsonic" 0%nat) in VS.
  assert (V0 : w "staticMN.flow:Vsonic" 0%nat = 0) by lra. rewrite V0 in VS. unfold val in Z1. rewrite <- VS in Z1. cbn in Z1. lra.
Qed.
Print Assumptions C76_nozzle.
End E.
