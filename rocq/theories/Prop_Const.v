(* Claim C56: the hard-coded conversion constants agree with the unit system, so that powers, torques and forces are what mechanics says they are. *)
From Coq Require Import Machin Ratan.
From Verif Require Import Lib_R Spec_Wire Model_Thermo Proofs_Wire Prop_Static Prop_Thermo Model_Elem1 Model_Elem2 Proofs_Elem Prop_Station Prop_Station2 Prop_Station3 Prop_Station4 Prop_Station5 Prop_Station6 Prop_Station7 Prop_StationEx Prop_StationEx2 Model_Equil.
Open Scope string_scope. Open Scope list_scope. Open Scope R_scope.

(* x equals y up to the relative error eps *)
Definition near (eps x y : R) : Prop := Rabs (x - y) <= eps * Rabs y.

Lemma pi_bounds : 31415926 / 10 ^ 7 < PI < 31415927 / 10 ^ 7.
Proof.
  destruct (PI_2_3_7_ineq 4) as [A B]. unfold tg_alt, PI_2_3_7_tg, Ratan_seq in A, B. cbn -[pow INR] in A, B. cbn [INR Nat.mul Nat.add] in A, B. cbn [pow] in A, B. lra.
Qed.
Lemma near_scale eps k x y : Rabs (k - 1) <= eps -> x = k * y -> near eps x y.
Proof. intros H ->. unfold near. replace (k * y - y) with ((k - 1) * y) by ring. rewrite Rabs_mult. apply Rmult_le_compat_r; [apply Rabs_pos|exact H]. Qed.
Lemma abs_le x e : - e <= x <= e -> Rabs x <= e. Proof. intros H. apply Rabs_le. exact H. Qed.
Definition k_power : R := BTU_s2HP * ufac "hp" / ufac "Btu/s".
Lemma k_power_ok : Rabs (k_power - 1) <= 1 / 10 ^ 7.
Proof.
  unfold k_power. change (ufac "hp") with u_hp. change (ufac "Btu/s") with u_btu. unfold BTU_s2HP, u_hp, u_btu, u_ft, u_lbf, u_lbm. apply abs_le. lra.
Qed.
Definition k_torque : R := HP_per_RPM_to_FT_LBF * ufac "ft*lbf" * (2 * PI / 60) / ufac "hp".
Lemma k_torque_ok : Rabs (k_torque - 1) <= 1 / 10 ^ 6.
Proof.
  unfold k_torque. change (ufac "hp") with u_hp. change (ufac "ft*lbf") with (u_ft * u_lbf). unfold HP_per_RPM_to_FT_LBF, u_hp.
  replace (525211 / 100 * (u_ft * u_lbf) * (2 * PI / 60) / (550 * u_ft * u_lbf)) with (525211 / 100 * (2 * PI / 33000)) by (unfold u_ft, u_lbf, u_lbm; field; lra).
  destruct pi_bounds. apply abs_le. lra.
Qed.
Definition k_force : R := ufac "lbf" / (ufac "lbm/s" * ufac "ft/s" * g_c).
Lemma k_force_ok : Rabs (k_force - 1) <= 2 / 10 ^ 6.
Proof. unfold k_force. change (ufac "lbf") with u_lbf. change (ufac "lbm/s") with u_lbm. change (ufac "ft/s") with u_ft. unfold g_c, u_lbf, u_lbm, u_ft. apply abs_le. lra. Qed.
Lemma power_si p x : p / ufac "hp" = BTU_s2HP * (x / ufac "Btu/s") -> p = k_power * x.
Proof. intros E. assert (H := ufac_n0 "hp"). assert (H2 := ufac_n0 "Btu/s"). replace p with (p / ufac "hp" * ufac "hp") by (field; exact H). rewrite E. unfold k_power. field. exact H2. Qed.
Lemma torque_si t n p : t / ufac "ft*lbf" * n = HP_per_RPM_to_FT_LBF * (p / ufac "hp") -> t * (2 * PI * n / 60) = k_torque * p.
Proof.
  intros E. assert (H := ufac_n0 "hp"). assert (H2 := ufac_n0 "ft*lbf").
  replace (t * (2 * PI * n / 60)) with (t / ufac "ft*lbf" * n * ufac "ft*lbf" * (2 * PI / 60)) by (field; exact H2). rewrite E. unfold k_torque. field. exact H.
Qed.
Lemma force_si f w v : f / ufac "lbf" = (w / ufac "lbm/s") * (v / ufac "ft/s") / g_c -> f = k_force * (w * v).
Proof.
  intros E. assert (H := ufac_n0 "lbf"). assert (H2 := ufac_n0 "lbm/s"). assert (H3 := ufac_n0 "ft/s"). replace f with (f / ufac "lbf" * ufac "lbf") by (field; exact H). rewrite E. unfold k_force. field.
  repeat split; try assumption. unfold g_c. lra.
Qed.
(* SI values: power in W, torque in N m, speed in rpm, mass flow in kg/s, enthalpy in J/kg *)
Theorem C56_compressor tp me mp rs bs statics design w : (forall b, In b bs -> ok_name (b ++ ":tot")) -> solves (compressor tp me mp rs bs statics design) w ->
  near (1 / 10 ^ 7) (val w "power") (val w "Fl_I:stat:W" * val w "Fl_I:tot:h" - (val w "Fl_O:stat:W" * val w "Fl_O:tot:h" + lsum (fun b => val w (b ++ ":stat:W") * val w (b ++ ":tot:h")) bs)) /\
  (val w "Nmech" <> 0 -> near (1 / 10 ^ 6) (val w "trq" * (2 * PI * val w "Nmech" / 60)) (val w "power")).
Proof.
  intros O S. apply (C48_compressor _ _ _ _ _ _ _ _ O) in S as (_ & _ & _ & _ & _ & _ & _ & E & T & _). split.
  - apply (near_scale _ _ _ _ k_power_ok). apply power_si. exact E.
  - intros N. apply (near_scale _ _ _ _ k_torque_ok). apply torque_si. exact (T N).
Qed.
Theorem C56_turbine tp me mp a bs statics design w : (forall b, In b bs -> contains ":" b = false) -> flow_adder a bs -> solves (turbine tp me mp a bs statics design) w -> val w "Fl_O:stat:W" <> 0 ->
  near (1 / 10 ^ 7) (val w "power") (val w "Fl_I:stat:W" * val w "Fl_I:tot:h" + lsum (fun b => val w (b ++ ":stat:W") * val w (b ++ ":tot:h")) bs - val w "Fl_O:stat:W" * val w "Fl_O:tot:h") /\
  (val w "Nmech" <> 0 -> near (1 / 10 ^ 6) (val w "trq" * (2 * PI * val w "Nmech" / 60)) (val w "power")).
Proof.
  intros O A S W. apply (C48_turbine _ _ _ _ _ _ _ _ O A) in S as (_ & _ & _ & _ & _ & _ & E & T & _). destruct (E W) as (_ & _ & E'). split.
  - apply (near_scale _ _ _ _ k_power_ok). apply power_si. exact E'.
  - intros N. apply (near_scale _ _ _ _ k_torque_ok). apply torque_si. exact (T N).
Qed.
(* ram drag and gross thrust in N are the momentum flows in kg m/s^2 *)
Theorem C56_inlet tp me statics design w : solves (inlet tp me statics design) w -> near (2 / 10 ^ 6) (val w "F_ram") (val w "Fl_I:stat:W" * val w "Fl_I:stat:V").
Proof. intros S. apply C48_inlet in S as (_ & _ & _ & _ & _ & E & _). apply (near_scale _ _ _ _ k_force_ok). apply force_si. exact E. Qed.
Theorem C56_nozzle tp me nt w : solves (nozzle tp me nt Cfg) w -> near (2 / 10 ^ 6) (val w "Fg") (val w "Cfg" * (val w "Fl_I:stat:W" * val w "ideal_flow.flow:V")).
Proof.
  intros S. apply C48_nozzle in S. cbv zeta in S. destruct S as (_ & _ & _ & _ & _ & _ & _ & _ & _ & _ & _ & _ & _ & _ & _ & E & _). specialize (E eq_refl).
  apply (near_scale _ _ _ _ k_force_ok). replace (k_force * (val w "Cfg" * (val w "Fl_I:stat:W" * val w "ideal_flow.flow:V"))) with (k_force * (val w "Cfg" * val w "Fl_I:stat:W" * val w "ideal_flow.flow:V")) by ring.
  apply force_si. rewrite E. change (val w (at_ "ideal_flow.flow" "V")) with (val w "ideal_flow.flow:V"). unfold Rdiv. ring.
Qed.
(* the gas constant that h, S, Cp and Cv use (cal/(g K)) and the one that rho and R use (J/(kg K)) are the same constant; the standard day of the corrected flows is 288.15 K and the
   pressure to which the entropies refer *)
Theorem C56_gas_constant : near (1 / 10 ^ 7) (R_ENG * ufac "cal/(g*degK)") R_SI.
Proof.
  change (ufac "cal/(g*degK)") with (u_cal * 10 ^ 3). unfold near, R_ENG, R_SI, u_cal. rewrite (Rabs_pos_eq (83144598 / 10000)) by lra. apply abs_le. lra.
Qed.
Theorem C56_standard_day : T_STDeng * ufac "degR" = 28815 / 100 /\ near (2 / 10 ^ 7) (P_STDeng * ufac "psi") (P_REF * ufac "bar").
Proof.
  change (ufac "degR") with (5 / 9). change (ufac "psi") with (u_lbf / u_inch ^ 2). change (ufac "bar") with (10 ^ 5). unfold T_STDeng, P_STDeng, P_REF, near, u_lbf, u_inch, u_lbm.
  split; [lra|]. rewrite (Rabs_pos_eq (_ * 10 ^ 5)) by lra. apply abs_le. lra.
Qed.
(* the examples of C48 are instances: here the compressor's *)
Example C56_compressor_ex : near (1 / 10 ^ 7) (val ex_comp "power") (val ex_comp "Fl_I:stat:W" * val ex_comp "Fl_I:tot:h" -
  (val ex_comp "Fl_O:stat:W" * val ex_comp "Fl_O:tot:h" + lsum (fun b => val ex_comp (b ++ ":stat:W") * val ex_comp (b ++ ":tot:h")) ["b1"])).
Proof. apply (C56_compressor _ _ _ _ _ _ _ _ (proj1 C48_compressor_ex) (proj2 C48_compressor_ex)). Qed.
