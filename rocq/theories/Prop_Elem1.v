(* Claims C32-C36, C39: splitter, bleed extraction, mixer, gearbox, shaft, performance,
   inlet and duct components. *)
From Verif Require Import Lib_R.
From Verif Require Import Model_Split Model_Shaft Model_Flow Proofs_Split Proofs_Shaft Proofs_Flow.
Open Scope string_scope. Open Scope list_scope. Open Scope R_scope.

(* ---------- C32 ---------- *)
Theorem C32_splitter_conserves (e old : env) : let o := compute bpr_calc e old in
  e (V "BPR") <> -1 ->
  o (V "W1") + o (V "W2") = e (V "W_in") /\
  o (V "W2") = e (V "BPR") * o (V "W1") /\
  (0 <= e (V "W_in") -> 0 <= e (V "BPR") -> 0 <= o (V "W1") <= e (V "W_in") /\ 0 <= o (V "W2") <= e (V "W_in")).
Proof.
  cbn [bpr_calc compute]. unfold bpr_compute. cbv zeta. vsimp. intros H. assert (e (V "BPR") + 1 <> 0) by lra.
  split; [lra|]. split; [field; auto|]. intros HW HB.
  assert (H1 : 0 < e (V "BPR") + 1) by lra.
  assert (0 <= e (V "W_in") / (e (V "BPR") + 1)) by (apply Rdiv_le_0_compat; auto).
  assert (e (V "W_in") / (e (V "BPR") + 1) <= e (V "W_in")).
  { apply Rmult_le_reg_r with (e (V "BPR") + 1); auto. unfold Rdiv. rewrite Rmult_assoc, Rinv_l by lra. nra. }
  lra.
Qed.
Theorem C32_splitter_derivatives : comp_ok bpr_calc (fun e => e (V "BPR") + 1 <> 0).
Proof. exact bpr_ok. Qed.

Theorem C32_bleed_conserves (bs : list string) (e old : env) : let o := compute (bleed_calcs bs) e old in
  (forall b, In b bs -> o (B b "stat:W") = e (B b "frac_W") * e (V "W_in")) /\
  o (V "W_out") + lsum (fun b => o (B b "stat:W")) bs = e (V "W_in") /\
  (0 <= e (V "W_in") -> lsum (fun b => e (B b "frac_W")) bs <= 1 -> 0 <= o (V "W_out")).
Proof.
  cbn [bleed_calcs compute]. split; [|split].
  - intros b Hb. rewrite bleed_stat by auto. ring.
  - rewrite bleed_W_out.
    rewrite (lsum_ext (fun b => bleed_compute bs e old (B b "stat:W")) (fun b => e (V "W_in") * e (B b "frac_W"))).
    + lra. + intros. apply bleed_stat; auto.
  - intros HW Hs. rewrite bleed_W_out, lsum_scal. nra.
Qed.
Theorem C32_bleed_derivatives (bs : list string) : NoDup bs -> comp_ok (bleed_calcs bs) (fun _ => True).
Proof. exact (bleed_ok bs). Qed.

Example C32_bleed_example : NoDup ["cool1"; "cool2"; "cust"].
Proof. repeat constructor; cbn [In]; intuition discriminate. Qed.

(* ---------- C33 ---------- *)
Theorem C33_impulse_and_area (e old : env) :
  compute mix_impulse e old (V "impulse_mix") =
    compute impulse (fun v => match v with V s => e (V ("Fl_I1:stat:" ++ s)%string) | _ => 0 end) old (V "impulse") +
    compute impulse (fun v => match v with V s => e (V ("Fl_I2:stat:" ++ s)%string) | _ => 0 end) old (V "impulse") /\
  compute impulse e old (V "impulse") = e (V "P") * e (V "area") + e (V "W") * e (V "V") /\
  compute area_sum e old (V "area_sum") = e (V "Fl_I1:stat:area") + e (V "Fl_I2:stat:area").
Proof.
  cbn [mix_impulse impulse area_sum compute]. unfold miximp_compute, imp_compute, areasum_compute. vsimp. repeat split; reflexivity.
Qed.
Theorem C33_derivatives :
  comp_ok mix_impulse (fun _ => True) /\ comp_ok impulse (fun _ => True) /\ comp_ok area_sum (fun _ => True).
Proof. split; [exact miximp_ok|split; [exact impulse_ok|exact areasum_ok]]. Qed.

(* ---------- C34 ---------- *)
(* all residuals of the gearbox vanish at the state e *)
Definition gearbox_converged (design : bool) (e : env) : Prop :=
  forall o, In o (outs (gearbox design)) -> compute (gearbox design) e (fun _ => 0) o = 0.

Theorem C34_gearbox_power_balance (design : bool) (e : env) :
  e (V "N_in") <> 0 -> gearbox_converged design e ->
  e (V "N_in") * e (V "trq_in") + e (V "eff") * (e (V "N_out") * e (V "trq_out")) = 0 /\
  e (V "gear_ratio") = e (V "N_out") / e (V "N_in") /\
  e (V "trq_out") = e (V "trq_base").
Proof.
  intros HN H. unfold gearbox_converged in H. destruct design; cbn [gearbox outs compute] in H; unfold gb_resid in H.
  - assert (H1 := H (V "gear_ratio") ltac:(simpl; auto)). assert (H2 := H (V "trq_in") ltac:(simpl; auto)).
    assert (H3 := H (V "trq_out") ltac:(simpl; auto)). revert H1 H2 H3. vsimp. clear H. intros H1 H2 H3.
    assert (E : e (V "trq_in") = - e (V "trq_base") * e (V "eff") * e (V "N_out") / e (V "N_in")) by lra.
    assert (E3 : e (V "trq_out") = e (V "trq_base")) by lra.
    split; [rewrite E, E3; field; auto|]. split; lra.
  - assert (H1 := H (V "trq_base") ltac:(simpl; auto)). assert (H2 := H (V "trq_in") ltac:(simpl; auto)).
    assert (H3 := H (V "trq_out") ltac:(simpl; auto)). revert H1 H2 H3. vsimp. clear H. intros H1 H2 H3.
    assert (E : e (V "trq_in") = - e (V "trq_base") * e (V "eff") * e (V "gear_ratio")) by lra.
    assert (E3 : e (V "trq_out") = e (V "trq_base")) by lra.
    assert (E1 : e (V "N_out") = e (V "N_in") * e (V "gear_ratio")) by lra.
    split; [rewrite E, E3, E1; ring|]. split; [rewrite E1; field; auto|auto].
Qed.

(* solve_nonlinear converges a design gearbox; off design it does exactly when the speeds match *)
Theorem C34_gearbox_solve (design : bool) (e : env) :
  gearbox_converged design (gb_solve design e) <->
  (design = true \/ e (V "N_out") = e (V "N_in") * e (V "gear_ratio")).
Proof.
  unfold gearbox_converged. destruct design; cbn [gearbox outs compute]; unfold gb_resid, gb_solve; cbv zeta; (split; [intros H|]).
  - auto.
  - intros _ o Ho. inlist Ho; vsimp; ring.
  - right. specialize (H (V "trq_base") ltac:(simpl; auto)). revert H. vsimp. lra.
  - intros [H|H]; [discriminate|]. intros o Ho. inlist Ho; vsimp; try lra; ring.
Qed.
(* the efficiency acts the wrong way round: the power given to the output side is 1/eff times the power taken from the input side, so that with an
   efficiency below one a gearbox that drives its output creates power *)
Theorem C34_gearbox_gains (design : bool) (e : env) :
  e (V "N_in") <> 0 -> 0 < e (V "eff") < 1 -> gearbox_converged design e ->
  let taken := - (e (V "N_in") * e (V "trq_in")) in let given := e (V "N_out") * e (V "trq_out") in
  given = taken / e (V "eff") /\ (0 < given <-> taken < given) /\ (given < 0 <-> given < taken).
Proof.
  cbv zeta. intros HN He H. destruct (C34_gearbox_power_balance design e HN H) as (E & _). set (g := e (V "N_out") * e (V "trq_out")) in *. set (t := e (V "N_in") * e (V "trq_in")) in *. set (f := e (V "eff")) in *.
  assert (Et : - t = f * g) by lra. rewrite Et. split; [field; lra|]. assert (D : g - f * g = (1 - f) * g) by ring. split; split; intros K.
  - assert (0 < (1 - f) * g) by (apply Rmult_lt_0_compat; lra). lra.
  - apply Rnot_le_lt. intros L. assert ((1 - f) * g <= 0) by (replace ((1 - f) * g) with (- ((1 - f) * (- g))) by ring; assert (0 <= (1 - f) * (- g)) by (apply Rmult_le_pos; lra); lra). lra.
  - assert (0 < (1 - f) * (- g)) by (apply Rmult_lt_0_compat; lra). lra.
  - apply Rnot_le_lt. intros L. assert (0 <= (1 - f) * g) by (apply Rmult_le_pos; lra). lra.
Qed.
Theorem C34_gearbox_derivatives (design : bool) :
  comp_ok (gearbox design) (fun e => design = true -> e (V "N_in") <> 0).
Proof. exact (gearbox_ok design). Qed.

(* the shaft: powers in horsepower, torque in ft*lbf, 1 hp = 550 ft*lbf/s *)
Theorem C34_shaft_power_balance (n : nat) (e old : env) : let o := compute (shaft n) e old in
  let P := fun trq => trq * (2 * PI * e (V "Nmech") / 60) / 550 in       (* power of a torque *)
  let t := fun i => e (I "trq_" i) in
  let driving := filter (fun i => if Rge_dec (t i) 0 then true else false) (seq 0 n) in
  let absorbing := filter (fun i => if Rge_dec (t i) 0 then false else true) (seq 0 n) in
  e (V "Nmech") <> 0 ->
  o (V "pwr_in") = lsum (fun i => P (t i)) driving /\
  o (V "pwr_out") = lsum (fun i => P (t i)) absorbing /\
  o (V "pwr_in_real") = (1 - e (V "fracLoss")) * o (V "pwr_in") /\
  o (V "pwr_out_real") = o (V "pwr_out") - e (V "HPX") /\
  o (V "pwr_net") = o (V "pwr_in_real") + o (V "pwr_out_real") /\
  o (V "pwr_net") = P (o (V "trq_net")) /\ o (V "pwr_in") = P (o (V "trq_in")) /\ o (V "pwr_out") = P (o (V "trq_out")).
Proof.
  cbv zeta. intros HN. cbn [shaft compute]. unfold sh_compute. cbv zeta. vsimp. rewrite sh_sums_eq. cbn [fst snd].
  assert (G1 : forall l, lsum (fun i => e (I "trq_" i) * (2 * PI * e (V "Nmech") / 60) / 550)
       (filter (fun i => if Rge_dec (e (I "trq_" i)) 0 then true else false) l)
     = lsum (fun i => pospart (e (I "trq_" i))) l * e (V "Nmech") * sh_convert).
  { unfold sh_convert. induction l as [|c r IH]; simpl; [field|]. unfold pospart at 1.
    destruct (Rge_dec (e (I "trq_" c)) 0); simpl; rewrite IH; field. }
  assert (G2 : forall l, lsum (fun i => e (I "trq_" i) * (2 * PI * e (V "Nmech") / 60) / 550)
       (filter (fun i => if Rge_dec (e (I "trq_" i)) 0 then false else true) l)
     = lsum (fun i => negpart (e (I "trq_" i))) l * e (V "Nmech") * sh_convert).
  { unfold sh_convert. induction l as [|c r IH]; simpl; [field|]. unfold negpart at 1.
    destruct (Rge_dec (e (I "trq_" c)) 0); simpl; rewrite IH; field. }
  rewrite G1, G2. assert (Hc := sh_convert_pos). unfold ports.
  repeat split; try ring; unfold sh_convert; try field; assert (HP := PI_RGT_0); try split; auto; lra.
Qed.
Theorem C34_shaft_derivatives (n : nat) :
  comp_ok (shaft n) (fun e => e (V "Nmech") <> 0 /\ forall i, (i < n)%nat -> e (I "trq_" i) <> 0).
Proof. split; [exact (sh_exact n)|split; [exact (sh_declared n)|exact (sh_writes n)]]. Qed.

(* ---------- C35 ---------- *)
Theorem C35_performance_values (nn nb : nat) (e old : env) : let o := compute (performance nn nb) e old in
  o (V "Fg") = lsum (fun i => e (I "Fg_" i)) (seq 0 nn) /\
  o (V "Fn") = lsum (fun i => e (I "Fg_" i)) (seq 0 nn) - e (V "ram_drag") /\
  o (V "OPR") = e (V "Pt3") / e (V "Pt2") /\
  (nb <> O ->
    o (V "Wfuel") = lsum (fun i => e (I "Wfuel_" i)) (seq 0 nb) /\
    o (V "PSFC") = o (V "Wfuel") * 3600 / e (V "power") /\
    o (V "TSFC") = o (V "Wfuel") * 3600 / (o (V "Fn") + 1 / 10 ^ 10)).
Proof.
  cbn [performance compute]. unfold perf_compute. rewrite !acc_eq. unfold ports. cbv zeta.
  destruct nb; (split; [vsimp; auto|]); (split; [vsimp; auto|]); (split; [vsimp; auto|]); intros Hn; [congruence|].
  vsimp. replace (1 / 10 ^ 10) with (/ 10 ^ 10) by field. auto.
Qed.

(* every entry but those of TSFC is exact *)
Theorem C35_derivatives_partial (nn nb : nat) :
  jac_exact_on (performance nn nb)
    (fun e => e (V "Pt2") <> 0 /\ e (V "power") <> 0 /\ lsum (fun i => e (I "Fg_" i)) (seq 0 nn) - e (V "ram_drag") <> 0)
    (fun o _ => o <> V "TSFC")
  /\ jac_declared (performance nn nb) /\ writes_all (performance nn nb).
Proof.
  split; [|split; [apply perf_declared|apply perf_writes]].
  intros hist e old o i [H1 [H2 H3]] Ho Hi Hs. apply perf_exact_on; auto. repeat split; auto. rewrite acc_eq. exact H3.
Qed.
(* the TSFC entries are the derivatives of fuel flow over net thrust ... *)
Theorem C35_TSFC_entries_partial (nn nb : nat) (hist : list env) (e : env) (i : var) :
  let tsfc := fun e : env => lsum (fun k => e (I "Wfuel_" k)) (seq 0 nb) * 3600
                              / (lsum (fun k => e (I "Fg_" k)) (seq 0 nn) - e (V "ram_drag")) in
  nb <> O -> e (V "Pt2") <> 0 -> e (V "power") <> 0 ->
  lsum (fun k => e (I "Fg_" k)) (seq 0 nn) - e (V "ram_drag") <> 0 -> In i (ins (performance nn nb)) ->
  derivable_pt_lim (fun t => tsfc (upd e i t)) (e i) (jac_after (performance nn nb) hist e (V "TSFC") i).
Proof.
  cbv zeta. intros Hnb H1 H2 H3 Hi.
  eapply dl_ext; [|apply tsfc_ideal_deriv; auto]. { intros t. cbv beta. rewrite !acc_eq. reflexivity. }
  repeat split; auto. rewrite acc_eq. exact H3.
Qed.
(* ... and therefore not of the output TSFC, which adds 1e-10 to the thrust *)
Theorem C35_TSFC_refuted : ~ jac_exact (performance 1 1)
    (fun e => e (V "Pt2") <> 0 /\ e (V "power") <> 0 /\ lsum (fun i => e (I "Fg_" i)) (seq 0 1) - e (V "ram_drag") <> 0).
Proof.
  intros H. set (e := fun v => match v with V s => if string_dec s "ram_drag" then 0 else 1 | _ => 1 end : R).
  assert (D := H [] e (fun _ => 0) (V "TSFC") (I "Wfuel_" 0)). clear H.
  assert (D' := D ltac:(unfold e; cbn; repeat split; lra) ltac:(simpl; tauto) ltac:(simpl; tauto)). clear D.
  assert (E : derivable_pt_lim (fun t => compute (performance 1 1) (upd e (I "Wfuel_" 0) t) (fun _ => 0) (V "TSFC")) (e (I "Wfuel_" 0)) (3600 / (1 + / 10 ^ 10))).
  { assert (E0 : e (I "Wfuel_" 0) = 1 /\ e (I "Fg_" 0) = 1 /\ e (V "ram_drag") = 0) by (unfold e; cbn; auto).
    destruct E0 as [E1 [E2 E3]].
    apply dl_ext with (g := fun t => t * 3600 / (1 + / 10 ^ 10)).
    - intros t. cbn [performance compute]. unfold perf_compute. cbv zeta. vsimp.
      rewrite acc_same by (simpl; auto). rewrite (acc_other (I "Fg_")) by (intros; discriminate).
      unfold acc_loop. cbn [ports seq fold_left]. rewrite E1, E2, E3. f_equal; [ring|f_equal; ring].
    - apply is_derive_Reals. auto_derive; [|]; lra. }
  assert (U := uniqueness_limite _ _ _ _ D' E).
  assert (V1 : jac_after (performance 1 1) [] e (V "TSFC") (I "Wfuel_" 0) = 3600).
  { unfold jac_after. cbn [performance partials]. rewrite perf_partials_S by discriminate. cbv zeta. vsimp.
    rewrite loops_wf_TSFC by (simpl; auto). rewrite acc_eq. cbn [ports seq lsum]. unfold e. cbn. lra. }
  rewrite V1 in U. assert (0 < 1 + / 10 ^ 10) by lra.
  assert (3600 * (1 + / 10 ^ 10) = 3600). { rewrite U at 1. field. } lra.
Qed.

(* ---------- C36 ---------- *)
Theorem C36_recovery_subsonic (e old : env) : e (V "MN") < 1 ->
  compute milspec e old (V "ram_recovery") = e (V "ram_recovery_base").
Proof. intros H. cbn [milspec compute]. rewrite ms_value. unfold recovery. destruct (Rlt_dec (e (V "MN")) 1); [auto|lra]. Qed.
(* for Mach numbers below 5: in (0, base], non-increasing; above 5 positive and non-increasing *)
Theorem C36_recovery_schedule_partial (base MN MN' : R) (old : env) :
  let rec := fun M => compute milspec (upd (upd (fun _ => 0) (V "ram_recovery_base") base) (V "MN") M) old (V "ram_recovery") in
  0 < base -> MN <= MN' ->
  (MN' < 5 -> 0 < rec MN' <= rec MN /\ rec MN <= base) /\
  (5 <= MN -> 0 < rec MN' <= rec MN) /\ (1 <= MN < 5 -> 5 <= MN' -> base = 1 -> rec MN' <= 800 / 1560).
Proof.
  cbv zeta. cbn [milspec compute]. intros Hb Hm. rewrite !ms_value. vsimp. split; [|split].
  - intros H5. destruct (Rlt_dec MN 1) as [H1|H1].
    + assert (E : recovery base MN = base). { unfold recovery. destruct (Rlt_dec MN 1); lra. } rewrite E.
      destruct (Rlt_dec MN' 1) as [H2|H2].
      * assert (E' : recovery base MN' = base). { unfold recovery. destruct (Rlt_dec MN' 1); lra. } lra.
      * destruct (recovery_mid_bounds base MN' Hb ltac:(lra) H5). lra.
    + assert (A := recovery_mid_bounds base MN Hb ltac:(lra) ltac:(lra)).
      assert (A' := recovery_mid_bounds base MN' Hb ltac:(lra) ltac:(lra)).
      assert (M := recovery_mid_mono base MN MN' Hb ltac:(lra) Hm H5). lra.
  - intros H5. apply recovery_high_mono; auto.
  - intros _ H5 _. assert (A := recovery_high_mono base 5 MN' ltac:(lra) H5). rewrite (recovery_high base 5) in A by lra. lra.
Qed.
(* the schedule jumps up at Mach 5, even for base = 1 *)
Theorem C36_monotone_refuted : exists MN MN' : R, forall old : env,
  let rec := fun M => compute milspec (upd (upd (fun _ => 0) (V "ram_recovery_base") 1) (V "MN") M) old (V "ram_recovery") in
  1 <= MN < MN' /\ rec MN < rec MN'.
Proof.
  (* left limit at 5 is below 800/1560; by continuity some MN < 5 works *)
  destruct four_135 as [_ [_ L]].
  set (a := Rpower (64958 / 10000) (100 / 135)).
  assert (Ha : 0 < a) by apply exp_pos.
  assert (Hpa : Rpower a (135 / 100) = 64958 / 10000).
  { unfold a. rewrite Rpower_mult. replace (100 / 135 * (135 / 100)) with 1 by field. apply Rpower_1. lra. }
  assert (Ha4 : a < 4).
  { destruct (Rlt_dec a 4) as [|H]; auto. exfalso. assert (Rpower 4 (135 / 100) <= Rpower a (135 / 100)) by (apply Rle_Rpower_l; lra). lra. }
  exists (1 + a), 5. intros old. cbv zeta. split; [lra|]. cbn [milspec compute]. rewrite !ms_value. vsimp.
  rewrite (recovery_high 1 5) by lra. unfold recovery. destruct (Rlt_dec (1 + a) 1); [lra|]. destruct (Rlt_dec (1 + a) 5); [|lra].
  replace (1 + a - 1) with a by ring. rewrite rpow_pos by auto. rewrite Hpa. lra.
Qed.
(* nor is it bounded by the base value above Mach 5 *)
Theorem C36_bound_refuted (old : env) :
  let rec := fun M => compute milspec (upd (upd (fun _ => 0) (V "ram_recovery_base") (1 / 4)) (V "MN") M) old (V "ram_recovery") in
  1 / 4 < rec 5.
Proof. cbv zeta. cbn [milspec compute]. rewrite ms_value. vsimp. rewrite recovery_high by lra. lra. Qed.
(* exact everywhere except at the jump; in particular at Mach 1 *)
Theorem C36_derivatives : comp_ok milspec (fun e => e (V "MN") <> 5).
Proof. exact milspec_ok. Qed.
Theorem C36_inlet_calcs (e old : env) : let o := compute inlet_calcs e old in
  o (V "Pt_out") = e (V "Pt_in") * e (V "ram_recovery") /\ o (V "F_ram") * g_c = e (V "W_in") * e (V "V_in").
Proof. cbn [inlet_calcs compute]. unfold inlet_compute. vsimp. split; [auto|]. field. exact g_c_nz. Qed.
Theorem C36_inlet_derivatives : comp_ok inlet_calcs (fun _ => True).
Proof. exact inlet_ok. Qed.

(* ---------- C39 ---------- *)
(* scale factor computed on design, used off design at the same Mach number *)
Theorem C39_duct_round_trip (expMN : R) (e old old' : env) : 0 < e (V "MN_in") ->
  let s := compute (mach_pressure_loss true expMN) e old (V "s_dPqP") in
  compute (mach_pressure_loss false expMN) (upd e (V "s_dPqP") s) old' (V "dPqP") = e (V "dPqP").
Proof.
  intros H. cbv zeta. cbn [mach_pressure_loss compute]. unfold mpl_compute. vsimp.
  assert (Hp := rpow_gt0 _ expMN H). field. lra.
Qed.
Theorem C39_pressure_and_heat (e old : env) :
  compute pressure_loss e old (V "Pt_out") = e (V "Pt_in") - e (V "dPqP") * e (V "Pt_in") /\
  (e (V "W_in") <> 0 ->
   e (V "W_in") * compute qcalc e old (V "ht_out") = e (V "W_in") * e (V "ht_in") + e (V "Q_dot")).
Proof.
  cbn [pressure_loss qcalc compute]. unfold ploss_compute, qcalc_compute. vsimp. split; [ring|]. intros H. field. auto.
Qed.
Theorem C39_derivatives (design : bool) (expMN : R) :
  comp_ok (mach_pressure_loss design expMN) (fun e => 0 < e (V "MN_in")) /\
  comp_ok pressure_loss (fun _ => True) /\ comp_ok qcalc (fun e => e (V "W_in") <> 0).
Proof. split; [apply mpl_ok|split; [exact ploss_ok|exact qcalc_ok]]. Qed.

(* non-vacuity: the domains are inhabited *)
Example dom_shaft n : exists e : env, e (V "Nmech") <> 0 /\ forall i, (i < n)%nat -> e (I "trq_" i) <> 0.
Proof. exists (fun _ => 1). split; intros; lra. Qed.
Example dom_perf : exists e : env, e (V "Pt2") <> 0 /\ e (V "power") <> 0 /\ lsum (fun i => e (I "Fg_" i)) (seq 0 2) - e (V "ram_drag") <> 0.
Proof. exists (fun _ => 1). cbn [seq lsum]. repeat split; lra. Qed.
Example dom_gearbox design : exists e : env, e (V "N_in") <> 0 /\ 0 < e (V "eff") < 1 /\ 0 < e (V "N_out") * e (V "trq_out") /\ gearbox_converged design e.
Proof.
  exists (gb_solve design (fun v => match v with V "eff" => / 2 | _ => 1 end)). repeat match goal with |- _ /\ _ => split end.
  all: try (unfold gb_solve; destruct design; vsimp; lra). apply C34_gearbox_solve. right. lra.
Qed.
