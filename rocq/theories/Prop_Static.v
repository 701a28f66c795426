(* Claims C25-C28: static states. *)
From Verif Require Import Lib_R Lib_Loop Model_Static Proofs_Static.
Open Scope string_scope. Open Scope list_scope. Open Scope R_scope.
Lemma vd_t {A} x (a b : A) : (if var_eq_dec x x then a else b) = a.
Proof. destruct (var_eq_dec x x); [reflexivity|congruence]. Qed.
Lemma vd_f {A} x y (a b : A) : x <> y -> (if var_eq_dec x y then a else b) = b.
Proof. destruct (var_eq_dec x y); [congruence|reflexivity]. Qed.
Ltac vdec := repeat first [rewrite vd_t | rewrite vd_f by discriminate].


(* ---------- C25 ---------- *)
Theorem C25_consistent (e old : env) : let o := compute ps_calc e old in
  0 < e (V "gamma") -> 0 < e (V "R") -> 0 < e (V "Ts") -> e (V "rho") <> 0 -> e (V "hs") < e (V "ht") ->
  0 < o (V "V") /\ o (V "V") ^ 2 / 2 = e (V "ht") - e (V "hs") /\
  0 < o (V "Vsonic") /\ o (V "Vsonic") ^ 2 = e (V "gamma") * e (V "R") * e (V "Ts") /\
  o (V "MN") * o (V "Vsonic") = o (V "V") /\
  e (V "rho") * o (V "V") * o (V "area") = e (V "W").
Proof.
  cbn [ps_calc compute]. intros Hg HR HT Hr Hh. pose proof (vs_pos e Hg HR HT) as Ps. pose proof (pvV_pos e Hh) as Pv.
  unfold pv_compute; cbv zeta; vsimp.
  split; [auto|]. split; [rewrite pvV_up by lra; rewrite pow2_sqrt by lra; lra|]. split; [auto|].
  split; [unfold pv_Vsonic; apply pow2_sqrt; repeat apply Rmult_le_pos; lra|]. split; field; lra.
Qed.
(* subsonic exactly when the kinetic energy is below half the square of the speed of sound *)
Theorem C25_subsonic (e old : env) : let o := compute ps_calc e old in
  0 < e (V "gamma") -> 0 < e (V "R") -> 0 < e (V "Ts") -> e (V "hs") < e (V "ht") ->
  (o (V "MN") < 1 <-> e (V "ht") - e (V "hs") < e (V "gamma") * e (V "R") * e (V "Ts") / 2).
Proof.
  cbn [ps_calc compute]. intros Hg HR HT Hh. pose proof (vs_pos e Hg HR HT) as Ps. pose proof (pvV_pos e Hh) as Pv.
  unfold pv_compute; cbv zeta; vsimp.
  assert (E1 : pv_V e ^ 2 = 2 * (e (V "ht") - e (V "hs"))) by (rewrite pvV_up by lra; rewrite pow2_sqrt by lra; lra).
  assert (E2 : pv_Vsonic e ^ 2 = e (V "gamma") * e (V "R") * e (V "Ts")) by (unfold pv_Vsonic; apply pow2_sqrt; repeat apply Rmult_le_pos; lra).
  split; intros H.
  - assert (pv_V e < pv_Vsonic e). { apply (Rmult_lt_compat_r (pv_Vsonic e)) in H; [|auto]. unfold Rdiv in H. rewrite Rmult_assoc, Rinv_l in H by lra. lra. } nra.
  - assert (pv_V e < pv_Vsonic e) by nra. apply (Rmult_lt_reg_r (pv_Vsonic e)); [auto|]. unfold Rdiv. rewrite Rmult_assoc, Rinv_l by lra. lra.
Qed.
(* the derivatives are exact on both sides of ht = hs (where V = 0 and V has no derivative) *)
Theorem C25_derivatives :
  comp_ok ps_calc (fun e => 0 < e (V "gamma") /\ 0 < e (V "R") /\ 0 < e (V "Ts") /\ e (V "rho") <> 0 /\ e (V "hs") <> e (V "ht")).
Proof.
  split; [|split; [exact ps_calc_declared|exact ps_calc_writes]].
  intros hist e old o i (Hg & HR & HT & Hr & Hh) Ho Hi. destruct (Rdichotomy _ _ Hh) as [L|L].
  - apply ps_calc_exact; auto. repeat split; auto.
  - apply ps_calc_exact2; auto. repeat split; auto.
Qed.
(* below ht = hs the velocity is that of the mirrored enthalpies: a positive velocity although ht < hs *)
Theorem C25_inverted (e old : env) : let o := compute ps_calc e old in
  e (V "ht") < e (V "hs") -> 0 < o (V "V") /\ o (V "V") ^ 2 / 2 = e (V "hs") - e (V "ht").
Proof.
  cbn [ps_calc compute]. intros Hh. unfold pv_compute; cbv zeta; vsimp. split; [apply pvV_pos2; auto|].
  rewrite pvV_dn by lra. rewrite pow2_sqrt by lra. lra.
Qed.
Definition st_pt : env := fun v =>
  if var_eq_dec v (V "gamma") then 7/5 else if var_eq_dec v (V "R") then 287 else if var_eq_dec v (V "Ts") then 300 else
  if var_eq_dec v (V "rho") then 1 else if var_eq_dec v (V "ht") then 310000 else if var_eq_dec v (V "hs") then 300000 else
  if var_eq_dec v (V "W") then 10 else if var_eq_dec v (V "MN") then 1/2 else if var_eq_dec v (V "area") then 1 else 0.
Example C25_nonvacuous : 0 < st_pt (V "gamma") /\ 0 < st_pt (V "R") /\ 0 < st_pt (V "Ts") /\ st_pt (V "rho") <> 0 /\ st_pt (V "hs") < st_pt (V "ht").
Proof. unfold st_pt; simpl; repeat split; lra. Qed.

(* ---------- C26 ---------- *)
(* all residuals vanish: r below is zero on every state *)
Definition converged (c : comp) (e old : env) : Prop := forall x, In x (outs c) -> compute c e old x = 0.
(* the flow state is consistent: energy, speed of sound, Mach number definition, continuity *)
Definition flow_state_ok (e : env) : Prop :=
  e (V "hs") + e (V "V") ^ 2 / 2 = e (V "ht") /\ e (V "Vsonic") ^ 2 = e (V "gamma") * e (V "R") * e (V "Ts") /\ 0 <= e (V "Vsonic") /\
  e (V "V") = e (V "MN") * e (V "Vsonic") /\ e (V "rho") * e (V "V") * e (V "area") = e (V "W").
Lemma vs2 e : 0 <= e (V "gamma") * e (V "R") * e (V "Ts") -> pv_Vsonic e ^ 2 = e (V "gamma") * e (V "R") * e (V "Ts").
Proof. intros. unfold pv_Vsonic. apply pow2_sqrt; auto. Qed.
(* full claim: converged iff flow_state_ok in both modes, for every input. Proved: the two modes, away from the two special
   cases (MN below 1e-16 and a zero flow area), in which the code deliberately replaces the equation *)
Theorem C26_mach_mode_partial (e old : env) :
  e (V "ht") <> 0 -> 0 < e (V "gamma") * e (V "R") * e (V "Ts") -> e (V "rho") <> 0 -> / 10 ^ 16 <= e (V "MN") ->
  (converged ps_resid_MN e old <-> flow_state_ok e).
Proof.
  intros Hh Hp Hr Hm. assert (Hm0 : 0 < e (V "MN")) by (eapply Rlt_le_trans; [apply tiny_pos|exact Hm]).
  assert (Q := vs2 e (Rlt_le _ _ Hp)). assert (P : 0 < pv_Vsonic e) by (apply sqrt_lt_R0; auto).
  assert (A : pm_area e = Some (e (V "W") / (e (V "rho") * pv_Vsonic e * e (V "MN")))).
  { unfold pm_area, tiny. destruct (Rlt_dec _ _) as [L|]; [|reflexivity]. exfalso. exact (Rlt_irrefl _ (Rlt_le_trans _ _ _ L Hm)). }
  unfold converged. cbn [ps_resid_MN outs compute]. unfold pm_resid. cbv zeta. rewrite A. split.
  - intros H. pose proof (H (V "Ps") ltac:(cbn; tauto)) as H1. pose proof (H (V "V") ltac:(cbn; tauto)) as H2.
    pose proof (H (V "Vsonic") ltac:(cbn; tauto)) as H3. pose proof (H (V "area") ltac:(cbn; tauto)) as H4. clear H Hm.
    revert H1 H2 H3 H4. vsimp. unfold ps_resid_Ps. intros H1 H2 H3 H4.
    apply Rmult_integral in H1 as [H1|H1]; [|exfalso; revert H1; apply Rinv_neq_0_compat; auto].
    assert (EV : e (V "Vsonic") = pv_Vsonic e) by lra. assert (EV2 : e (V "V") = e (V "MN") * pv_Vsonic e) by lra.
    assert (EA : e (V "area") = e (V "W") / (e (V "rho") * pv_Vsonic e * e (V "MN"))) by lra.
    unfold flow_state_ok. rewrite EV, EV2, EA. repeat split; auto; try lra.
    + replace ((e (V "MN") * pv_Vsonic e) ^ 2) with (e (V "MN") ^ 2 * pv_Vsonic e ^ 2) by ring. rewrite Q. lra.
    + field. lra.
  - clear Hm. intros (F1 & F2 & F3 & F4 & F5) x Hx. 
    assert (EV : e (V "Vsonic") = pv_Vsonic e).
    { unfold pv_Vsonic. rewrite <- F2. symmetry. apply sqrt_pow2. auto. }
    rewrite EV in F4. inlist Hx; vsimp.
    + unfold ps_resid_Ps. rewrite F4 in F1. replace ((e (V "MN") * pv_Vsonic e) ^ 2) with (e (V "MN") ^ 2 * pv_Vsonic e ^ 2) in F1 by ring. rewrite Q in F1.
      replace (e (V "hs") + e (V "MN") ^ 2 / 2 * e (V "gamma") * (e (V "Ts") * e (V "R")) - e (V "ht")) with 0 by lra. unfold Rdiv. ring.
    + lra.
    + lra.
    + rewrite <- F5, F4. field. lra.
Qed.
Theorem C26_area_mode_partial (e old : env) :
  e (V "ht") <> 0 -> 0 < e (V "gamma") * e (V "R") * e (V "Ts") -> e (V "rho") <> 0 -> e (V "area") <> 0 ->
  (converged ps_resid_area e old <-> flow_state_ok e).
Proof.
  intros Hh Hp Hr Ha.
  assert (Q := vs2 e (Rlt_le _ _ Hp)). assert (P : 0 < pv_Vsonic e) by (apply sqrt_lt_R0; auto).
  assert (A : pa_MN e = e (V "W") / (e (V "rho") * pv_Vsonic e * e (V "area"))).
  { unfold pa_MN. destruct (Req_EM_T _ _) as [E|]; [|reflexivity]. exfalso. apply Rmult_integral in E as [E|E]; [|auto]. apply Rmult_integral in E as [E|E]; [auto|lra]. }
  unfold converged. cbn [ps_resid_area outs compute]. unfold pa_resid. cbv zeta. rewrite A. split.
  - intros H. pose proof (H (V "Ps") ltac:(cbn; tauto)) as H1. pose proof (H (V "V") ltac:(cbn; tauto)) as H2.
    pose proof (H (V "Vsonic") ltac:(cbn; tauto)) as H3. pose proof (H (V "MN") ltac:(cbn; tauto)) as H4. clear H.
    revert H1 H2 H3 H4. vsimp. unfold ps_resid_Ps. intros H1 H2 H3 H4.
    assert (EM : e (V "MN") = e (V "W") / (e (V "rho") * pv_Vsonic e * e (V "area"))) by lra. rewrite <- EM in *.
    apply Rmult_integral in H1 as [H1|H1]; [|exfalso; revert H1; apply Rinv_neq_0_compat; auto].
    assert (EV : e (V "Vsonic") = pv_Vsonic e) by lra. assert (EV2 : e (V "V") = e (V "MN") * pv_Vsonic e) by lra.
    unfold flow_state_ok. rewrite EV, EV2. repeat split; auto; try lra.
    + replace ((e (V "MN") * pv_Vsonic e) ^ 2) with (e (V "MN") ^ 2 * pv_Vsonic e ^ 2) by ring. rewrite Q. lra.
    + rewrite EM. field. lra.
  - intros (F1 & F2 & F3 & F4 & F5) x Hx.
    assert (EV : e (V "Vsonic") = pv_Vsonic e).
    { unfold pv_Vsonic. rewrite <- F2. symmetry. apply sqrt_pow2. auto. }
    rewrite EV in F4.
    assert (EM : e (V "W") / (e (V "rho") * pv_Vsonic e * e (V "area")) = e (V "MN")). { rewrite <- F5, F4. field. lra. }
    rewrite EM. inlist Hx; vsimp.
    + unfold ps_resid_Ps. rewrite F4 in F1. replace ((e (V "MN") * pv_Vsonic e) ^ 2) with (e (V "MN") ^ 2 * pv_Vsonic e ^ 2) in F1 by ring. rewrite Q in F1.
      replace (e (V "hs") + e (V "MN") ^ 2 / 2 * e (V "gamma") * (e (V "Ts") * e (V "R")) - e (V "ht")) with 0 by lra. unfold Rdiv. ring.
    + lra.
    + lra.
    + lra.
Qed.
(* energy alone needs none of the exceptions in MN mode *)
Theorem C26_energy_mach_mode (e old : env) : e (V "ht") <> 0 -> 0 <= e (V "gamma") * e (V "R") * e (V "Ts") ->
  converged ps_resid_MN e old -> e (V "hs") + e (V "V") ^ 2 / 2 = e (V "ht").
Proof.
  intros Hh Hp H. assert (Q := vs2 e Hp). unfold converged in H. cbn [ps_resid_MN outs compute] in H. unfold pm_resid in H. cbv zeta in H.
  pose proof (H (V "Ps") ltac:(cbn; tauto)) as H1. pose proof (H (V "V") ltac:(cbn; tauto)) as H2. clear H. revert H1 H2. vsimp. unfold ps_resid_Ps. intros H1 H2.
  apply Rmult_integral in H1 as [H1|H1]; [|exfalso; revert H1; apply Rinv_neq_0_compat; auto].
  assert (EV2 : e (V "V") = e (V "MN") * pv_Vsonic e) by lra. rewrite EV2.
  replace ((e (V "MN") * pv_Vsonic e) ^ 2) with (e (V "MN") ^ 2 * pv_Vsonic e ^ 2) by ring. rewrite Q. lra.
Qed.
(* Mach number zero: any flow and any finite area pass, although nothing moves *)
Definition zero_mach_pt (W a : R) : env := fun v =>
  if var_eq_dec v (V "W") then W else if var_eq_dec v (V "area") then a else if var_eq_dec v (V "MN") then 0 else
  if var_eq_dec v (V "V") then 0 else if var_eq_dec v (V "Vsonic") then sqrt (1 * 1 * 1) else 1.
Theorem C26_zero_mach_refuted (W a : R) (old : env) : let e := zero_mach_pt W a in
  e (V "ht") <> 0 /\ 0 < e (V "gamma") * e (V "R") * e (V "Ts") /\ e (V "rho") <> 0 /\
  converged ps_resid_MN e old /\ e (V "rho") * e (V "V") * e (V "area") = 0 /\ e (V "W") = W.
Proof.
  cbv zeta. unfold zero_mach_pt at 1 2 3 4 5; vdec. repeat split; try lra.
  - intros x Hx. assert (T := tiny_pos). cbn [ps_resid_MN outs compute] in *. unfold pm_resid, pm_area, pv_Vsonic, ps_resid_Ps, zero_mach_pt, tiny; cbv zeta. vdec.
    destruct (Rlt_dec _ _) as [_|N]; [|exfalso; auto]. inlist Hx; vsimp; lra.
  - unfold zero_mach_pt; vdec. ring.
Qed.
(* area mode with zero area: the Mach number 5 is accepted whatever the flow is *)
Definition zero_area_pt (W : R) : env := fun v =>
  if var_eq_dec v (V "W") then W else if var_eq_dec v (V "area") then 0 else if var_eq_dec v (V "MN") then 5 else
  if var_eq_dec v (V "V") then 5 * sqrt (1 * 1 * 1) else if var_eq_dec v (V "Vsonic") then sqrt (1 * 1 * 1) else
  if var_eq_dec v (V "ht") then 1 + 25 / 2 else 1.
Theorem C26_zero_area_refuted (W : R) (old : env) : let e := zero_area_pt W in
  e (V "ht") <> 0 /\ 0 < e (V "gamma") * e (V "R") * e (V "Ts") /\ e (V "rho") <> 0 /\
  converged ps_resid_area e old /\ e (V "MN") = 5 /\ e (V "rho") * e (V "V") * e (V "area") = 0 /\ e (V "W") = W.
Proof.
  cbv zeta. unfold zero_area_pt at 1 2 3 4 5; vdec. repeat split; try lra.
  - intros x Hx. cbn [ps_resid_area outs compute] in *. unfold pa_resid, pa_MN, pv_Vsonic, ps_resid_Ps, zero_area_pt; cbv zeta. vdec.
    destruct (Req_EM_T _ _) as [_|N]; [|exfalso; apply N; ring]. inlist Hx; vsimp; lra.
  - unfold zero_area_pt; vdec. ring.
Qed.
(* a converged state in both modes *)
Definition conv_pt : env := fun v =>
  if var_eq_dec v (V "MN") then 1/2 else if var_eq_dec v (V "V") then 1/2 else if var_eq_dec v (V "ht") then 9/8 else if var_eq_dec v (V "area") then 2 else 1.
Example C26_nonvacuous : flow_state_ok conv_pt /\ conv_pt (V "ht") <> 0 /\ 0 < conv_pt (V "gamma") * conv_pt (V "R") * conv_pt (V "Ts") /\
  conv_pt (V "rho") <> 0 /\ conv_pt (V "area") <> 0 /\ 1/2 <= conv_pt (V "MN").
Proof. unfold flow_state_ok, conv_pt; vdec. repeat split; lra. Qed.

(* ---------- C27 ---------- *)
(* Mach number mode: exact everywhere above the threshold *)
Theorem C27_mach_mode : comp_ok ps_resid_MN (fun e =>
  0 < e (V "gamma") /\ 0 < e (V "R") /\ 0 < e (V "Ts") /\ e (V "rho") <> 0 /\ e (V "ht") <> 0 /\ / 10 ^ 16 < e (V "MN")).
Proof. split; [exact ps_resid_MN_exact|split; [exact ps_resid_MN_declared|exact ps_resid_MN_writes]]. Qed.
(* below the threshold the entries of the previous linearisation stay: after linearising at Mach 1/2, dV/dMN is exact, but
   d area/d W, which is 0 there (the area residual is the constant 0), is still the old value *)
Definition mach_pt (m : R) : env := fun v => if var_eq_dec v (V "MN") then m else 1.
Theorem C27_below_threshold_refuted : exists hist e old,
  0 < e (V "gamma") /\ 0 < e (V "R") /\ 0 < e (V "Ts") /\ e (V "rho") <> 0 /\ e (V "ht") <> 0 /\ e (V "MN") = 0 /\
  jac_after ps_resid_MN hist e (V "area") (V "W") <> jac_after ps_resid_MN [] e (V "area") (V "W") /\
  ~ derivable_pt_lim (fun t => compute ps_resid_MN (upd e (V "W") t) old (V "area")) (e (V "W")) (jac_after ps_resid_MN hist e (V "area") (V "W")).
Proof.
  assert (T := tiny_pos). assert (T2 : / 10 ^ 16 <= 1 / 2).
  { apply Rle_trans with (/ 2); [|lra]. apply Rinv_le_contravar; [lra|]. apply Rle_trans with (10 ^ 1); [lra|]. apply Rle_pow; [lra|]. repeat constructor. }
  assert (J0 : jac_after ps_resid_MN [] (mach_pt 0) (V "area") (V "W") = 0).
  { unfold jac_after. cbn [ps_resid_MN partials fold_left decls]. unfold pm_linearize, tiny; cbv zeta.
    destruct (Rle_dec _ _) as [L|_]; [exfalso; unfold mach_pt in L; revert L; vdec; intros L; exact (Rlt_irrefl _ (Rlt_le_trans _ _ _ T L))|].
    vsimp. unfold ps_base_decls. jinit_tac. reflexivity. }
  assert (J1 : jac_after ps_resid_MN [mach_pt (1/2)] (mach_pt 0) (V "area") (V "W") = 1 / (1 * sqrt (1 * 1 * 1) * (1/2))).
  { unfold jac_after. cbn [ps_resid_MN partials fold_left decls]. unfold pm_linearize at 1, tiny; cbv zeta.
    destruct (Rle_dec _ _) as [L|_]; [exfalso; unfold mach_pt in L; revert L; vdec; intros L; exact (Rlt_irrefl _ (Rlt_le_trans _ _ _ T L))|].
    vsimp. unfold pm_linearize, tiny; cbv zeta.
    destruct (Rle_dec _ _) as [_|N]; [|exfalso; unfold mach_pt in N; revert N; vdec; intros N; auto].
    vsimp. unfold pv_Vsonic, mach_pt; vdec. reflexivity. }
  assert (E : 1 / (1 * sqrt (1 * 1 * 1) * (1/2)) = 2). { rewrite !Rmult_1_l, sqrt_1. field. }
  exists [mach_pt (1/2)], (mach_pt 0), (fun _ => 0). unfold mach_pt at 1 2 3 4 5 6; vdec.
  do 6 (split; [lra|]). split; [rewrite J0, J1, E; lra|]. rewrite J1, E. intros D.
  assert (D0 : derivable_pt_lim (fun t => compute ps_resid_MN (upd (mach_pt 0) (V "W") t) (fun _ => 0) (V "area")) (mach_pt 0 (V "W")) 0).
  { eapply dl_ext; [|apply derivable_pt_lim_const with (a := 0)]. intros t. cbn [ps_resid_MN compute]. unfold pm_resid, pm_area, tiny; cbv zeta. vsimp.
    unfold mach_pt; vdec. destruct (Rlt_dec _ _) as [_|N]; [reflexivity|]. exfalso; auto. }
  pose proof (uniqueness_limite _ _ _ _ D D0). lra.
Qed.
(* area mode: exact at every point where the Mach number state agrees with the inputs (in particular at convergence) ... *)
Theorem C27_area_mode_partial : comp_ok ps_resid_area (fun e =>
  0 < e (V "gamma") /\ 0 < e (V "R") /\ 0 < e (V "Ts") /\ e (V "rho") <> 0 /\ e (V "ht") <> 0 /\ e (V "area") <> 0 /\
  e (V "MN") * (e (V "rho") * sqrt (e (V "gamma") * e (V "R") * e (V "Ts")) * e (V "area")) = e (V "W")).
Proof.
  split; [|split; [exact ps_resid_area_declared|exact ps_resid_area_writes]].
  intros hist e old o i (Hg & HR & HT & Hr & Hh & Ha & HM) Ho Hi. apply ps_resid_area_exact; auto. split; [repeat split; auto|].
  pose proof (vs_pos e Hg HR HT) as P. change (sqrt (e (V "gamma") * e (V "R") * e (V "Ts"))) with (pv_Vsonic e) in HM. rewrite <- HM. field. lra.
Qed.
(* ... and, wherever it is, every entry except d Ps/d(ht, Ts, R, gamma) *)
Theorem C27_area_mode_other_entries : jac_exact_on ps_resid_area
  (fun e => 0 < e (V "gamma") /\ 0 < e (V "R") /\ 0 < e (V "Ts") /\ e (V "rho") <> 0 /\ e (V "ht") <> 0 /\ e (V "area") <> 0)
  (fun o i => o <> V "Ps" \/ ~ In i [V "ht"; V "Ts"; V "R"; V "gamma"]).
Proof. exact ps_resid_area_exact_on. Qed.
(* d Ps/d ht uses the Mach number state, the residual the computed one *)
Theorem C27_area_mode_refuted : exists e old,
  0 < e (V "gamma") /\ 0 < e (V "R") /\ 0 < e (V "Ts") /\ e (V "rho") <> 0 /\ e (V "ht") <> 0 /\ e (V "area") <> 0 /\
  ~ derivable_pt_lim (fun t => compute ps_resid_area (upd e (V "ht") t) old (V "Ps")) (e (V "ht")) (jac_after ps_resid_area [] e (V "Ps") (V "ht")).
Proof.
  set (e := mach_pt 2). exists e, (fun _ => 0). unfold e, mach_pt at 1 2 3 4 5 6; vdec. repeat split; try lra. intros D.
  set (e1 := mach_pt 1).
  assert (D1 := ps_resid_area_exact [] e1 (fun _ => 0) (V "Ps") (V "ht")). cbn beta in D1.
  assert (H1 : area_dom e1 /\ e1 (V "MN") = e1 (V "W") / (e1 (V "rho") * pv_Vsonic e1 * e1 (V "area"))).
  { unfold area_dom, e1, mach_pt, pv_Vsonic; vdec. rewrite !Rmult_1_l, !Rmult_1_r, sqrt_1. repeat split; lra. }
  specialize (D1 H1 ltac:(cbn; tauto) ltac:(cbn; tauto)).
  assert (D2 : derivable_pt_lim (fun t => compute ps_resid_area (upd (mach_pt 2) (V "ht") t) (fun _ => 0) (V "Ps")) (mach_pt 2 (V "ht")) (jac_after ps_resid_area [] e1 (V "Ps") (V "ht"))).
  { eapply dl_ext; [|exact D1]. intros t. unfold e1. cbn [ps_resid_area compute]. unfold pa_resid, pa_MN, pv_Vsonic, ps_resid_Ps; cbv zeta; vsimp. reflexivity. }
  pose proof (uniqueness_limite _ _ _ _ D D2) as U. revert U. unfold jac_after, e1. cbn [ps_resid_area partials fold_left]. unfold pa_linearize; cbv zeta; vsimp.
  unfold mach_pt; vdec. lra.
Qed.
Example C27_nonvacuous : 0 < st_pt (V "gamma") /\ 0 < st_pt (V "R") /\ 0 < st_pt (V "Ts") /\ st_pt (V "rho") <> 0 /\ st_pt (V "ht") <> 0 /\ / 10 ^ 16 < st_pt (V "MN").
Proof.
  unfold st_pt; vdec. repeat split; try lra.
Qed.

(* ---------- C28 ---------- *)
(* what each call of a history does: Some p when outputs['Ps'] is overwritten by p *)
Fixpoint guess_trace (mn_mode : bool) (cache : R) (l : list R) : list (option R) :=
  match l with [] => [] | g :: r => let '(a, c) := guess_step mn_mode g cache in a :: guess_trace mn_mode c r end.
(* the pressure that was last written, by a history of calls *)
Fixpoint last_written (l : list (option R)) (d : R) : R :=
  match l with [] => d | Some p :: r => last_written r p | None :: r => last_written r d end.
Lemma trace_app m l1 : forall l2 c, guess_trace m c (l1 ++ l2) = guess_trace m c l1 ++ guess_trace m (fold_left (fun c g => snd (guess_step m g c)) l1 c) l2.
Proof.
  induction l1 as [|g r IH]; intros; cbn [app guess_trace fold_left]; [reflexivity|]. destruct (guess_step m g c) as [a c'] eqn:E. rewrite IH. reflexivity.
Qed.
Lemma last_is_cache m l : forall c, last_written (guess_trace m c l) c = fold_left (fun c g => snd (guess_step m g c)) l c.
Proof.
  induction l as [|g r IH]; intros; cbn [guess_trace last_written fold_left]; [reflexivity|].
  assert (E : let '(a, c') := guess_step m g c in match a with Some p => p = c' | None => c = c' end).
  { unfold guess_step. destruct (Rlt_dec _ _); [|reflexivity]. destruct m; [destruct (Req_EM_T _ _)|]; reflexivity. }
  destruct (guess_step m g c) as [[p|] c']; cbn [last_written snd]; subst; apply IH.
Qed.
(* area mode: in every history of (positive) guesses the first is applied, and a later one exactly when it differs by more
   than 1e-10 from the one applied last, and what is applied is the new guess *)
Theorem C28_area_mode (before : list R) (g : R) : (forall x, In x before -> 0 < x) -> 0 < g ->
  exists r, guess_trace false guess_init (before ++ [g]) = guess_trace false guess_init before ++ [r] /\
    (before = [] -> r = Some g) /\
    (before <> [] ->
      let p := last_written (guess_trace false guess_init before) 0 in
      (/ 10 ^ 10 < Rabs (g - p) -> r = Some g) /\ (Rabs (g - p) <= / 10 ^ 10 -> r = None)).
Proof.
  intros Hb Hg. assert (T10 : / 10 ^ 10 < 1). { rewrite <- Rinv_1. apply Rinv_lt_contravar; [|apply (Rlt_pow_R1 10 10); [lra|repeat constructor]]. rewrite Rmult_1_l. apply pow_lt. lra. }
  assert (First : forall x, 0 < x -> guess_step false x guess_init = (Some x, x)).
  { intros x Hx. unfold guess_step, guess_init. destruct (Rlt_dec _ _) as [|N]; [reflexivity|]. exfalso. apply N. eapply Rlt_trans; [exact T10|]. rewrite Rabs_right; lra. }
  rewrite trace_app. exists (fst (guess_step false g (fold_left (fun c g => snd (guess_step false g c)) before guess_init))).
  split; [cbn [guess_trace]; destruct (guess_step false g _) as [a c]; reflexivity|].
  split.
  - intros ->. cbn [fold_left]. rewrite First by auto. reflexivity.
  - intros Hne. cbv zeta.
    assert (L : last_written (guess_trace false guess_init before) 0 = fold_left (fun c g => snd (guess_step false g c)) before guess_init).
    { destruct before as [|b r]; [tauto|]. rewrite <- last_is_cache. cbn [guess_trace]. rewrite First by (apply Hb; left; auto). reflexivity. }
    rewrite L. set (p := fold_left _ _ _). unfold guess_step. destruct (Rlt_dec _ _) as [Y|N]; cbn; split; intros; auto; exfalso.
    + exact (Rlt_irrefl _ (Rlt_le_trans _ _ _ Y H)).
    + auto.
Qed.
(* MN mode: only the first guess of the component's life is ever applied *)
Theorem C28_mach_mode_first_only (g : R) (later : list R) : 0 < g ->
  guess_trace true guess_init (g :: later) = Some g :: map (fun _ => None) later.
Proof.
  intros Hg. assert (T10 : / 10 ^ 10 < 1). { rewrite <- Rinv_1. apply Rinv_lt_contravar; [|apply (Rlt_pow_R1 10 10); [lra|repeat constructor]]. rewrite Rmult_1_l. apply pow_lt. lra. }
  cbn [guess_trace]. unfold guess_step at 1, guess_init. destruct (Rlt_dec _ _) as [_|N].
  2: { exfalso. apply N. eapply Rlt_trans; [exact T10|]. rewrite Rabs_right; lra. }
  destruct (Req_EM_T _ _) as [_|N]; [|congruence]. f_equal. induction later as [|x r IH]; cbn [guess_trace map]; [reflexivity|].
  unfold guess_step at 1. destruct (Rlt_dec _ _); [destruct (Req_EM_T _ _) as [E|_]; [exfalso; lra|]|]; rewrite IH; reflexivity.
Qed.
(* so a changed demand does not refresh the guess: total pressure 1 then 2, Mach number 1/2 *)
Definition demand (pt : R) : env := fun v => if var_eq_dec v (V "guess:Pt") then pt else if var_eq_dec v (V "MN") then 1/2 else 7/5.
Theorem C28_mach_mode_refuted : exists e1 e2, ps_guess_MN e2 = 2 * ps_guess_MN e1 /\ 0 < ps_guess_MN e1 /\
  guess_trace true guess_init [ps_guess_MN e1; ps_guess_MN e2] = [Some (ps_guess_MN e1); None].
Proof.
  exists (demand 1), (demand 2).
  assert (E : ps_guess_MN (demand 2) = 2 * ps_guess_MN (demand 1)).
  { unfold ps_guess_MN, demand. vdec. rewrite Rmult_1_l. reflexivity. }
  assert (P : 0 < ps_guess_MN (demand 1)).
  { unfold ps_guess_MN, demand. vdec. rewrite Rmult_1_l. unfold rpow. destruct (Req_EM_T _ _) as [K|_]; [exfalso; lra|]. unfold Rpower. apply exp_pos. }
  split; [exact E|]. split; [exact P|]. apply (C28_mach_mode_first_only _ [ps_guess_MN (demand 2)] P).
Qed.
Example C28_nonvacuous : exists r, guess_trace false guess_init [1; 2; 2] = [Some 1; Some 2; r].
Proof.
  assert (T10 : / 10 ^ 10 < 1). { rewrite <- Rinv_1. apply Rinv_lt_contravar; [|apply (Rlt_pow_R1 10 10); [lra|repeat constructor]]. rewrite Rmult_1_l. apply pow_lt. lra. }
  cbn [guess_trace]. unfold guess_step, guess_init.
  destruct (Rlt_dec _ _) as [_|N]; [|exfalso; apply N; eapply Rlt_trans; [exact T10|]; rewrite Rabs_right; lra].
  destruct (Rlt_dec (/ 10 ^ 10) (Rabs (2 - 1))) as [_|N]; [|exfalso; apply N; rewrite Rabs_right by lra; replace (2-1) with 1 by lra; exact T10].
  destruct (Rlt_dec _ _); eexists; reflexivity.
Qed.
