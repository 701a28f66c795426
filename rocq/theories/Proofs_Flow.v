From Verif Require Import Lib_R Model_Flow.
Open Scope string_scope. Open Scope list_scope. Open Scope R_scope.

Ltac un := cbv beta zeta delta [inlet_compute inlet_partials miximp_compute miximp_partials areasum_compute
  imp_compute imp_partials ploss_compute ploss_partials qcalc_compute qcalc_partials dts_compute miximp_ins].

Lemma g_c_nz : g_c <> 0. Proof. unfold g_c. lra. Qed.
Local Hint Resolve g_c_nz : core.

Lemma inlet_ok : comp_ok inlet_calcs (fun _ => True).
Proof. cok inlet_calcs un ltac:(repeat split; auto). Qed.
Lemma miximp_ok : comp_ok mix_impulse (fun _ => True).
Proof. unfold mix_impulse, miximp_ins. cok mix_impulse un ltac:(repeat split; auto). Qed.
Lemma areasum_ok : comp_ok area_sum (fun _ => True).
Proof. cok area_sum un ltac:(repeat split; auto). Qed.
Lemma impulse_ok : comp_ok impulse (fun _ => True).
Proof. cok impulse un ltac:(repeat split; auto). Qed.
Lemma ploss_ok : comp_ok pressure_loss (fun _ => True).
Proof. cok pressure_loss un ltac:(repeat split; auto). Qed.
Lemma qcalc_ok : comp_ok qcalc (fun e => e (V "W_in") <> 0).
Proof. cok qcalc un ltac:(repeat split; auto). Qed.
Lemma dts_ok : comp_ok delta_ts (fun _ => True).
Proof. cok delta_ts un ltac:(repeat split; auto). Qed.

Lemma mpl_ok design expMN : comp_ok (mach_pressure_loss design expMN) (fun e => 0 < e (V "MN_in")).
Proof.
  destruct design; (split; [|split]).
  - apply jac_exact_intro. intros e old o i Hd Ho Hi. cbn [mach_pressure_loss outs ins compute partials decls] in *.
    assert (Hp := rpow_gt0 _ expMN Hd). assert (Hne := Rgt_not_eq _ _ Hp).
    inlist Ho; inlist Hi; left; (eexists; split; [intros J; unfold mpl_partials; cbv zeta; vsimp; reflexivity|]);
    (eapply dl_ext; [intros t; unfold mpl_compute; vsimp; reflexivity|]).
    + apply is_derive_Reals. evar_last.
      * apply is_derive_div; [apply (is_derive_const (V := R_NormedModule))|apply is_derive_rpow; auto|auto].
      * unfold zero; simpl. replace (- expMN - 1) with (- (expMN + 1)) by ring.
        replace (expMN - 1) with (expMN + Ropp 1) by ring. rewrite rpow_opp, !rpow_plus, (rpow_opp _ 1), rpow_1 by auto.
        field. split; auto. lra.
    + dfin ltac:(auto).
  - intros e J o i Hn. cbn [mach_pressure_loss decls partials] in *. jdecl_split. unfold mpl_partials. cbv zeta. jdecl_fin.
  - intros e e' old old' o Ho He. cbn [mach_pressure_loss outs ins compute] in *. unfold mpl_compute. inlist Ho. vsimp.
    rewrite !He by (cbn [In]; tauto). auto.
  - apply jac_exact_intro. intros e old o i Hd Ho Hi. cbn [mach_pressure_loss outs ins compute partials decls] in *.
    assert (Hp := rpow_gt0 _ expMN Hd). assert (Hne := Rgt_not_eq _ _ Hp).
    inlist Ho; inlist Hi; left; (eexists; split; [intros J; unfold mpl_partials; cbv zeta; vsimp; reflexivity|]);
    (eapply dl_ext; [intros t; unfold mpl_compute; vsimp; reflexivity|]).
    + apply is_derive_Reals. evar_last.
      * apply is_derive_scal. apply is_derive_rpow; auto.
      * unfold scal; simpl; unfold mult; simpl. ring.
    + dfin ltac:(auto).
  - intros e J o i Hn. cbn [mach_pressure_loss decls partials] in *. jdecl_split. unfold mpl_partials. cbv zeta. jdecl_fin.
  - intros e e' old old' o Ho He. cbn [mach_pressure_loss outs ins compute] in *. unfold mpl_compute. inlist Ho. vsimp.
    rewrite !He by (cbn [In]; tauto). auto.
Qed.

(* the recovery as a function of Mach number and base value *)
Definition recovery (base MN : R) : R :=
  if Rlt_dec MN 1 then base
  else if Rlt_dec MN 5 then base * (1 - (75 / 1000) * rpow (MN - 1) (135 / 100))
  else 800 / (MN ^ 4 + 935).
Lemma ms_value e old : ms_compute e old (V "ram_recovery") = recovery (e (V "ram_recovery_base")) (e (V "MN")).
Proof.
  unfold ms_compute, recovery. cbv zeta. destruct (Rlt_dec (e (V "MN")) 1); [vsimp; auto|].
  destruct (Rlt_dec (e (V "MN")) 5); vsimp; auto.
Qed.

Lemma rpow_small y eps : 0 < y -> 0 < eps -> exists d : posreal, forall h, 0 < h -> h < d -> rpow h y < eps.
Proof.
  intros Hy He. assert (Hd : 0 < Rpower eps (/ y)) by apply exp_pos.
  exists (mkposreal _ Hd). simpl. intros h Hh Hlt. rewrite rpow_pos by auto.
  replace eps with (Rpower (Rpower eps (/ y)) y).
  - unfold Rpower at 1 2. apply exp_increasing. apply Rmult_lt_compat_l; auto. apply ln_increasing; auto.
  - rewrite Rpower_mult, Rinv_l, Rpower_1; lra.
Qed.

Lemma recovery_dMN base MN : MN <> 5 ->
  derivable_pt_lim (recovery base) MN
   (if Rlt_dec MN 1 then 0 else if Rlt_dec MN 5 then - (10125 / 100000) * base * rpow (MN - 1) (35 / 100)
    else - (3200 * MN ^ 3) / (MN ^ 4 + 935) ^ 2).
Proof.
  intros H5. destruct (Rlt_dec MN 1) as [H1|H1].
  - apply dl_local with (g := fun _ => base); [|apply dl_const].
    destruct (near_lt MN 1 H1) as [d Hd]. exists d. intros t Ht. unfold recovery.
    destruct (Rlt_dec t 1); auto. destruct n. apply Hd; auto.
  - destruct (Rlt_dec MN 5) as [Hlt|Hge].
    + destruct (Req_dec MN 1) as [->|Hn1].
      * replace (1 - 1) with 0 by ring. rewrite rpow_0 by lra. rewrite Rmult_0_r.
        intros eps Heps.
        set (c := Rabs base * (75 / 1000) + 1). assert (Hb := Rabs_pos base).
        assert (Hc : 0 < c) by (unfold c; nra).
        assert (He : 0 < eps / c) by (apply Rdiv_lt_0_compat; auto).
        destruct (rpow_small (35 / 100) (eps / c) ltac:(lra) He) as [d Hd].
        assert (Hm : 0 < Rmin d 1) by (apply Rmin_pos; [apply d|lra]).
        exists (mkposreal _ Hm). simpl. intros h Hh Hlt'.
        assert (Hl1 := Rlt_le_trans _ _ _ Hlt' (Rmin_l d 1)). assert (Hl2 := Rlt_le_trans _ _ _ Hlt' (Rmin_r d 1)).
        assert (R1 : recovery base 1 = base).
        { unfold recovery. destruct (Rlt_dec 1 1); [lra|]. destruct (Rlt_dec 1 5); [|lra].
          replace (1 - 1) with 0 by ring. rewrite rpow_0 by lra. ring. }
        rewrite R1, Rminus_0_r. destruct (Rlt_dec h 0) as [Hneg|Hpos].
        -- unfold recovery. destruct (Rlt_dec (1 + h) 1); [|lra].
           replace ((base - base) / h) with 0 by (field; auto). rewrite Rabs_R0. auto.
        -- assert (Hp : 0 < h) by lra. rewrite Rabs_right in Hl1, Hl2 by lra.
           unfold recovery. destruct (Rlt_dec (1 + h) 1); [lra|]. destruct (Rlt_dec (1 + h) 5); [|lra].
           replace (1 + h - 1) with h by ring. replace (135 / 100) with (35 / 100 + 1) by lra.
           rewrite rpow_plus, rpow_1 by auto.
           replace ((base * (1 - 75 / 1000 * (rpow h (35 / 100) * h)) - base) / h)
             with (- (base * (75 / 1000)) * rpow h (35 / 100)) by (field; auto).
           rewrite Rabs_mult, Rabs_Ropp, Rabs_mult. rewrite (Rabs_right (75 / 1000)) by lra.
           assert (Hq := rpow_gt0 h (35 / 100) Hp). rewrite (Rabs_right (rpow _ _)) by lra.
           specialize (Hd h Hp Hl1).
           apply Rle_lt_trans with (c * rpow h (35 / 100)). { apply Rmult_le_compat_r; [lra|]. unfold c. lra. }
           apply Rlt_le_trans with (c * (eps / c)). { apply Rmult_lt_compat_l; auto. }
           right. field. lra.
      * assert (Hgt : 1 < MN) by lra.
        apply dl_local with (g := fun t => base * (1 - (75 / 1000) * rpow (t - 1) (135 / 100))).
        -- destruct (near_and MN _ _ (near_gt MN 1 Hgt) (near_lt MN 5 Hlt)) as [d Hd]. exists d. intros t Ht.
           destruct (Hd t Ht). unfold recovery. destruct (Rlt_dec t 1); [lra|]. destruct (Rlt_dec t 5); [auto|lra].
        -- apply is_derive_Reals.
           assert (D : is_derive (fun t => rpow (t - 1) (135 / 100)) MN (135 / 100 * rpow (MN - 1) (35 / 100))).
           { evar_last. { apply (is_derive_comp (fun t => rpow t (135 / 100)) (fun t => t - 1)).
               - apply is_derive_rpow. lra. - auto_derive; [auto|reflexivity]. }
             unfold scal; simpl; unfold mult; simpl. replace (135 / 100 - 1) with (35 / 100) by lra. ring. }
           evar_last. { apply is_derive_scal. apply (is_derive_minus (V := R_NormedModule)); [apply (is_derive_const (V := R_NormedModule))|].
             apply is_derive_scal. exact D. }
           unfold minus, plus, opp, zero, scal; simpl; unfold mult; simpl. lra.
    + assert (Hgt : 5 < MN) by lra.
      apply dl_local with (g := fun t => 800 / (t ^ 4 + 935)).
      * destruct (near_gt MN 5 Hgt) as [d Hd]. exists d. intros t Ht. specialize (Hd t Ht).
        unfold recovery. destruct (Rlt_dec t 1); [lra|]. destruct (Rlt_dec t 5); [lra|auto].
      * assert (Hp : MN ^ 4 + 935 <> 0). { assert (0 <= MN ^ 4) by (replace (MN ^ 4) with ((MN ^ 2) ^ 2) by ring; apply pow2_ge_0). lra. }
        dfin ltac:(auto).
Qed.

Lemma milspec_ok : comp_ok milspec (fun e => e (V "MN") <> 5).
Proof.
  split; [|split].
  - apply jac_exact_intro. intros e old o i Hd Ho Hi. cunfold milspec. inlist Ho; inlist Hi; left.
    + eexists. split.
      * intros J.
        assert (E : ms_partials e J (V "ram_recovery") (V "MN") =
          if Rlt_dec (e (V "MN")) 1 then 0 else if Rlt_dec (e (V "MN")) 5 then - (10125 / 100000) * e (V "ram_recovery_base") * rpow (e (V "MN") - 1) (35 / 100)
          else - (3200 * e (V "MN") ^ 3) / (e (V "MN") ^ 4 + 935) ^ 2).
        { unfold ms_partials. cbv zeta. destruct (Rlt_dec (e (V "MN")) 1); [vsimp; auto|].
          destruct (Rlt_dec (e (V "MN")) 5); vsimp; auto. }
        exact E.
      * eapply dl_ext; [|apply recovery_dMN; auto]. intros t. rewrite ms_value. vsimp. reflexivity.
    + exists (if Rlt_dec (e (V "MN")) 1 then 1 else if Rlt_dec (e (V "MN")) 5 then 1 - (75 / 1000) * rpow (e (V "MN") - 1) (135 / 100) else 0).
      split.
      * intros J. unfold ms_partials. cbv zeta. destruct (Rlt_dec (e (V "MN")) 1); [vsimp; auto|].
        destruct (Rlt_dec (e (V "MN")) 5); vsimp; auto.
      * eapply dl_ext. { intros t. rewrite ms_value. vsimp. unfold recovery. reflexivity. }
        destruct (Rlt_dec (e (V "MN")) 1); [|destruct (Rlt_dec (e (V "MN")) 5)]; dfin ltac:(auto).
  - intros e J o i Hn. cunfold milspec. jdecl_split. unfold ms_partials. cbv zeta.
    destruct (Rlt_dec (e (V "MN")) 1); [jdecl_fin|]. destruct (Rlt_dec (e (V "MN")) 5); jdecl_fin.
  - intros e e' old old' o Ho He. cunfold milspec. inlist Ho. rewrite !ms_value, !He by (cbn [In]; tauto). auto.
Qed.

Lemma rpow_le x x' y : 0 < y -> 0 <= x -> x <= x' -> rpow x y <= rpow x' y.
Proof.
  intros Hy Hx Hl. destruct (Req_dec x 0) as [->|Hn].
  - rewrite rpow_0 by lra. destruct (Req_dec x' 0) as [->|Hn']; [rewrite rpow_0 by lra; lra|].
    left. apply rpow_gt0. lra.
  - rewrite !rpow_pos by lra. apply Rle_Rpower_l; lra.
Qed.

Lemma four_135 : 6 < Rpower 4 (135 / 100) /\ Rpower 4 (135 / 100) < 7 /\ 64958 / 10000 < Rpower 4 (135 / 100).
Proof.
  assert (H20 : Rpower 4 (135 / 100) ^ 20 = 4 ^ 27).
  { rewrite <- Rpower_pow by apply exp_pos. rewrite Rpower_mult.
    replace (135 / 100 * INR 20) with (INR 27) by (simpl; lra). apply Rpower_pow. lra. }
  assert (Hp : 0 < Rpower 4 (135 / 100)) by apply exp_pos.
  set (x := Rpower 4 (135 / 100)) in *.
  assert (L : forall a, 0 < a -> a ^ 20 < 4 ^ 27 -> a < x).
  { intros a Ha Hl. destruct (Rlt_dec a x); auto. exfalso. assert (x ^ 20 <= a ^ 20) by (apply pow_incr; lra). lra. }
  assert (U : forall a, 0 < a -> 4 ^ 27 < a ^ 20 -> x < a).
  { intros a Ha Hl. destruct (Rlt_dec x a); auto. exfalso. assert (a ^ 20 <= x ^ 20) by (apply pow_incr; lra). lra. }
  split; [|split].
  - apply L; lra. - apply U; lra. - apply L; lra.
Qed.

(* bounds of the supersonic schedule *)
Lemma recovery_mid_bounds base MN : 0 < base -> 1 <= MN -> MN < 5 -> 0 < recovery base MN <= base.
Proof.
  intros Hb H1 H5. unfold recovery. destruct (Rlt_dec MN 1); [lra|]. destruct (Rlt_dec MN 5); [|lra].
  assert (L : rpow (MN - 1) (135 / 100) <= rpow 4 (135 / 100)) by (apply rpow_le; lra).
  assert (G : 0 <= rpow (MN - 1) (135 / 100)).
  { rewrite <- (rpow_0 (135 / 100)) by lra. apply rpow_le; lra. }
  rewrite (rpow_pos 4) in L by lra. destruct four_135 as [_ [U _]]. split; nra.
Qed.
Lemma recovery_mid_mono base MN MN' : 0 < base -> 1 <= MN -> MN <= MN' -> MN' < 5 -> recovery base MN' <= recovery base MN.
Proof.
  intros Hb H1 Hm H5. unfold recovery. destruct (Rlt_dec MN 1); [lra|]. destruct (Rlt_dec MN' 1); [lra|].
  destruct (Rlt_dec MN 5); [|lra]. destruct (Rlt_dec MN' 5); [|lra].
  assert (L : rpow (MN - 1) (135 / 100) <= rpow (MN' - 1) (135 / 100)) by (apply rpow_le; lra).
  apply Rmult_le_compat_l; lra.
Qed.
Lemma recovery_high base MN : 5 <= MN -> recovery base MN = 800 / (MN ^ 4 + 935).
Proof. intros H. unfold recovery. destruct (Rlt_dec MN 1); [lra|]. destruct (Rlt_dec MN 5); [lra|auto]. Qed.
Lemma recovery_high_mono base MN MN' : 5 <= MN -> MN <= MN' -> 0 < recovery base MN' <= recovery base MN.
Proof.
  intros H Hm. rewrite !recovery_high by lra. assert (MN ^ 4 <= MN' ^ 4) by (apply pow_incr; lra).
  assert (0 < MN ^ 4) by (apply pow_lt; lra). split.
  - apply Rdiv_lt_0_compat; lra.
  - unfold Rdiv. apply Rmult_le_compat_l; [lra|]. apply Rinv_le_contravar; lra.
Qed.
