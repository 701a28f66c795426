(* Proofs about the turbine cooling components. *)
From Verif Require Import Lib_R Lib_Loop Model_Cooling.
Open Scope string_scope. Open Scope list_scope. Open Scope R_scope.

(* ---- CombineCooling ---- *)
Lemma cc_sum n e old : cc_compute n e old (V "W_cool") = lsum (fun i => e (I "W_" i)) (seq 1 n).
Proof.
  unfold cc_compute. rewrite upd_eq.
  rewrite (fold_acc (fun (acc : R) i => acc + e (I "W_" i)) (fun a => a) (seq 1 n) 0 (fun i => e (I "W_" i))); auto. lra.
Qed.
Lemma cc_ok n : comp_ok (combine_cooling n) (fun _ => True).
Proof.
  split; [|split].
  - apply jac_exact_intro. intros e old o i _ Ho Hi. cbn [combine_cooling outs ins compute partials decls] in *.
    destruct Ho as [<-|[]]. right. split; auto.
    unfold jinit. cbn [fold_left]. rewrite in_dec_true by (cbn [In]; auto). rewrite in_dec_true by auto.
    apply in_map_iff in Hi. destruct Hi as [k [<- Hk]].
    eapply dl_ext; [intros t; apply cc_sum|].
    apply is_derive_Reals. apply is_derive_lsum_single with (a := k); [apply seq_NoDup|auto| |].
    + intros b _ Hb. apply (is_derive_ext (fun _ => e (I "W_" b))). { intros t. rewrite upd_neq; auto. congruence. }
      apply (is_derive_const (V := R_NormedModule)).
    + apply (is_derive_ext (fun t => t)). { intros t. now rewrite upd_eq. } apply (is_derive_id (K := R_AbsRing)).
  - intros e J o i _. reflexivity.
  - intros e e' old old' o Ho He. cbn [combine_cooling outs ins compute] in *. destruct Ho as [<-|[]]. rewrite !cc_sum.
    apply lsum_ext. intros a Ha. apply He. apply in_map. auto.
Qed.

(* ---- CoolingCalcs ---- *)
Section Cool.
Variable r : row.
Notation Tm := (T_metal r).
Definition pf := profile_factor r.
Lemma pf_pos : 0 < pf. Proof. unfold pf, profile_factor. destruct (i_row r); lra. Qed.
Definition kT : R := if is_stator r then 1 else 92 / 100.
Lemma T_gas_lin e : cool_T_gas r e = kT * e (V "Tt_primary") + T_safety r.
Proof. unfold cool_T_gas, kT. destruct (is_stator r); lra. Qed.

(* phi'/(1-phi') as a function of the gas and coolant temperatures *)
Definition qf (Tg Tc : R) : R := (Tg - Tm + pf * (Tg - Tc)) / (Tm - Tc).
Lemma qf_eq e : e (V "Tt_cool") < Tm -> Tm <= cool_T_gas r e ->
  cool_phi' r e / (1 - cool_phi' r e) = qf (cool_T_gas r e) (e (V "Tt_cool")).
Proof.
  intros H1 H2. assert (P := pf_pos). unfold cool_phi', qf. fold pf. field. repeat split; try lra.
Qed.
Lemma qf_pos Tg Tc : Tc < Tm -> Tm <= Tg -> 0 < qf Tg Tc.
Proof. intros H1 H2. assert (P := pf_pos). unfold qf. apply Rdiv_lt_0_compat; [|lra]. nra. Qed.

Definition kW : R := 22 / 1000 * (4 / 3).
Lemma W_hot e : e (V "Tt_cool") < Tm -> Tm <= cool_T_gas r e ->
  cool_W r e = kW * e (V "x_factor") * e (V "W_primary") * rpow (qf (cool_T_gas r e) (e (V "Tt_cool"))) (125 / 100).
Proof. intros H1 H2. unfold cool_W, kW. destruct (Rlt_dec _ _); [lra|]. rewrite qf_eq by auto. ring. Qed.
Lemma W_cold e : cool_T_gas r e < Tm -> cool_W r e = 0.
Proof. intros H. unfold cool_W. destruct (Rlt_dec _ _); [auto|lra]. Qed.
Lemma W_pos e : e (V "Tt_cool") < Tm -> Tm <= cool_T_gas r e -> 0 < e (V "x_factor") -> 0 < e (V "W_primary") -> 0 < cool_W r e.
Proof.
  intros H1 H2 H3 H4. rewrite W_hot by auto. assert (Q := qf_pos _ _ H1 H2).
  assert (0 < rpow (qf (cool_T_gas r e) (e (V "Tt_cool"))) (125 / 100)) by (apply rpow_gt0; auto).
  unfold kW. repeat apply Rmult_lt_0_compat; auto; lra.
Qed.
Lemma W_nonneg e : e (V "Tt_cool") < Tm -> 0 <= e (V "x_factor") -> 0 <= e (V "W_primary") -> 0 <= cool_W r e.
Proof.
  intros H1 H3 H4. destruct (Rlt_dec (cool_T_gas r e) Tm) as [C|C]; [rewrite W_cold by auto; lra|].
  assert (C' : Tm <= cool_T_gas r e) by lra. rewrite W_hot by auto. assert (Q := qf_pos _ _ H1 C').
  assert (0 < rpow (qf (cool_T_gas r e) (e (V "Tt_cool"))) (125 / 100)) by (apply rpow_gt0; auto).
  unfold kW. repeat apply Rmult_le_pos; auto; lra.
Qed.

Definition cool_dom (e : env) : Prop := (0 < n_stages r)%nat /\ 0 < e (V "W_primary") /\ 0 <= e (V "x_factor") /\
  e (V "Tt_cool") < Tm /\ cool_T_gas r e <> Tm.

(* values of the tuple of local derivatives *)
Definition dW_dx (e : env) := let '(a, _, _, _, _) := cool_dW r e in a.
Definition dW_dWp (e : env) := let '(_, a, _, _, _) := cool_dW r e in a.
Definition dW_dTp (e : env) := let '(_, _, a, _, _) := cool_dW r e in a.
Definition dW_dTc (e : env) := let '(_, _, _, a, _) := cool_dW r e in a.
Definition dW_W (e : env) := let '(_, _, _, _, a) := cool_dW r e in a.
Lemma dW_W_eq e : dW_W e = cool_W r e.
Proof. unfold dW_W, cool_dW, cool_W. cbv zeta. destruct (Rlt_dec _ _); auto. fold (cool_phi' r e). cbv beta iota. unfold cool_phi'. cbv zeta. field. Qed.

(* which inputs the cooling flow depends on, locally *)
Lemma hot_local e i : cool_dom e -> Tm < cool_T_gas r e ->
  exists d : posreal, forall t, Rabs (t - e i) < d -> upd e i t (V "Tt_cool") < Tm /\ Tm <= cool_T_gas r (upd e i t).
Proof.
  intros [_ [_ [_ [Hc _]]]] Hg. apply near_and.
  - destruct (var_eq_dec i (V "Tt_cool")) as [->|N].
    + destruct (near_lt _ _ Hc) as [d Hd]. exists d. intros t Ht. rewrite upd_eq. auto.
    + exists (mkposreal 1 Rlt_0_1). intros. rewrite upd_neq; auto.
  - rewrite T_gas_lin in Hg. destruct (var_eq_dec i (V "Tt_primary")) as [->|N].
    + assert (K : 0 < kT) by (unfold kT; destruct (is_stator r); lra).
      assert (G : (Tm - T_safety r) / kT < e (V "Tt_primary")).
      { apply Rmult_lt_reg_r with kT; auto. unfold Rdiv. rewrite Rmult_assoc, Rinv_l by lra. lra. }
      destruct (near_gt _ _ G) as [d Hd]. exists d. intros t Ht. rewrite T_gas_lin, upd_eq. specialize (Hd t Ht).
      apply Rmult_lt_compat_r with (r := kT) in Hd; auto. unfold Rdiv in Hd. rewrite Rmult_assoc, Rinv_l in Hd by lra. lra.
    + exists (mkposreal 1 Rlt_0_1). intros. rewrite T_gas_lin, upd_neq; auto. lra.
Qed.
Lemma cold_local e i : cool_T_gas r e < Tm ->
  exists d : posreal, forall t, Rabs (t - e i) < d -> cool_W r (upd e i t) = 0.
Proof.
  intros Hg. cut (exists d : posreal, forall t, Rabs (t - e i) < d -> cool_T_gas r (upd e i t) < Tm).
  { intros [d Hd]. exists d. intros t Ht. apply W_cold. auto. }
  rewrite T_gas_lin in Hg. destruct (var_eq_dec i (V "Tt_primary")) as [->|N].
  + assert (K : 0 < kT) by (unfold kT; destruct (is_stator r); lra).
    assert (G : e (V "Tt_primary") < (Tm - T_safety r) / kT).
    { apply Rmult_lt_reg_r with kT; auto. unfold Rdiv. rewrite Rmult_assoc, Rinv_l by lra. lra. }
    destruct (near_lt _ _ G) as [d Hd]. exists d. intros t Ht. rewrite T_gas_lin, upd_eq. specialize (Hd t Ht).
    apply Rmult_lt_compat_r with (r := kT) in Hd; auto. unfold Rdiv in Hd. rewrite Rmult_assoc, Rinv_l in Hd by lra. lra.
  + exists (mkposreal 1 Rlt_0_1). intros. rewrite T_gas_lin, upd_neq; auto.
Qed.
Lemma is_derive_rpow_comp (f : R -> R) x df y : is_derive f x df -> 0 < f x ->
  is_derive (fun t => rpow (f t) y) x (y * rpow (f x) (y - 1) * df).
Proof.
  intros Hf Hp. assert (D := is_derive_comp (fun u => rpow u y) f x _ _ (is_derive_rpow (f x) y Hp) Hf).
  eapply is_derive_val; [exact D|]. unfold scal; simpl; unfold mult; simpl. ring.
Qed.
Lemma W_derive_hot e : cool_dom e -> Tm < cool_T_gas r e ->
  is_derive (fun t => cool_W r (upd e (V "x_factor") t)) (e (V "x_factor")) (dW_dx e) /\
  is_derive (fun t => cool_W r (upd e (V "W_primary") t)) (e (V "W_primary")) (dW_dWp e) /\
  is_derive (fun t => cool_W r (upd e (V "Tt_primary") t)) (e (V "Tt_primary")) (dW_dTp e) /\
  is_derive (fun t => cool_W r (upd e (V "Tt_cool") t)) (e (V "Tt_cool")) (dW_dTc e).
Proof.
  intros Hd Hg. assert (P := pf_pos). destruct Hd as [Hn [HW [Hx [Hc Hne]]]].
  assert (Hd : cool_dom e) by (repeat split; auto).
  assert (Q : 0 < qf (cool_T_gas r e) (e (V "Tt_cool"))) by (apply qf_pos; lra).
  assert (QE := qf_eq e Hc (Rlt_le _ _ Hg)).
  assert (LOC : forall i g l, (forall t, g t = kW * upd e i t (V "x_factor") * upd e i t (V "W_primary") *
      rpow (qf (cool_T_gas r (upd e i t)) (upd e i t (V "Tt_cool"))) (125 / 100)) ->
      is_derive g (e i) l -> is_derive (fun t => cool_W r (upd e i t)) (e i) l).
  { intros i g l Hgt D. eapply is_derive_ext_loc; [|exact D]. destruct (hot_local e i Hd Hg) as [d Hl]. exists d. intros t Ht.
    rewrite Hgt. destruct (Hl t Ht). symmetry. apply W_hot; auto. }
  assert (ED : cool_dW r e = (22 / 1000 * 4 / 3 * rpow (qf (cool_T_gas r e) (e (V "Tt_cool"))) (125 / 100) * e (V "W_primary"),
     22 / 1000 * 4 / 3 * rpow (qf (cool_T_gas r e) (e (V "Tt_cool"))) (125 / 100) * e (V "x_factor"),
     kW * e (V "W_primary") * e (V "x_factor") * (125 / 100 * rpow (qf (cool_T_gas r e) (e (V "Tt_cool"))) (25 / 100) * ((1 + pf) * kT / (Tm - e (V "Tt_cool")))),
     kW * e (V "W_primary") * e (V "x_factor") * (125 / 100 * rpow (qf (cool_T_gas r e) (e (V "Tt_cool"))) (25 / 100) *
        ((1 + pf) * (cool_T_gas r e - Tm) / (Tm - e (V "Tt_cool")) ^ 2)),
     22 / 1000 * 4 / 3 * e (V "x_factor") * e (V "W_primary") * rpow (qf (cool_T_gas r e) (e (V "Tt_cool"))) (125 / 100))).
  { rewrite <- QE. unfold cool_dW. cbv zeta. destruct (Rlt_dec _ _); [lra|]. fold kT. fold pf. unfold cool_phi'. fold pf.
    set (A := rpow _ (25 / 100)). set (A5 := rpow _ (125 / 100)). clearbody A A5. clear QE LOC.
    assert (H1 : cool_T_gas r e - e (V "Tt_cool") <> 0) by lra. assert (H2 : Tm - e (V "Tt_cool") <> 0) by lra. assert (H3 : pf + 1 <> 0) by lra.
    assert (H4 : 1 - ((cool_T_gas r e - Tm) / (cool_T_gas r e - e (V "Tt_cool")) + pf) / (pf + 1) =
                 (Tm - e (V "Tt_cool")) / ((cool_T_gas r e - e (V "Tt_cool")) * (pf + 1))) by (field; auto).
    rewrite H4. unfold kW. f_equal. f_equal. f_equal. all: field; auto. }
  unfold dW_dx, dW_dWp, dW_dTp, dW_dTc. rewrite ED. clear ED.
  set (q := qf (cool_T_gas r e) (e (V "Tt_cool"))) in *.
  split; [|split; [|split]].
  - apply (LOC _ (fun t => kW * t * e (V "W_primary") * rpow q (125 / 100))).
    { intros t. rewrite T_gas_lin. vsimp. rewrite <- T_gas_lin. reflexivity. }
    auto_derive; auto. unfold kW. field.
  - apply (LOC _ (fun t => kW * e (V "x_factor") * t * rpow q (125 / 100))).
    { intros t. rewrite T_gas_lin. vsimp. rewrite <- T_gas_lin. reflexivity. }
    auto_derive; auto. unfold kW. field.
  - apply (LOC _ (fun t => kW * e (V "x_factor") * e (V "W_primary") * rpow (qf (kT * t + T_safety r) (e (V "Tt_cool"))) (125 / 100))).
    { intros t. rewrite T_gas_lin. vsimp. reflexivity. }
    assert (D : is_derive (fun t => qf (kT * t + T_safety r) (e (V "Tt_cool"))) (e (V "Tt_primary")) ((1 + pf) * kT / (Tm - e (V "Tt_cool")))).
    { unfold qf. auto_derive; auto. field. lra. }
    assert (D2 := is_derive_rpow_comp _ _ _ (125 / 100) D). cbv beta in D2. rewrite <- T_gas_lin in D2. fold q in D2. specialize (D2 Q).
    replace (125 / 100 - 1) with (25 / 100) in D2 by lra.
    eapply is_derive_val; [apply (is_derive_scal (fun t => rpow (qf (kT * t + T_safety r) (e (V "Tt_cool"))) (125 / 100)) _ (kW * e (V "x_factor") * e (V "W_primary"))); exact D2|].
    unfold kW. field. lra.
  - apply (LOC _ (fun t => kW * e (V "x_factor") * e (V "W_primary") * rpow (qf (cool_T_gas r e) t) (125 / 100))).
    { intros t. rewrite !T_gas_lin. vsimp. reflexivity. }
    assert (D : is_derive (fun t => qf (cool_T_gas r e) t) (e (V "Tt_cool")) ((1 + pf) * (cool_T_gas r e - Tm) / (Tm - e (V "Tt_cool")) ^ 2)).
    { unfold qf. auto_derive; [lra|]. field. lra. }
    assert (D2 := is_derive_rpow_comp _ _ _ (125 / 100) D). cbv beta in D2. fold q in D2. specialize (D2 Q).
    replace (125 / 100 - 1) with (25 / 100) in D2 by lra.
    eapply is_derive_val; [apply (is_derive_scal (fun t => rpow (qf (cool_T_gas r e) t) (125 / 100)) _ (kW * e (V "x_factor") * e (V "W_primary"))); exact D2|].
    unfold kW. field. lra.
Qed.

Lemma W_derive_cold e i : cool_T_gas r e < Tm -> is_derive (fun t => cool_W r (upd e i t)) (e i) 0.
Proof.
  intros Hg. apply (is_derive_ext_loc (fun _ => 0)); [|apply (is_derive_const (V := R_NormedModule))].
  destruct (cold_local e i Hg) as [d Hd]. exists d. intros t Ht. symmetry. apply Hd. exact Ht.
Qed.
Lemma dW_cold e : cool_T_gas r e < Tm -> cool_dW r e = (0, 0, 0, 0, 0).
Proof. intros H. unfold cool_dW. cbv zeta. destruct (Rlt_dec _ _); [auto|lra]. Qed.
Lemma W_derive e : cool_dom e ->
  is_derive (fun t => cool_W r (upd e (V "x_factor") t)) (e (V "x_factor")) (dW_dx e) /\
  is_derive (fun t => cool_W r (upd e (V "W_primary") t)) (e (V "W_primary")) (dW_dWp e) /\
  is_derive (fun t => cool_W r (upd e (V "Tt_primary") t)) (e (V "Tt_primary")) (dW_dTp e) /\
  is_derive (fun t => cool_W r (upd e (V "Tt_cool") t)) (e (V "Tt_cool")) (dW_dTc e).
Proof.
  intros Hd. destruct (Rlt_dec Tm (cool_T_gas r e)) as [H|H]; [apply W_derive_hot; auto|].
  assert (C : cool_T_gas r e < Tm) by (destruct Hd as [_ [_ [_ [_ Hne]]]]; lra).
  unfold dW_dx, dW_dWp, dW_dTp, dW_dTc. rewrite (dW_cold e C).
  split; [|split; [|split]]; apply W_derive_cold; auto.
Qed.
(* inputs the cooling flow does not read *)
Lemma W_indep e i t : i <> V "x_factor" -> i <> V "W_primary" -> i <> V "Tt_primary" -> i <> V "Tt_cool" ->
  cool_W r (upd e i t) = cool_W r e.
Proof.
  intros H1 H2 H3 H4. unfold cool_W, cool_phi'. cbv zeta. rewrite !T_gas_lin. rewrite !upd_neq by auto. reflexivity.
Qed.
Lemma parts_eq e J : cool_partials r e J =
  let W_primary := e (V "W_primary") in let ht_primary := e (V "ht_primary") in let ht_cool := e (V "ht_cool") in
  let WpWc := W_primary + cool_W r e in
  let d := - W_primary * ht_primary / WpWc ^ 2 + ht_cool / WpWc - cool_W r e * ht_cool / WpWc ^ 2 in
  let J := jset J (V "W_cool") (V "W_primary") (dW_dWp e) in
  let J := jset J (V "W_cool") (V "x_factor") (dW_dx e) in
  let J := jset J (V "W_cool") (V "Tt_primary") (dW_dTp e) in
  let J := jset J (V "W_cool") (V "Tt_cool") (dW_dTc e) in
  let J := jset J (V "ht_out") (V "x_factor") (d * dW_dx e) in
  let J := jset J (V "ht_out") (V "W_primary") ((ht_primary - ht_cool) * (cool_W r e - W_primary * dW_dWp e) / WpWc ^ 2 + cool_dh r e / W_primary ^ 2) in
  let J := jset J (V "ht_out") (V "Tt_primary") (d * dW_dTp e) in
  let J := jset J (V "ht_out") (V "Tt_cool") (d * dW_dTc e) in
  let J := jset J (V "ht_out") (V "ht_primary") (W_primary / WpWc) in
  let J := jset J (V "ht_out") (V "ht_cool") (cool_W r e / WpWc) in
  let J := jset J (V "ht_out") (V "turb_pwr") (- (if is_stator r then 0 else 1 / INR (n_stages r)) / W_primary) in
  let J := jset J (V "Pt_stage") (V "Pt_in") (INR (cool_i_stage (n_stages r) (i_row r))) in
  jset J (V "Pt_stage") (V "Pt_out") (1 - INR (cool_i_stage (n_stages r) (i_row r))).
Proof.
  rewrite <- dW_W_eq. unfold dW_W, dW_dx, dW_dWp, dW_dTp, dW_dTc, cool_partials.
  destruct (cool_dW r e) as [[[[a b] c] d] w]. reflexivity.
Qed.
(* the exit enthalpy as a function of cooling flow, primary flow, the two enthalpies and the work *)
Definition hmix (Wc Wp hp hc dh : R) : R := (Wp * hp + Wc * hc) / (Wp + Wc) - dh / Wp.
Lemma ht_eq e old : cool_compute r e old (V "ht_out") = hmix (cool_W r e) (e (V "W_primary")) (e (V "ht_primary")) (e (V "ht_cool")) (cool_dh r e).
Proof. unfold cool_compute. cbv zeta. vsimp. reflexivity. Qed.
Lemma W_eq e old : cool_compute r e old (V "W_cool") = cool_W r e.
Proof. unfold cool_compute. cbv zeta. vsimp. reflexivity. Qed.
Lemma Pt_eq e old : cool_compute r e old (V "Pt_stage") = e (V "Pt_out") + (e (V "Pt_in") - e (V "Pt_out")) * INR (cool_i_stage (n_stages r) (i_row r)).
Proof. unfold cool_compute. cbv zeta. vsimp. reflexivity. Qed.
Lemma hmix_Wc (w : R -> R) x dw Wp hp hc dh : is_derive w x dw -> Wp + w x <> 0 -> Wp <> 0 ->
  is_derive (fun t => hmix (w t) Wp hp hc dh) x ((- Wp * hp / (Wp + w x) ^ 2 + hc / (Wp + w x) - w x * hc / (Wp + w x) ^ 2) * dw).
Proof.
  intros D H1 H2. unfold hmix. assert (ED := is_derive_unique _ _ _ D). auto_derive.
  - repeat split; auto; exists dw; exact D.
  - replace (Derive (fun x0 : R => w x0) x) with dw by (symmetry; exact ED). field. auto.
Qed.
Lemma hmix_Wp (w : R -> R) x dw hp hc dh : is_derive w x dw -> x + w x <> 0 -> x <> 0 ->
  is_derive (fun t => hmix (w t) t hp hc dh) x ((hp - hc) * (w x - x * dw) / (x + w x) ^ 2 + dh / x ^ 2).
Proof.
  intros D H1 H2. unfold hmix. assert (ED := is_derive_unique _ _ _ D). auto_derive.
  - repeat split; auto; exists dw; exact D.
  - replace (Derive (fun x0 : R => w x0) x) with dw by (symmetry; exact ED). field. auto.
Qed.
Lemma dh_indep e i t : i <> V "turb_pwr" -> cool_dh r (upd e i t) = cool_dh r e.
Proof. intros H. unfold cool_dh. destruct (is_stator r); auto. rewrite upd_neq; auto. Qed.
Lemma dh_lin e : cool_dh r e = (if is_stator r then 0 else 1 / INR (n_stages r)) * e (V "turb_pwr").
Proof. unfold cool_dh. destruct (is_stator r); unfold Rdiv; ring. Qed.
Ltac pread := intros ?J; rewrite parts_eq; cbv zeta; jread; reflexivity.
Ltac pkeep := intros ?e0 ?J; rewrite parts_eq; cbv zeta; jread; reflexivity.
Ltac wsame := rewrite W_indep by discriminate.
Lemma cool_jac : jac_exact (cooling_calcs r) cool_dom.
Proof.
  apply jac_exact_intro0.
  { intros o i. apply jinit_zero. cbn [cooling_calcs decls]. intros d Hd. inlist Hd; reflexivity. }
  intros e old o i Hd Ho Hi. cbn [cooling_calcs outs ins compute partials] in *.
  destruct (W_derive e Hd) as [Dx [DW [DTp DTc]]].
  assert (W0 : e (V "W_primary") <> 0) by (destruct Hd as [_ [H _]]; lra).
  assert (WW : e (V "W_primary") + cool_W r e <> 0).
  { destruct Hd as [_ [H1 [H2 [H3 _]]]]. assert (0 <= cool_W r e) by (apply W_nonneg; lra). lra. }
  assert (ID : forall j, cool_W r (upd e j (e j)) = cool_W r e).
  { intros j. unfold cool_W, cool_phi'. cbv zeta. rewrite !T_gas_lin, !upd_id. reflexivity. }
  inlist Ho.
  - (* W_cool *)
    inlist Hi; first [ left; eexists; split; [pread|] | right; split; [pkeep|] ];
    (eapply dl_ext; [intros t; apply W_eq|]); apply is_derive_Reals; try assumption;
    (apply (is_derive_ext (fun _ => cool_W r e)); [intros t; symmetry; apply W_indep; discriminate|];
     apply (is_derive_const (V := R_NormedModule))).
  - (* Pt_stage *)
    inlist Hi; first [ left; eexists; split; [pread|] | right; split; [pkeep|] ];
    (eapply dl_ext; [intros t; rewrite Pt_eq; vsimp; reflexivity|]); apply is_derive_Reals; auto_derive; auto; ring.
  - (* ht_out *)
    inlist Hi; first [ left; eexists; split; [pread|] | right; split; [pkeep|] ];
    (eapply dl_ext; [intros t; rewrite ht_eq; vsimp; reflexivity|]); apply is_derive_Reals.
    + (* turb_pwr *)
      apply (is_derive_ext (fun t => hmix (cool_W r e) (e (V "W_primary")) (e (V "ht_primary")) (e (V "ht_cool")) ((if is_stator r then 0 else 1 / INR (n_stages r)) * t))).
      { intros t. rewrite W_indep by discriminate. rewrite dh_lin, upd_eq. reflexivity. }
      unfold hmix. auto_derive; [repeat split; auto|]. field; auto.
    + apply (is_derive_ext (fun _ => hmix (cool_W r e) (e (V "W_primary")) (e (V "ht_primary")) (e (V "ht_cool")) (cool_dh r e))).
      { intros t. rewrite W_indep, dh_indep by discriminate. reflexivity. } apply (is_derive_const (V := R_NormedModule)).
    + apply (is_derive_ext (fun _ => hmix (cool_W r e) (e (V "W_primary")) (e (V "ht_primary")) (e (V "ht_cool")) (cool_dh r e))).
      { intros t. rewrite W_indep, dh_indep by discriminate. reflexivity. } apply (is_derive_const (V := R_NormedModule)).
    + apply (is_derive_ext (fun t => hmix (cool_W r (upd e (V "x_factor") t)) (e (V "W_primary")) (e (V "ht_primary")) (e (V "ht_cool")) (cool_dh r e))).
      { intros t. rewrite dh_indep by discriminate. reflexivity. }
      assert (HH := hmix_Wc (fun t => cool_W r (upd e (V "x_factor") t)) (e (V "x_factor")) _ (e (V "W_primary")) (e (V "ht_primary")) (e (V "ht_cool")) (cool_dh r e) Dx).
      cbv beta in HH. rewrite !ID in HH. exact (HH WW W0).
    + apply (is_derive_ext (fun t => hmix (cool_W r (upd e (V "W_primary") t)) t (e (V "ht_primary")) (e (V "ht_cool")) (cool_dh r e))).
      { intros t. rewrite dh_indep by discriminate. reflexivity. }
      assert (HH := hmix_Wp (fun t => cool_W r (upd e (V "W_primary") t)) (e (V "W_primary")) _ (e (V "ht_primary")) (e (V "ht_cool")) (cool_dh r e) DW).
      cbv beta in HH. rewrite !ID in HH. exact (HH WW W0).
    + apply (is_derive_ext (fun t => hmix (cool_W r (upd e (V "Tt_primary") t)) (e (V "W_primary")) (e (V "ht_primary")) (e (V "ht_cool")) (cool_dh r e))).
      { intros t. rewrite dh_indep by discriminate. reflexivity. }
      assert (HH := hmix_Wc (fun t => cool_W r (upd e (V "Tt_primary") t)) (e (V "Tt_primary")) _ (e (V "W_primary")) (e (V "ht_primary")) (e (V "ht_cool")) (cool_dh r e) DTp).
      cbv beta in HH. rewrite !ID in HH. exact (HH WW W0).
    + apply (is_derive_ext (fun t => hmix (cool_W r (upd e (V "Tt_cool") t)) (e (V "W_primary")) (e (V "ht_primary")) (e (V "ht_cool")) (cool_dh r e))).
      { intros t. rewrite dh_indep by discriminate. reflexivity. }
      assert (HH := hmix_Wc (fun t => cool_W r (upd e (V "Tt_cool") t)) (e (V "Tt_cool")) _ (e (V "W_primary")) (e (V "ht_primary")) (e (V "ht_cool")) (cool_dh r e) DTc).
      cbv beta in HH. rewrite !ID in HH. exact (HH WW W0).
    + apply (is_derive_ext (fun t => hmix (cool_W r e) (e (V "W_primary")) t (e (V "ht_cool")) (cool_dh r e))).
      { intros t. rewrite W_indep, dh_indep by discriminate. reflexivity. } unfold hmix. auto_derive; [repeat split; auto|]. field; auto.
    + apply (is_derive_ext (fun t => hmix (cool_W r e) (e (V "W_primary")) (e (V "ht_primary")) t (cool_dh r e))).
      { intros t. rewrite W_indep, dh_indep by discriminate. reflexivity. } unfold hmix. auto_derive; [repeat split; auto|]. field; auto.
Qed.
Lemma cool_declared : jac_declared (cooling_calcs r).
Proof.
  intros e J o i Hn. cbn [cooling_calcs decls partials] in *. jdecl_split. rewrite parts_eq. cbv zeta. jdecl_fin.
Qed.
Lemma cool_writes : writes_all (cooling_calcs r).
Proof.
  intros e e' old old' o Ho He. cbn [cooling_calcs outs ins compute] in *.
  assert (EW : cool_W r e = cool_W r e').
  { unfold cool_W, cool_phi'. cbv zeta. rewrite !T_gas_lin. rewrite !He by (cbn [In]; tauto). reflexivity. }
  inlist Ho; rewrite ?W_eq, ?Pt_eq, ?ht_eq, ?dh_lin, ?EW; rewrite ?He by (cbn [In]; tauto); reflexivity.
Qed.
Lemma cool_ok : comp_ok (cooling_calcs r) cool_dom.
Proof. split; [exact cool_jac|split; [exact cool_declared|exact cool_writes]]. Qed.
End Cool.
