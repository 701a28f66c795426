(* Properties C40 (standard atmosphere) and C51 (its derivatives). *)
From Coq Require Import ZArith QArith Qabs Qreals Lia Psatz.
From Verif Require Import Lib_R Proofs_Atm.
Open Scope string_scope. Open Scope list_scope.

(* ---------- checks of the shipped table in exact rational arithmetic ---------- *)
Local Notation qk := (Q * Q * Q)%type.
Section Check.
Open Scope Q_scope.
Definition qlt (a b : Q) : bool := negb (Qle_bool b a).
Definition qx (k : qk) := fst (fst k). Definition qy (k : qk) := snd (fst k). Definition qm (k : qk) := snd k.
Definition asc_q (p : qk * qk) : bool := qlt (qx (fst p)) (qx (snd p)).
Definition falls_q (p : qk * qk) : bool := let (a, b) := p in
  qlt (qx a) (qx b) && qlt (qy b) (qy a) && Qle_bool (qm a) 0 && Qle_bool (qm b) 0 &&
  Qle_bool (3 * (qy b - qy a)) (qm a * (qx b - qx a)) && Qle_bool (3 * (qy b - qy a)) (qm b * (qx b - qx a)) &&
  (qlt (3 * (qy b - qy a)) (qm a * (qx b - qx a)) || qlt (3 * (qy b - qy a)) (qm b * (qx b - qx a))).
Definition falls_in_q (lo hi : Q) (p : qk * qk) : bool := Qle_bool hi (qx (fst p)) || Qle_bool (qx (snd p)) lo || falls_q p.
Definition above_q (p : qk * qk) : bool := let (a, b) := p in
  qlt (qx a) (qx b) && qlt 0 (qy a) && qlt 0 (qy b) && qlt 0 (qy a + qm a * (qx b - qx a) / 3) && qlt 0 (qy b - qm b * (qx b - qx a) / 3).
(* second derivatives on the two sides of b *)
Definition left2 (a b : qk) : Q := (2 * qm a + 4 * qm b - 6 * ((qy b - qy a) / (qx b - qx a))) / (qx b - qx a).
Definition right2 (b c : qk) : Q := (6 * ((qy c - qy b) / (qx c - qx b)) - 4 * qm b - 2 * qm c) / (qx c - qx b).
End Check.
Open Scope R_scope.
Definition kR (k : qk) : knot := (Q2R (qx k), Q2R (qy k), Q2R (qm k)).
Lemma qlt_R a b : qlt a b = true -> Q2R a < Q2R b.
Proof. unfold qlt. rewrite negb_true_iff. intros H. apply Qlt_Rlt. apply Qnot_le_lt. rewrite <- Qle_bool_iff. congruence. Qed.
Lemma qle_R a b : Qle_bool a b = true -> Q2R a <= Q2R b.
Proof. intros H. apply Qle_Rle. apply Qle_bool_iff. exact H. Qed.
Lemma Q2R_3 : Q2R 3 = 3. Proof. unfold Q2R. cbn. lra. Qed.
Lemma Q2R_0 : Q2R 0 = 0. Proof. unfold Q2R. cbn. lra. Qed.
Lemma falls_R p : falls_q p = true -> falls (kR (fst p)) (kR (snd p)).
Proof.
  destruct p as [a b]. unfold falls_q. rewrite !andb_true_iff, orb_true_iff. intros [[[[[[H1 H2] H3] H4] H5] H6] H7].
  apply qlt_R in H1, H2. apply qle_R in H3, H4, H5, H6. rewrite Q2R_0 in H3, H4. rewrite !Q2R_mult, !Q2R_minus, Q2R_3 in H5, H6.
  unfold falls, kR, kx, ky, km. cbn [fst snd]. repeat (split; [assumption|]).
  destruct H7 as [H7|H7]; apply qlt_R in H7; rewrite !Q2R_mult, !Q2R_minus, Q2R_3 in H7; auto.
Qed.
Lemma above_R p : above_q p = true -> above 0 (kR (fst p)) (kR (snd p)).
Proof.
  destruct p as [a b]. unfold above_q. rewrite !andb_true_iff. intros [[[[H1 H2] H3] H4] H5].
  apply qlt_R in H1, H2, H3, H4, H5. rewrite Q2R_0 in *.
  assert (N : ~ (3 == 0)%Q) by discriminate. rewrite Q2R_plus, Q2R_div, Q2R_mult, Q2R_minus, Q2R_3 in H4 by exact N.
  rewrite Q2R_minus, Q2R_div, Q2R_mult, Q2R_minus, Q2R_3 in H5 by exact N.
  unfold above, kR, kx, ky, km. cbn [fst snd]. auto.
Qed.
Lemma knots_pairs l a b : In (a, b) (pairs (to_knots l)) -> exists p, In p (pairs l) /\ a = kR (fst p) /\ b = kR (snd p).
Proof.
  change (to_knots l) with (map kR l). rewrite pairs_map. intros H. apply in_map_iff in H as [p [He Hp]]. inversion He; subst. eauto.
Qed.
Lemma asc_check l : forallb asc_q (pairs l) = true -> ascending (to_knots l).
Proof.
  intros H a b Hab. apply knots_pairs in Hab as [p [Hp [-> ->]]]. rewrite forallb_forall in H. apply qlt_R. apply (H p Hp).
Qed.
Definition alt_min : R := -1000. Definition alt_max : R := 150000.
Lemma ends l f r : hd_error l = Some f -> hd_error (rev l) = Some r -> hd_error (to_knots l) = Some (kR f) /\ hd_error (rev (to_knots l)) = Some (kR r).
Proof.
  change (to_knots l) with (map kR l). rewrite <- map_rev. intros H1 H2. split.
  - destruct l as [|q l]; [discriminate|]. injection H1 as ->. reflexivity.
  - destruct (rev l) as [|q l']; [discriminate|]. injection H2 as ->. reflexivity.
Qed.
Definition shape (l : list qk) : bool :=
  forallb asc_q (pairs l) && Nat.leb 2 (List.length l) &&
  match hd_error l, hd_error (rev l) with Some f, Some r => Qeq_bool (qx f) (-1000) && Qeq_bool (qx r) 150000 | _, _ => false end.
Lemma shape_R l : shape l = true -> ascending (to_knots l) /\ (2 <= List.length (to_knots l))%nat /\ exists f r,
  hd_error (to_knots l) = Some f /\ hd_error (rev (to_knots l)) = Some r /\ kx f = alt_min /\ kx r = alt_max.
Proof.
  unfold shape. rewrite !andb_true_iff. intros [[H1 H2] H3]. split; [apply asc_check; exact H1|]. apply Nat.leb_le in H2.
  split; [change (to_knots l) with (map kR l); rewrite map_length; exact H2|].
  destruct (hd_error l) as [f|] eqn:Ef; [|discriminate]. destruct (hd_error (rev l)) as [r|] eqn:Er; [|discriminate].
  apply andb_true_iff in H3 as [H3 H4]. apply Qeq_bool_eq in H3, H4. destruct (ends l f r Ef Er) as [A B].
  exists (kR f), (kR r). split; [exact A|split; [exact B|]]. unfold kR, kx. cbn [fst]. rewrite (Qeq_eqR _ _ H3), (Qeq_eqR _ _ H4).
  unfold alt_min, alt_max, Q2R. cbn. lra.
Qed.
Lemma T_shape : shape T_q = true. Proof. vm_compute. reflexivity. Qed.
Lemma P_shape : shape P_q = true. Proof. vm_compute. reflexivity. Qed.
Lemma rho_shape : shape rho_q = true. Proof. vm_compute. reflexivity. Qed.
Lemma T_above : forallb above_q (pairs T_q) = true. Proof. vm_compute. reflexivity. Qed.
Lemma P_above : forallb above_q (pairs P_q) = true. Proof. vm_compute. reflexivity. Qed.
Lemma rho_above : forallb above_q (pairs rho_q) = true. Proof. vm_compute. reflexivity. Qed.
Lemma rho_falls : forallb falls_q (pairs rho_q) = true. Proof. vm_compute. reflexivity. Qed.
Lemma P_falls1 : forallb (falls_in_q (-1000) 18000) (pairs P_q) = true. Proof. vm_compute. reflexivity. Qed.
Lemma P_falls2 : forallb (falls_in_q 19000 150000) (pairs P_q) = true. Proof. vm_compute. reflexivity. Qed.
Lemma lengths : List.length (windows (extended (slopes (table 1000 atm_T_z)))) = 112%nat /\
  List.length (windows (extended (slopes (table 10000000 atm_P_z)))) = 112%nat /\ List.length (windows (extended (slopes (table 100000000000 atm_rho_z)))) = 112%nat.
Proof. vm_compute. auto. Qed.

Lemma T_q_eq : T_q = akima (table 1000 atm_T_z). Proof. reflexivity. Qed.
Lemma P_q_eq : P_q = akima (table 10000000 atm_P_z). Proof. reflexivity. Qed.
Lemma rho_q_eq : rho_q = akima (table 100000000000 atm_rho_z). Proof. reflexivity. Qed.
Lemma Ts_val e old : compute usatm e old (V "Ts") = interp T_knots (e (V "alt")).
Proof. unfold usatm, usatm_compute. cbn [compute]. unfold upd. repeat (destruct var_eq_dec; try congruence). Qed.
Lemma Ps_val e old : compute usatm e old (V "Ps") = interp P_knots (e (V "alt")).
Proof. unfold usatm, usatm_compute. cbn [compute]. unfold upd. repeat (destruct var_eq_dec; try congruence). Qed.
Lemma rhos_val e old : compute usatm e old (V "rhos") = interp rho_knots (e (V "alt")).
Proof. unfold usatm, usatm_compute. cbn [compute]. unfold upd. repeat (destruct var_eq_dec; try congruence). Qed.
Lemma drhos_val e old : compute usatm e old (V "drhos_dalt") = interp_deriv rho_knots (e (V "alt")).
Proof. unfold usatm, usatm_compute. cbn [compute]. unfold upd. repeat (destruct var_eq_dec; try congruence). Qed.

Lemma nth_combine {A B} (l : list A) : forall (l' : list B) i a, nth_error l i = Some a -> (List.length l <= List.length l')%nat -> exists b, nth_error l' i = Some b /\ nth_error (combine l l') i = Some (a, b).
Proof.
  induction l as [|x l IH]; intros l' i a H L; [destruct i; discriminate|]. destruct l' as [|y l']; [cbn in L; lia|].
  destruct i as [|i]; cbn in *; [inversion H; eauto|]. apply IH; [exact H|lia].
Qed.
Lemma table_node den ys l i a y : l = akima (table den ys) -> shape l = true -> List.length (windows (extended (slopes (table den ys)))) = 112%nat ->
  List.length ys = 112%nat -> nth_error atm_alt_z i = Some a -> nth_error ys i = Some y -> interp (to_knots l) (IZR a) = IZR y / IZR (Zpos den).
Proof.
  intros -> Hs Hw Hy Ha Hyi. destruct (shape_R _ Hs) as [A [L _]].
  assert (Ht : nth_error (table den ys) i = Some ((a # 1)%Q, (y # den)%Q)).
  { unfold table. destruct (nth_combine (map (fun a => (a # 1)%Q) atm_alt_z) (map (fun y => (y # den)%Q) ys) i (a # 1)%Q) as [b [Hb Hc]].
    - rewrite nth_error_map, Ha. reflexivity.
    - rewrite !map_length, Hy. cbn. lia.
    - rewrite nth_error_map, Hyi in Hb. inversion Hb; subst. exact Hc. }
  destruct (nth_combine (table den ys) (map (akima_slope (fold_left Qmaxq (map f12 (windows (extended (slopes (table den ys))))) 0%Q)) (windows (extended (slopes (table den ys))))) i _ Ht) as [m [_ Hm]].
  { rewrite map_length, Hw. unfold table. rewrite combine_length, !map_length, Hy. cbn. lia. }
  apply nth_error_In in Hm. change (combine _ _) with (akima (table den ys)) in Hm.
  assert (Hk : In (kR ((a # 1)%Q, (y # den)%Q, m)) (to_knots (akima (table den ys)))) by (change (to_knots ?l) with (map kR l); apply in_map; exact Hm).
  pose proof (interp_node _ A L _ Hk) as N. unfold kR, kx, ky, qx, qy in N. cbn [fst snd] in N.
  replace (Q2R (a # 1)) with (IZR a) in N by (unfold Q2R; cbn; field). rewrite N. unfold Q2R. cbn. reflexivity.
Qed.

Lemma table_x den ys k : In k (akima (table den ys)) -> exists z, In z atm_alt_z /\ qx k = (z # 1)%Q.
Proof.
  unfold akima. destruct k as [[x y] m]. intros Hp. apply in_combine_l in Hp. unfold table in Hp. apply in_combine_l in Hp.
  apply in_map_iff in Hp as [z [<- Hz]]. exists z. auto.
Qed.
#[local] Opaque akima table T_q P_q rho_q windows slopes extended.
(* ---------- C40 ---------- *)
(* at every altitude of the table the outputs are the table's values *)
Theorem C40_table : forall i a t p r, nth_error atm_alt_z i = Some a -> nth_error atm_T_z i = Some t -> nth_error atm_P_z i = Some p -> nth_error atm_rho_z i = Some r ->
  forall e old, e (V "alt") = IZR a ->
  compute usatm e old (V "Ts") = IZR t / 10 ^ 3 /\ compute usatm e old (V "Ps") = IZR p / 10 ^ 7 /\ compute usatm e old (V "rhos") = IZR r / 10 ^ 11.
Proof.
  intros i a t p r Ha Ht Hp Hr e old He. rewrite Ts_val, Ps_val, rhos_val, He. destruct lengths as [L1 [L2 L3]].
  unfold T_knots, P_knots, rho_knots.
  rewrite (table_node 1000 atm_T_z T_q i a t T_q_eq T_shape L1 eq_refl Ha Ht).
  rewrite (table_node 10000000 atm_P_z P_q i a p P_q_eq P_shape L2 eq_refl Ha Hp).
  rewrite (table_node 100000000000 atm_rho_z rho_q i a r rho_q_eq rho_shape L3 eq_refl Ha Hr).
  split; [|split]; f_equal; cbn; lra.
Qed.
Print Assumptions C40_table.
(* density strictly decreases with altitude, between the table's altitudes too *)
Theorem C40_density_decreasing : forall e1 e2 old1 old2, alt_min <= e1 (V "alt") -> e1 (V "alt") < e2 (V "alt") -> e2 (V "alt") <= alt_max ->
  compute usatm e2 old2 (V "rhos") < compute usatm e1 old1 (V "rhos").
Proof.
  intros e1 e2 old1 old2 H1 H2 H3. rewrite !rhos_val. destruct (shape_R _ rho_shape) as [A [L [f [r [Hf [Hr [Kf Kr]]]]]]].
  apply (interp_falls rho_knots A L alt_min alt_max) with (first := f) (last := r); try assumption; try (rewrite ?Kf, ?Kr; assumption).
  intros a b Hab _ _. apply knots_pairs in Hab as [p [Hp [-> ->]]]. apply falls_R. pose proof rho_falls as F. rewrite forallb_forall in F. exact (F p Hp).
Qed.
Print Assumptions C40_density_decreasing.
(* pressure strictly decreases below 18000 ft and above 19000 ft; missing: the interval between *)
Theorem C40_pressure_decreasing_partial : forall e1 e2 old1 old2, alt_min <= e1 (V "alt") -> e1 (V "alt") < e2 (V "alt") -> e2 (V "alt") <= alt_max ->
  e2 (V "alt") <= 18000 \/ 19000 <= e1 (V "alt") ->
  compute usatm e2 old2 (V "Ps") < compute usatm e1 old1 (V "Ps").
Proof.
  intros e1 e2 old1 old2 H1 H2 H3 H4. rewrite !Ps_val. destruct (shape_R _ P_shape) as [A [L [f [r [Hf [Hr [Kf Kr]]]]]]].
  assert (F : forall lo hi lq hq, forallb (falls_in_q lq hq) (pairs P_q) = true -> Q2R lq = lo -> Q2R hq = hi ->
    forall a b, In (a, b) (pairs P_knots) -> kx a < hi -> lo < kx b -> falls a b).
  { intros lo hi lq hq F E1 E2 a b Hab X Y. apply knots_pairs in Hab as [p [Hp [-> ->]]]. apply falls_R. rewrite forallb_forall in F. specialize (F p Hp).
    unfold falls_in_q in F. rewrite !orb_true_iff in F. destruct F as [[F|F]|F]; [| |exact F]; apply qle_R in F; unfold kR, kx in X, Y; cbn [fst snd] in X, Y; subst; lra. }
  destruct H4 as [H4|H4].
  - apply (interp_falls P_knots A L alt_min 18000) with (first := f) (last := r); try assumption; try (rewrite ?Kf, ?Kr; assumption).
    apply (F _ _ _ _ P_falls1); unfold alt_min, Q2R; cbn; lra.
  - apply (interp_falls P_knots A L 19000 alt_max) with (first := f) (last := r); try assumption; try (rewrite ?Kf, ?Kr; assumption).
    apply (F _ _ _ _ P_falls2); unfold alt_max, Q2R; cbn; lra.
Qed.
Print Assumptions C40_pressure_decreasing_partial.
(* refuted between: the table's pressure at 19000 ft (7.4123 psi) is above the one at 18000 ft (7.33889 psi) *)
Theorem C40_pressure_refuted : forall e1 e2 old1 old2, e1 (V "alt") = 18000 -> e2 (V "alt") = 19000 ->
  compute usatm e1 old1 (V "Ps") < compute usatm e2 old2 (V "Ps").
Proof.
  intros e1 e2 old1 old2 H1 H2.
  destruct (C40_table 19 18000 _ _ _ eq_refl eq_refl eq_refl eq_refl e1 old1 H1) as [_ [E1 _]].
  destruct (C40_table 20 19000 _ _ _ eq_refl eq_refl eq_refl eq_refl e2 old2 H2) as [_ [E2 _]].
  rewrite E1, E2. apply Rmult_lt_compat_r; [apply Rinv_0_lt_compat; apply pow_lt; lra|]. lra.
Qed.
Print Assumptions C40_pressure_refuted.
(* temperature, pressure and density are positive at every altitude of the table's range *)
Theorem C40_positive : forall e old, alt_min <= e (V "alt") <= alt_max ->
  0 < compute usatm e old (V "Ts") /\ 0 < compute usatm e old (V "Ps") /\ 0 < compute usatm e old (V "rhos").
Proof.
  assert (G : forall l, shape l = true -> forallb above_q (pairs l) = true -> forall x, alt_min <= x <= alt_max -> 0 < interp (to_knots l) x).
  { intros l S F x Hx. destruct (shape_R _ S) as [A [L [f [r [Hf [Hr [Kf Kr]]]]]]]. apply (interp_above 0 (to_knots l) A L) with (first := f) (last := r); try assumption; [|rewrite Kf, Kr; exact Hx].
    intros a b Hab. apply knots_pairs in Hab as [p [Hp [-> ->]]]. apply above_R. rewrite forallb_forall in F. exact (F p Hp). }
  intros e old He. rewrite Ts_val, Ps_val, rhos_val. split; [|split].
  - apply (G T_q T_shape T_above _ He).
  - apply (G P_q P_shape P_above _ He).
  - apply (G rho_q rho_shape rho_above _ He).
Qed.
Print Assumptions C40_positive.

(* ---------- C51 ---------- *)
Definition in_range (e : env) : Prop := alt_min < e (V "alt") < alt_max.
Lemma upd_self e x t : upd e x t x = t.
Proof. unfold upd. destruct (var_eq_dec x x); congruence. Qed.
Lemma jac_vals hist e : jac_after usatm hist e (V "Ts") (V "alt") = interp_deriv T_knots (e (V "alt")) /\ jac_after usatm hist e (V "Ps") (V "alt") = interp_deriv P_knots (e (V "alt")) /\
  jac_after usatm hist e (V "rhos") (V "alt") = interp_deriv rho_knots (e (V "alt")) /\ jac_after usatm hist e (V "drhos_dalt") (V "alt") = interp_deriv2 rho_knots (e (V "alt")).
Proof. unfold jac_after. generalize (fold_left (fun J e' => partials usatm e' J) hist (jinit (decls usatm))). intros J. unfold usatm, usatm_partials. cbn [partials]. unfold jset. repeat split; repeat (destruct var_eq_dec; try congruence). Qed.
(* the derivatives of temperature, pressure and density are exact at every altitude inside the range, the table's altitudes included *)
Theorem C51_state_derivatives : jac_exact_on usatm in_range (fun o _ => In o [V "Ts"; V "Ps"; V "rhos"]) /\ jac_declared usatm /\ writes_all usatm.
Proof.
  split; [|split].
  - intros hist e old o i _ Ho [<-|[]] Hsel. destruct (jac_vals hist e) as [J1 [J2 [J3 _]]].
    assert (G : forall l, shape l = true -> derivable_pt_lim (interp (to_knots l)) (e (V "alt")) (interp_deriv (to_knots l) (e (V "alt")))).
    { intros l S. destruct (shape_R _ S) as [A [L _]]. apply (pp_derive (fun c => c) (to_knots l) A _ (interp_fits _ _ A) L). }
    destruct Hsel as [<-|[<-|[<-|[]]]].
    + rewrite J1. apply (derivable_pt_lim_ext (interp T_knots)); [intros t; rewrite Ts_val, upd_self; reflexivity|apply (G T_q T_shape)].
    + rewrite J2. apply (derivable_pt_lim_ext (interp P_knots)); [intros t; rewrite Ps_val, upd_self; reflexivity|apply (G P_q P_shape)].
    + rewrite J3. apply (derivable_pt_lim_ext (interp rho_knots)); [intros t; rewrite rhos_val, upd_self; reflexivity|apply (G rho_q rho_shape)].
  - intros e J o i Hn. unfold usatm, usatm_partials, jset in *. cbn [partials decls] in *.
    repeat (destruct var_eq_dec as [<-|]; [destruct var_eq_dec as [<-|]; [exfalso; apply Hn; exists [V "Ts"; V "Ps"; V "rhos"; V "drhos_dalt"], [V "alt"], 0; cbn; tauto|]|]); try reflexivity.
  - intros e e' old old' o Ho He. specialize (He (V "alt") (or_introl eq_refl)). destruct Ho as [<-|[<-|[<-|[<-|[]]]]]; rewrite ?Ts_val, ?Ps_val, ?rhos_val, ?drhos_val, He; reflexivity.
Qed.
Print Assumptions C51_state_derivatives.
(* the derivative of drhos_dalt is exact between the table's altitudes *)
Theorem C51_density_slope : jac_exact_on usatm (fun e => in_range e /\ forall a, In a atm_alt_z -> e (V "alt") <> IZR a) (fun o _ => o = V "drhos_dalt").
Proof.
  intros hist e old o i [_ Hk] Ho [<-|[]] ->. destruct (jac_vals hist e) as [_ [_ [_ ->]]]. destruct (shape_R _ rho_shape) as [A [L _]].
  apply (derivable_pt_lim_ext (interp_deriv rho_knots)); [intros t; rewrite drhos_val, upd_self; reflexivity|].
  apply (pp_derive dcub rho_knots A _); [|exact L]. intros a b c H1 H2 Hb. exfalso.
  apply knots_pairs in H2 as [p [Hp [Eb _]]].
  assert (Hx : forall l (p : qk * qk), In p (pairs l) -> In (fst p) l).
  { clear. induction l as [|x [|y l] IH]; intros p H; [destruct H|destruct H|]. destruct H as [<-|H]; [left; reflexivity|right; apply IH; exact H]. }
  apply Hx in Hp. rewrite rho_q_eq in Hp. apply table_x in Hp as [z [Hz Ez]]. apply (Hk z Hz). rewrite <- Hb, Eb. unfold kR, kx. cbn [fst]. rewrite Ez. unfold Q2R. cbn. field.
Qed.
Print Assumptions C51_density_slope.

(* at every altitude of the table inside the range the second derivative jumps, so drhos_dalt has no derivative there *)
Definition around (l : list qk) (n : nat) : option (qk * qk * qk) :=
  match nth_error l n, nth_error l (S n), nth_error l (S (S n)) with Some a, Some b, Some c => Some (a, b, c) | _, _, _ => None end.
Definition jumps (l : list qk) (n : nat) (x : Q) : bool :=
  match around l n with Some (a, b, c) => Qeq_bool (qx b) x && negb (Qeq_bool (left2 a b) (right2 b c)) | None => false end.
Lemma split_at {A} (l : list A) : forall n a b c, nth_error l n = Some a -> nth_error l (S n) = Some b -> nth_error l (S (S n)) = Some c -> exists p r, l = p ++ a :: b :: c :: r.
Proof.
  induction l as [|x l IH]; intros [|n] a b c; cbn; try discriminate.
  - destruct l as [|y [|z l]]; cbn; intros; try discriminate. exists [], l. cbn. congruence.
  - intros H1 H2 H3. destruct (IH n a b c H1 H2 H3) as [p [r ->]]. exists (x :: p), r. reflexivity.
Qed.
Lemma Q2R_Z (z : Z) : Q2R (z # 1) = IZR z. Proof. unfold Q2R. cbn. field. Qed.
Lemma left2_R a b : kx (kR a) < kx (kR b) -> Q2R (left2 a b) = cub (dcub (dcub (coeffs (kR a) (kR b)))) (kx (kR b) - kx (kR a)).
Proof.
  unfold kR, kx, left2. cbn [fst snd]. intros H.
  assert (N : ~ (qx b - qx a == 0)%Q). { intros X. apply Qeq_eqR in X. rewrite Q2R_minus, Q2R_0 in X. lra. }
  rewrite Q2R_div, !Q2R_minus, Q2R_plus, !Q2R_mult, Q2R_div, !Q2R_minus by exact N. rewrite !Q2R_Z.
  unfold cub, dcub, coeffs, kx, ky, km. cbn [c3 c2 c1 c0 fst snd]. field. lra.
Qed.
Lemma right2_R b c : kx (kR b) < kx (kR c) -> Q2R (right2 b c) = cub (dcub (dcub (coeffs (kR b) (kR c)))) 0.
Proof.
  unfold kR, kx, right2. cbn [fst snd]. intros H.
  assert (N : ~ (qx c - qx b == 0)%Q). { intros X. apply Qeq_eqR in X. rewrite Q2R_minus, Q2R_0 in X. lra. }
  rewrite Q2R_div, !Q2R_minus, !Q2R_mult, Q2R_div, !Q2R_minus by exact N. rewrite !Q2R_Z.
  unfold cub, dcub, coeffs, kx, ky, km. cbn [c3 c2 c1 c0 fst snd]. field. lra.
Qed.
Lemma jump_no_derivative l n x : shape l = true -> jumps l n x = true -> forall v, ~ derivable_pt_lim (interp_deriv (to_knots l)) (Q2R x) v.
Proof.
  intros S J. unfold jumps, around in J. destruct (nth_error l n) as [a|] eqn:Ea; [|discriminate]. destruct (nth_error l (Datatypes.S n)) as [b|] eqn:Eb; [|discriminate].
  destruct (nth_error l (Datatypes.S (Datatypes.S n))) as [c|] eqn:Ec; [|discriminate].
  apply andb_true_iff in J as [Jx Jn]. apply Qeq_bool_eq in Jx. apply negb_true_iff in Jn. destruct (split_at l n a b c Ea Eb Ec) as [p [r El]].
  destruct (shape_R l S) as [As _]. rewrite <- (Qeq_eqR _ _ Jx). change (to_knots l) with (map kR l) in *. rewrite El in *. rewrite map_app in *. cbn [map] in *.
  set (P := map kR p) in *. set (Rr := map kR r) in *. set (A := kR a) in *. set (B := kR b) in *. set (C := kR c) in *.
  assert (HAB : kx A < kx B /\ kx B < kx C).
  { clear -As. revert As. generalize A, B, C. intros A0 B0 C0. induction P as [|k P IH]; cbn [app]; intros As.
    - split; [exact (asc_head _ _ _ As)|exact (asc_head _ _ _ (asc_tail _ _ As))].
    - apply IH. exact (asc_tail _ _ As). }
  destruct HAB as [HAB HBC]. change (Q2R (qx b)) with (kx B).
  assert (HL : forall t, kx A <= t < kx B -> interp_deriv (P ++ A :: B :: C :: Rr) t = cub (dcub (coeffs A B)) (t - kx A)).
  { intros t Ht. unfold interp_deriv. apply (pp_piece dcub _ As P A B C Rr eq_refl t Ht). }
  assert (HR : forall t, kx B <= t < kx C -> interp_deriv (P ++ A :: B :: C :: Rr) t = cub (dcub (coeffs B C)) (t - kx B)).
  { intros t Ht. unfold interp_deriv. apply (pp_piece_last dcub _ As (P ++ [A]) B C Rr); [rewrite <- app_assoc; reflexivity|exact Ht]. }
  assert (HB : interp_deriv (P ++ A :: B :: C :: Rr) (kx B) = km B). { rewrite HR by lra. replace (kx B - kx B) with 0 by ring. apply cub_zero. }
  intros v. apply (kink _ (fun t => cub (dcub (coeffs A B)) (t - kx A)) (fun t => cub (dcub (coeffs B C)) (t - kx B)) (kx B) (Rmin (kx B - kx A) (kx C - kx B))
    (cub (dcub (dcub (coeffs A B))) (kx B - kx A)) (cub (dcub (dcub (coeffs B C))) (kx B - kx B))).
  - apply Rmin_pos; lra.
  - rewrite HB. symmetry. apply dcoeffs_end. exact HAB.
  - apply HR. lra.
  - intros t Ht. pose proof (Rmin_l (kx B - kx A) (kx C - kx B)). apply HL. lra.
  - intros t Ht. pose proof (Rmin_r (kx B - kx A) (kx C - kx B)). apply HR. lra.
  - apply cub_derive.
  - apply cub_derive.
  - replace (kx B - kx B) with 0 by ring. unfold A, B, C. rewrite <- left2_R, <- right2_R by assumption.
    intros X. apply eqR_Qeq in X. apply Qeq_bool_iff in X. congruence.
Qed.
(* every table altitude but the first and the last is the middle of a jump *)
Lemma rho_jumps : forallb (fun a => Z.leb a (-1000) || Z.leb 150000 a || existsb (fun n => jumps rho_q n (a # 1)) (seq 0 (List.length rho_q)))%bool atm_alt_z = true.
Proof. vm_compute. reflexivity. Qed.
Theorem C51_density_slope_kinks : forall e a, in_range e -> In a atm_alt_z -> e (V "alt") = IZR a -> forall old v,
  ~ derivable_pt_lim (fun t => compute usatm (upd e (V "alt") t) old (V "drhos_dalt")) (e (V "alt")) v.
Proof.
  intros e a Hr Ha He old v H. rewrite He in H. pose proof rho_jumps as J. rewrite forallb_forall in J. specialize (J a Ha). unfold in_range, alt_min, alt_max in Hr. rewrite He in Hr.
  apply Bool.orb_true_iff in J as [J|J]; [exfalso; apply Bool.orb_true_iff in J as [J|J]; apply Z.leb_le in J; apply IZR_le in J; lra|].
  apply existsb_exists in J as (n & _ & J). apply (jump_no_derivative rho_q n (a # 1) rho_shape J v). rewrite Q2R_Z.
  apply (derivable_pt_lim_ext (fun t => compute usatm (upd e (V "alt") t) old (V "drhos_dalt"))); [|exact H]. intros t. rewrite drhos_val, upd_self. reflexivity.
Qed.
Print Assumptions C51_density_slope_kinks.
Example C40_example : exists e1 e2 : env, alt_min <= e1 (V "alt") /\ e1 (V "alt") < e2 (V "alt") /\ e2 (V "alt") <= alt_max /\ in_range e1 /\ forall a, In a atm_alt_z -> e1 (V "alt") <> IZR a.
Proof.
  exists (fun _ => 500), (fun _ => 35000). unfold in_range, alt_min, alt_max. repeat split; try lra. intros a Ha X. apply eq_IZR in X. subst. revert Ha. cbn. lia.
Qed.
