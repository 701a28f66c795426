(* C74: the standard atmosphere that the component interpolates obeys the gas law, hydrostatic balance and the standard's temperature
   profile, at every altitude and not only at the table's, with the exception of the neighbourhood of 19000 ft. *)
From Coq Require Import ZArith QArith Qabs Qreals Lia Psatz.
From Verif Require Import Lib_R Proofs_Atm Prop_Atm.
Open Scope string_scope. Open Scope list_scope.
Local Notation qk := (Q * Q * Q)%type.

(* ---------- cubic pieces in Bernstein form ---------- *)
Section Q.
Open Scope Q_scope.
Definition ctl := (Q * Q * Q * Q)%type.
Definition ctl_q (p : qk * qk) : ctl := let (a, b) := p in let h := qx b - qx a in (qy a, qy a + qm a * h / 3, qy b - qm b * h / 3, qy b).
(* coefficients of al * P + be * (rho T), of degree 6 *)
Definition g6 (al be : Q) (P r t : ctl) : list Q := let '(p0, p1, p2, p3) := P in let '(r0, r1, r2, r3) := r in let '(t0, t1, t2, t3) := t in
  [al * p0 + be * (r0 * t0);
   3 * al * (p0 + p1) + 3 * be * (r0 * t1 + r1 * t0);
   3 * al * (p0 + 3 * p1 + p2) + 3 * be * (r0 * t2 + 3 * r1 * t1 + r2 * t0);
   al * (p0 + 9 * p1 + 9 * p2 + p3) + be * (r0 * t3 + 9 * r1 * t2 + 9 * r2 * t1 + r3 * t0);
   3 * al * (p1 + 3 * p2 + p3) + 3 * be * (r1 * t3 + 3 * r2 * t2 + r3 * t1);
   3 * al * (p2 + p3) + 3 * be * (r2 * t3 + r3 * t2);
   al * p3 + be * (r3 * t3)].
(* coefficients of al * (slope of P) + be * rho, of degree 5, times the length h of the piece *)
Definition g5 (al be h : Q) (P r : ctl) : list Q := let '(p0, p1, p2, p3) := P in let '(r0, r1, r2, r3) := r in
  let d0 := 3 * (p1 - p0) in let d1 := 3 * (p2 - p1) in let d2 := 3 * (p3 - p2) in
  [al * d0 + be * h * r0;
   al * (3 * d0 + 2 * d1) + be * h * (2 * r0 + 3 * r1);
   al * (3 * d0 + 6 * d1 + d2) + be * h * (r0 + 6 * r1 + 3 * r2);
   al * (d0 + 6 * d1 + 3 * d2) + be * h * (3 * r1 + 6 * r2 + r3);
   al * (2 * d1 + 3 * d2) + be * h * (3 * r2 + 2 * r3);
   al * d2 + be * h * r3].
(* coefficients of al * T + be * (c + l x) *)
Definition g3 (al be c l x0 h : Q) (t : ctl) : list Q := let '(t0, t1, t2, t3) := t in
  [al * t0 + be * (c + l * x0); al * t1 + be * (c + l * (x0 + h / 3)); al * t2 + be * (c + l * (x0 + 2 * h / 3)); al * t3 + be * (c + l * (x0 + h))].
Definition pos_q (l : list Q) : bool := forallb (Qle_bool 0) l.
End Q.
Open Scope R_scope.
Lemma Q2R_n n : Q2R (n # 1) = IZR n. Proof. unfold Q2R. cbn. field. Qed.
Ltac q2r H := rewrite ?Q2R_plus, ?Q2R_mult, ?Q2R_minus, ?Q2R_plus, ?Q2R_mult, ?Q2R_minus, ?Q2R_plus, ?Q2R_mult, ?Q2R_minus, ?Q2R_plus, ?Q2R_mult, ?Q2R_minus, ?Q2R_n, ?Q2R_0 in H.
Section Piece.
Variables (a b : qk) (x : R).
Hypothesis Hab : Q2R (qx a) < Q2R (qx b).
Hypothesis Hx : Q2R (qx a) <= x <= Q2R (qx b).
Let h := Q2R (qx b) - Q2R (qx a).
Let t := (x - Q2R (qx a)) / h.
Let s := 1 - t.
Lemma st_pos : 0 < h /\ 0 <= s /\ 0 <= t.
Proof.
  assert (Hh : 0 < h) by (unfold h; lra). assert (0 <= t) by (unfold t; apply Rmult_le_pos; [lra|left; apply Rinv_0_lt_compat; exact Hh]).
  split; [exact Hh|]. split; [|assumption]. unfold s. assert (t <= 1); [|lra]. unfold t. apply (Rmult_le_reg_r h); [exact Hh|]. unfold Rdiv. rewrite Rmult_assoc, Rinv_l by lra. unfold h. lra.
Qed.
Definition bern (c : ctl) : R := let '(c0, c1, c2, c3) := c in Q2R c0 * s ^ 3 + 3 * Q2R c1 * s ^ 2 * t + 3 * Q2R c2 * s * t ^ 2 + Q2R c3 * t ^ 3.
Lemma ctl_1 (y m : Q) : Q2R (y + m * (qx b - qx a) / 3)%Q = Q2R y + Q2R m * h / 3.
Proof. assert (N : ~ (3 == 0)%Q) by discriminate. rewrite Q2R_plus, Q2R_div, Q2R_mult, Q2R_minus, Q2R_3 by exact N. reflexivity. Qed.
Lemma ctl_2 (y m : Q) : Q2R (y - m * (qx b - qx a) / 3)%Q = Q2R y - Q2R m * h / 3.
Proof. assert (N : ~ (3 == 0)%Q) by discriminate. rewrite Q2R_minus, Q2R_div, Q2R_mult, Q2R_minus, Q2R_3 by exact N. reflexivity. Qed.
Lemma bern_ok y0 m0 y1 m1 : cub (coeffs (Q2R (qx a), Q2R y0, Q2R m0) (Q2R (qx b), Q2R y1, Q2R m1)) (x - Q2R (qx a)) = bern (ctl_q ((qx a, y0, m0), (qx b, y1, m1))).
Proof.
  destruct st_pos as (Hh & _). change (ctl_q ((qx a, y0, m0), (qx b, y1, m1))) with (y0, (y0 + m0 * (qx b - qx a) / 3)%Q, (y1 - m1 * (qx b - qx a) / 3)%Q, y1). unfold bern. rewrite ctl_1, ctl_2. unfold cub, coeffs, kx, ky, km. cbn [c3 c2 c1 c0 fst snd]. unfold s, t. fold h. field. lra.
Qed.
Lemma dbern_ok y0 m0 y1 m1 : cub (dcub (coeffs (Q2R (qx a), Q2R y0, Q2R m0) (Q2R (qx b), Q2R y1, Q2R m1))) (x - Q2R (qx a)) * h =
  let '(c0, c1, c2, c3) := ctl_q ((qx a, y0, m0), (qx b, y1, m1)) in 3 * (Q2R c1 - Q2R c0) * s ^ 2 + 6 * (Q2R c2 - Q2R c1) * s * t + 3 * (Q2R c3 - Q2R c2) * t ^ 2.
Proof.
  destruct st_pos as (Hh & _). change (ctl_q ((qx a, y0, m0), (qx b, y1, m1))) with (y0, (y0 + m0 * (qx b - qx a) / 3)%Q, (y1 - m1 * (qx b - qx a) / 3)%Q, y1). cbv beta iota. rewrite ctl_1, ctl_2. unfold cub, dcub, coeffs, kx, ky, km. cbn [c3 c2 c1 c0 fst snd]. unfold s, t. fold h. field. lra.
Qed.
Ltac poss st := repeat first [apply Rplus_le_le_0_compat | apply Rmult_le_pos | apply pow_le]; try lra; try assumption.
Lemma g6_ok al be P r u : pos_q (g6 al be P r u) = true -> 0 <= Q2R al * bern P + Q2R be * (bern r * bern u).
Proof.
  destruct P as [[[p0 p1] p2] p3], r as [[[r0 r1] r2] r3], u as [[[t0 t1] t2] t3]. unfold pos_q, g6. cbn [forallb]. rewrite !andb_true_iff.
  intros (H0 & H1 & H2 & H3 & H4 & H5 & H6 & _). apply qle_R in H0, H1, H2, H3, H4, H5, H6.
  q2r H0; q2r H1; q2r H2; q2r H3; q2r H4; q2r H5; q2r H6. unfold bern. destruct st_pos as (_ & Sp & Tp). assert (E : s + t = 1) by (unfold s; ring). clearbody s t.
  match type of H0 with 0 <= ?g0 => match type of H1 with 0 <= ?g1 => match type of H2 with 0 <= ?g2 => match type of H3 with 0 <= ?g3' => match type of H4 with 0 <= ?g4 => match type of H5 with 0 <= ?g5' => match type of H6 with 0 <= ?g6' =>
    replace (Q2R al * (Q2R p0 * s ^ 3 + 3 * Q2R p1 * s ^ 2 * t + 3 * Q2R p2 * s * t ^ 2 + Q2R p3 * t ^ 3)) with (Q2R al * (Q2R p0 * s ^ 3 + 3 * Q2R p1 * s ^ 2 * t + 3 * Q2R p2 * s * t ^ 2 + Q2R p3 * t ^ 3) * (s + t) ^ 3) by (rewrite E; ring);
    match goal with |- 0 <= ?e => replace e with (g0 * s ^ 6 + g1 * (s ^ 5 * t) + g2 * (s ^ 4 * t ^ 2) + g3' * (s ^ 3 * t ^ 3) + g4 * (s ^ 2 * t ^ 4) + g5' * (s * t ^ 5) + g6' * t ^ 6) by ring end
  end end end end end end end.
  repeat apply Rplus_le_le_0_compat; apply Rmult_le_pos; try assumption; try (apply pow_le; assumption); apply Rmult_le_pos; try assumption; apply pow_le; assumption.
Qed.
Lemma g5_ok al be P r : pos_q (g5 al be (qx b - qx a) P r) = true -> 
  0 <= Q2R al * (let '(c0, c1, c2, c3) := P in 3 * (Q2R c1 - Q2R c0) * s ^ 2 + 6 * (Q2R c2 - Q2R c1) * s * t + 3 * (Q2R c3 - Q2R c2) * t ^ 2) + Q2R be * h * bern r.
Proof.
  destruct P as [[[p0 p1] p2] p3], r as [[[r0 r1] r2] r3]. unfold pos_q, g5. cbn [forallb]. rewrite !andb_true_iff.
  intros (H0 & H1 & H2 & H3 & H4 & H5 & _). apply qle_R in H0, H1, H2, H3, H4, H5.
  q2r H0; q2r H1; q2r H2; q2r H3; q2r H4; q2r H5. unfold bern. destruct st_pos as (_ & Sp & Tp). fold h in H0, H1, H2, H3, H4, H5. assert (E : s + t = 1) by (unfold s; ring). clearbody s t h.
  match type of H0 with 0 <= ?g0 => match type of H1 with 0 <= ?g1 => match type of H2 with 0 <= ?g2 => match type of H3 with 0 <= ?g3' => match type of H4 with 0 <= ?g4 => match type of H5 with 0 <= ?g5' =>
    replace (Q2R al * (3 * (Q2R p1 - Q2R p0) * s ^ 2 + 6 * (Q2R p2 - Q2R p1) * s * t + 3 * (Q2R p3 - Q2R p2) * t ^ 2) + Q2R be * h * (Q2R r0 * s ^ 3 + 3 * Q2R r1 * s ^ 2 * t + 3 * Q2R r2 * s * t ^ 2 + Q2R r3 * t ^ 3))
      with (Q2R al * (3 * (Q2R p1 - Q2R p0) * s ^ 2 + 6 * (Q2R p2 - Q2R p1) * s * t + 3 * (Q2R p3 - Q2R p2) * t ^ 2) * (s + t) ^ 3 + Q2R be * h * (Q2R r0 * s ^ 3 + 3 * Q2R r1 * s ^ 2 * t + 3 * Q2R r2 * s * t ^ 2 + Q2R r3 * t ^ 3) * (s + t) ^ 2) by (rewrite E; ring);
    match goal with |- 0 <= ?e => replace e with (g0 * s ^ 5 + g1 * (s ^ 4 * t) + g2 * (s ^ 3 * t ^ 2) + g3' * (s ^ 2 * t ^ 3) + g4 * (s * t ^ 4) + g5' * t ^ 5) by ring end
  end end end end end end.
  repeat apply Rplus_le_le_0_compat; apply Rmult_le_pos; try assumption; try (apply pow_le; assumption); apply Rmult_le_pos; try assumption; apply pow_le; assumption.
Qed.
Lemma g3_ok al be c l u : pos_q (g3 al be c l (qx a) (qx b - qx a) u) = true -> 0 <= Q2R al * bern u + Q2R be * (Q2R c + Q2R l * x).
Proof.
  destruct u as [[[t0 t1] t2] t3]. unfold pos_q, g3. cbn [forallb]. rewrite !andb_true_iff. assert (N : ~ (3 == 0)%Q) by discriminate.
  intros (H0 & H1 & H2 & H3 & _). apply qle_R in H0, H1, H2, H3.
  q2r H0; q2r H1; q2r H2; q2r H3. rewrite Q2R_div, Q2R_minus, Q2R_n in H1 by exact N. rewrite Q2R_div, Q2R_mult, Q2R_minus, !Q2R_n in H2 by exact N. fold h in H1, H2, H3.
  unfold bern. destruct st_pos as (Hh & Sp & Tp). assert (E : s + t = 1) by (unfold s; ring).
  assert (Ex : x = Q2R (qx a) * (s + t) + h * t) by (rewrite E; unfold t; field; lra). rewrite Ex. clearbody s t h.
  match type of H0 with 0 <= ?g0 => match type of H1 with 0 <= ?g1 => match type of H2 with 0 <= ?g2 => match type of H3 with 0 <= ?g3' =>
    replace (Q2R be * (Q2R c + Q2R l * (Q2R (qx a) * (s + t) + h * t))) with (Q2R be * (Q2R c * (s + t) ^ 3 + Q2R l * (Q2R (qx a) * (s + t) + h * t) * (s + t) ^ 2)) by (rewrite E; ring);
    match goal with |- 0 <= ?e => replace e with (g0 * s ^ 3 + 3 * (g1 * (s ^ 2 * t)) + 3 * (g2 * (s * t ^ 2)) + g3' * t ^ 3) by field end
  end end end end.
  assert (0 <= s ^ 2 * t) by (apply Rmult_le_pos; [apply pow_le|]; assumption). assert (0 <= s * t ^ 2) by (apply Rmult_le_pos; [|apply pow_le]; assumption).
  repeat apply Rplus_le_le_0_compat; try (apply Rmult_le_pos; [assumption|apply pow_le; assumption]); apply Rmult_le_pos; try lra; apply Rmult_le_pos; assumption.
Qed.
End Piece.

(* ---------- the piece of each of the three interpolants that holds x ---------- *)
Lemma cells x : forall l1 l2 l3, map qx l1 = map qx l2 -> map qx l1 = map qx l3 -> (2 <= List.length l1)%nat -> ascending (to_knots l1) ->
  forall d, Q2R (qx (hd d l1)) <= x <= Q2R (qx (List.last l1 d)) ->
  exists p1 p2 p3, In (p1, p2, p3) (combine (combine (pairs l1) (pairs l2)) (pairs l3)) /\ qx (fst p2) = qx (fst p1) /\ qx (snd p2) = qx (snd p1) /\ qx (fst p3) = qx (fst p1) /\ qx (snd p3) = qx (snd p1) /\
    Q2R (qx (fst p1)) < Q2R (qx (snd p1)) /\ Q2R (qx (fst p1)) <= x <= Q2R (qx (snd p1)) /\ (x < Q2R (qx (snd p1)) \/ snd p1 = List.last l1 d) /\
    forall f, pp f (to_knots l1) x = cub (f (coeffs (kR (fst p1)) (kR (snd p1)))) (x - Q2R (qx (fst p1))) /\
      pp f (to_knots l2) x = cub (f (coeffs (kR (fst p2)) (kR (snd p2)))) (x - Q2R (qx (fst p1))) /\
      pp f (to_knots l3) x = cub (f (coeffs (kR (fst p3)) (kR (snd p3)))) (x - Q2R (qx (fst p1))).
Proof.
  induction l1 as [|a1 l1 IH]; intros l2 l3 E2 E3 L As d Hx; [cbn in L; lia|]. destruct l1 as [|b1 l1]; [cbn in L; lia|].
  destruct l2 as [|a2 [|b2 l2]]; try discriminate E2. destruct l3 as [|a3 [|b3 l3]]; try discriminate E3.
  injection E2 as X2 Y2 Z2. injection E3 as X3 Y3 Z3. pose proof (asc_head _ _ _ As : Q2R (qx a1) < Q2R (qx b1)) as Hab.
  destruct l1 as [|c1 l1].
  - destruct l2; [|discriminate Z2]. destruct l3; [|discriminate Z3]. exists (a1, b1), (a2, b2), (a3, b3). split; [left; reflexivity|]. cbn [fst snd].
    do 5 (split; [first [congruence|assumption]|]). split; [exact Hx|]. split; [right; reflexivity|]. intros f. change (to_knots ?l) with (map kR l). cbn [map pp]. change (kx (kR a1)) with (Q2R (qx a1)). change (kx (kR a2)) with (Q2R (qx a2)). change (kx (kR a3)) with (Q2R (qx a3)). rewrite <- X2, <- X3. auto.
  - destruct l2 as [|c2 l2]; [discriminate Z2|]. destruct l3 as [|c3' l3]; [discriminate Z3|].
    destruct (Rlt_dec x (Q2R (qx b1))) as [Hb|Hb].
    + exists (a1, b1), (a2, b2), (a3, b3). split; [left; reflexivity|]. cbn [fst snd]. do 5 (split; [first [congruence|assumption]|]). split; [cbn [hd] in Hx; lra|]. split; [left; exact Hb|]. intros f.
      change (to_knots ?l) with (map kR l). cbn [map pp]. change (kx (kR b1)) with (Q2R (qx b1)). change (kx (kR b2)) with (Q2R (qx b2)). change (kx (kR b3)) with (Q2R (qx b3)).
      change (kx (kR a1)) with (Q2R (qx a1)). change (kx (kR a2)) with (Q2R (qx a2)). change (kx (kR a3)) with (Q2R (qx a3)). rewrite <- X2, <- X3, <- Y2, <- Y3.
      destruct (Rlt_dec x (Q2R (qx b1))); [auto|contradiction].
    + destruct (IH (b2 :: c2 :: l2) (b3 :: c3' :: l3)) with (d := d) as (p1 & p2 & p3 & Hp & R); [cbn [map] in *; f_equal; congruence|cbn [map] in *; f_equal; congruence|cbn; lia|exact (asc_tail _ _ As)|split; [cbn [hd]; lra|exact (proj2 Hx)]|].
      exists p1, p2, p3. split; [right; exact Hp|]. destruct R as (R1 & R2 & R3 & R4 & R5 & R6 & R7 & R). repeat (split; [assumption|]). intros f. specialize (R f).
      change (to_knots ?l) with (map kR l) in *. cbn [map] in *.
      assert (G : forall a b c r, Q2R (qx b) = Q2R (qx b1) -> pp f (kR a :: kR b :: kR c :: r) x = pp f (kR b :: kR c :: r) x).
      { intros a b c r Eb. change (pp f (kR a :: kR b :: kR c :: r) x) with (if Rlt_dec x (kx (kR b)) then cub (f (coeffs (kR a) (kR b))) (x - kx (kR a)) else pp f (kR b :: kR c :: r) x).
        change (kx (kR b)) with (Q2R (qx b)). rewrite Eb. destruct (Rlt_dec x (Q2R (qx b1))); [contradiction|reflexivity]. }
      rewrite !G by congruence. exact R.
Qed.
Definition cell := (qk * qk * (qk * qk) * (qk * qk))%type.
Definition atm_cells : list cell := combine (combine (pairs T_q) (pairs P_q)) (pairs rho_q).
Lemma same_x : map qx T_q = map qx P_q /\ map qx T_q = map qx rho_q. Proof. vm_compute. split; reflexivity. Qed.
Definition k0 : qk := (0, 0, 0)%Q.
Lemma ends_x : qx (hd k0 T_q) = (-1000 # 1)%Q /\ qx (List.last T_q k0) = (150000 # 1)%Q. Proof. vm_compute. split; reflexivity. Qed.
(* a check of the pieces that meet [lo, hi] *)
Definition over (lo hi : Q) (chk : ctl -> ctl -> ctl -> Q -> Q -> bool) (c : cell) : bool := let '(pt, pp, pr) := c in
  Qle_bool hi (qx (fst pt)) || Qle_bool (qx (snd pt)) lo || chk (ctl_q pt) (ctl_q pp) (ctl_q pr) (qx (fst pt)) (qx (snd pt) - qx (fst pt))%Q.
#[local] Opaque akima table T_q P_q rho_q windows slopes extended.
(* what a check of the pieces between lo and hi says about the three interpolants at x *)
Lemma piece_at lo hi chk x : forallb (over lo hi chk) atm_cells = true -> qlt lo (150000 # 1) = true -> alt_min <= x <= alt_max -> Q2R lo <= x < Q2R hi ->
  exists a b ct cp cr, Q2R (qx a) < Q2R (qx b) /\ Q2R (qx a) <= x <= Q2R (qx b) /\ chk ct cp cr (qx a) (qx b - qx a)%Q = true /\
    interp T_knots x = bern a b x ct /\ interp P_knots x = bern a b x cp /\ interp rho_knots x = bern a b x cr /\
    interp_deriv P_knots x * (Q2R (qx b) - Q2R (qx a)) = (let s := 1 - (x - Q2R (qx a)) / (Q2R (qx b) - Q2R (qx a)) in let t := (x - Q2R (qx a)) / (Q2R (qx b) - Q2R (qx a)) in
      let '(c0, c1, c2, c3) := cp in 3 * (Q2R c1 - Q2R c0) * s ^ 2 + 6 * (Q2R c2 - Q2R c1) * s * t + 3 * (Q2R c3 - Q2R c2) * t ^ 2).
Proof.
  intros C Hl Hx [H1 H2]. destruct (shape_R _ T_shape) as [A [L _]]. change (to_knots T_q) with (map kR T_q) in L. rewrite map_length in L. destruct ends_x as [E1 E2].
  destruct (cells x T_q P_q rho_q (proj1 same_x) (proj2 same_x) L A k0) as (p1 & p2 & p3 & Hp & X1 & X2 & X3 & X4 & Hab & Hin & Hb & F).
  { rewrite E1, E2, !Q2R_n. exact Hx. }
  rewrite forallb_forall in C. specialize (C _ Hp). destruct p1 as [[[xa t0] m0] [[xb t1] m1]], p2 as [[[ya u0] n0] [[yb u1] n1]], p3 as [[[za w0] o0] [[zb w1] o1]].
  unfold qx in X1, X2, X3, X4. cbn [fst snd] in X1, X2, X3, X4. subst ya yb za zb. unfold over in C. rewrite !orb_true_iff in C. cbn [fst snd] in *.
  change (qx (xa, t0, m0)) with xa in *. change (qx (xb, t1, m1)) with xb in *. destruct C as [[C|C]|C].
  - apply qle_R in C. lra.
  - apply qle_R in C. exfalso. destruct Hb as [Hb|Hb]; [lra|]. apply qlt_R in Hl. rewrite <- E2, <- Hb in Hl. change (qx (xb, t1, m1)) with xb in Hl. lra.
  - exists (xa, t0, m0), (xb, t1, m1), (ctl_q ((xa, t0, m0), (xb, t1, m1))), (ctl_q ((xa, u0, n0), (xb, u1, n1))), (ctl_q ((xa, w0, o0), (xb, w1, o1))).
    change (qx (xa, t0, m0)) with xa. change (qx (xb, t1, m1)) with xb. split; [exact Hab|]. split; [exact Hin|]. split; [exact C|].
    destruct (F (fun c => c)) as (F1 & F2 & F3). destruct (F dcub) as (_ & D2 & _). clear F.
    split; [rewrite <- (bern_ok (xa, t0, m0) (xb, t1, m1) x Hab Hin); exact F1|]. split; [rewrite <- (bern_ok (xa, t0, m0) (xb, t1, m1) x Hab Hin); exact F2|].
    split; [rewrite <- (bern_ok (xa, t0, m0) (xb, t1, m1) x Hab Hin); exact F3|]. change (interp_deriv P_knots x) with (pp dcub (to_knots P_q) x). rewrite D2.
    exact (dbern_ok (xa, t0, m0) (xb, t1, m1) x Hab Hin u0 n0 u1 n1).
Qed.
(* ---------- the laws ---------- *)
(* specific gas constant of air: 1716.49 ft lbf / (slug degR); 144 square inches in a square foot; g: 32.174 ft / s^2 *)
Definition gas_pressure (rho T : R) : R := rho * (171649 / 100) * T / 144.
Definition weight_density (rho : R) : R := rho * (32174 / 1000) / 144.
Definition gas_chk (eps : Q) (ct cp cr : ctl) (_ _ : Q) : bool := pos_q (g6 (1 + eps) (- 171649 # 14400) cp cr ct) && pos_q (g6 (eps - 1) (171649 # 14400) cp cr ct).
Definition hyd_chk (eps : Q) (_ cp cr : ctl) (_ h : Q) : bool := pos_q (g5 1 ((1 + eps) * (32174 # 144000)) h cp cr) && pos_q (g5 (-1 # 1) ((eps - 1) * (32174 # 144000)) h cp cr).
Definition line_chk (c l eps : Q) (ct _ _ : ctl) (x0 h : Q) : bool := pos_q (g3 1 (-1 # 1) (c - eps) l x0 h ct) && pos_q (g3 (-1 # 1) 1 (c + eps) l x0 h ct).
Lemma Q2R_frac n d : Q2R (n # d) = IZR n / IZR (Zpos d). Proof. reflexivity. Qed.
Lemma gas_at lo hi eps : forallb (over lo hi (gas_chk eps)) atm_cells = true -> qlt lo (150000 # 1) = true -> forall e old, alt_min <= e (V "alt") <= alt_max -> Q2R lo <= e (V "alt") < Q2R hi ->
  Rabs (compute usatm e old (V "Ps") - gas_pressure (compute usatm e old (V "rhos")) (compute usatm e old (V "Ts"))) <= Q2R eps * compute usatm e old (V "Ps").
Proof.
  intros C Hl e old He Hx. rewrite Ts_val, Ps_val, rhos_val. destruct (piece_at lo hi _ _ C Hl He Hx) as (a & b & ct & cp & cr & Hab & Hin & K & -> & -> & -> & _).
  unfold gas_chk in K. apply andb_true_iff in K as [K1 K2]. apply (g6_ok a b (e (V "alt")) Hab Hin) in K1, K2. rewrite Q2R_plus, !Q2R_frac in K1. rewrite Q2R_minus, !Q2R_frac in K2. unfold gas_pressure.
  apply Rabs_le. lra.
Qed.
Lemma hyd_at lo hi eps : forallb (over lo hi (hyd_chk eps)) atm_cells = true -> qlt lo (150000 # 1) = true -> forall e old, alt_min <= e (V "alt") <= alt_max -> Q2R lo <= e (V "alt") < Q2R hi ->
  Rabs (interp_deriv P_knots (e (V "alt")) + weight_density (compute usatm e old (V "rhos"))) <= Q2R eps * weight_density (compute usatm e old (V "rhos")).
Proof.
  intros C Hl e old He Hx. rewrite rhos_val. destruct (piece_at lo hi _ _ C Hl He Hx) as (a & b & ct & cp & cr & Hab & Hin & K & _ & _ & -> & D).
  unfold hyd_chk in K. apply andb_true_iff in K as [K1 K2]. apply (g5_ok a b (e (V "alt")) Hab Hin) in K1, K2. cbv zeta in D. rewrite <- D in K1, K2. rewrite Q2R_mult, Q2R_plus, !Q2R_frac in K1. rewrite Q2R_mult, Q2R_minus, !Q2R_frac in K2. unfold weight_density.
  set (h := Q2R (qx b) - Q2R (qx a)) in *. assert (Hh : 0 < h) by (unfold h; lra). set (B := bern a b (e (V "alt")) cr) in *. set (d := interp_deriv P_knots (e (V "alt"))) in *.
  assert (N1 : 0 <= d + (1 + Q2R eps) * (32174 / 144000) * B) by (apply (Rmult_le_reg_r h); [exact Hh|]; lra).
  assert (N2 : 0 <= - d + (Q2R eps - 1) * (32174 / 144000) * B) by (apply (Rmult_le_reg_r h); [exact Hh|]; lra).
  apply Rabs_le. lra.
Qed.
Lemma line_at lo hi c l eps : forallb (over lo hi (line_chk c l eps)) atm_cells = true -> qlt lo (150000 # 1) = true -> forall e old, alt_min <= e (V "alt") <= alt_max -> Q2R lo <= e (V "alt") < Q2R hi ->
  Rabs (compute usatm e old (V "Ts") - (Q2R c + Q2R l * e (V "alt"))) <= Q2R eps.
Proof.
  intros C Hl e old He Hx. rewrite Ts_val. destruct (piece_at lo hi _ _ C Hl He Hx) as (a & b & ct & cp & cr & Hab & Hin & K & -> & _).
  unfold line_chk in K. apply andb_true_iff in K as [K1 K2]. apply (g3_ok a b (e (V "alt")) Hab Hin) in K1, K2. rewrite Q2R_minus, !Q2R_frac in K1. rewrite Q2R_plus, !Q2R_frac in K2. apply Rabs_le. lra.
Qed.
#[local] Transparent akima table T_q P_q rho_q windows slopes extended.
Lemma gas_1 : forallb (over (-1000 # 1) (18000 # 1) (gas_chk (3 # 10000))) atm_cells = true. Proof. vm_compute. reflexivity. Qed.
Lemma gas_2 : forallb (over (20000 # 1) (35000 # 1) (gas_chk (3 # 10000))) atm_cells = true. Proof. vm_compute. reflexivity. Qed.
Lemma gas_3 : forallb (over (37000 # 1) (100000 # 1) (gas_chk (3 # 10000))) atm_cells = true. Proof. vm_compute. reflexivity. Qed.
Lemma gas_4 : forallb (over (35000 # 1) (37000 # 1) (gas_chk (2 # 1000))) atm_cells = true. Proof. vm_compute. reflexivity. Qed.
Lemma gas_5 : forallb (over (100000 # 1) (150001 # 1) (gas_chk (2 # 1000))) atm_cells = true. Proof. vm_compute. reflexivity. Qed.
Lemma hyd_1 : forallb (over (-1000 # 1) (18000 # 1) (hyd_chk (2 # 100))) atm_cells = true. Proof. vm_compute. reflexivity. Qed.
Lemma hyd_2 : forallb (over (20000 # 1) (150001 # 1) (hyd_chk (2 # 100))) atm_cells = true. Proof. vm_compute. reflexivity. Qed.
Lemma hyd_3 : forallb (over (-1000 # 1) (16000 # 1) (hyd_chk (2 # 1000))) atm_cells = true. Proof. vm_compute. reflexivity. Qed.
Lemma hyd_4 : forallb (over (22000 # 1) (98000 # 1) (hyd_chk (2 # 1000))) atm_cells = true. Proof. vm_compute. reflexivity. Qed.
Lemma line_1 : forallb (over (-1000 # 1) (36000 # 1) (line_chk (51867 # 100) (- 35661563 # 10000000000) (4 # 1000))) atm_cells = true. Proof. vm_compute. reflexivity. Qed.
Lemma line_2 : forallb (over (37000 # 1) (65000 # 1) (line_chk (38997 # 100) 0 0)) atm_cells = true. Proof. vm_compute. reflexivity. Qed.
Lemma line_3 : forallb (over (67000 # 1) (100000 # 1) (line_chk (35397 # 100) (54864 # 100000000) (1 # 1000))) atm_cells = true. Proof. vm_compute. reflexivity. Qed.
Lemma line_4 : forallb (over (105000 # 1) (150001 # 1) (line_chk (25029 # 100) (153619 # 100000000) (2 # 100))) atm_cells = true. Proof. vm_compute. reflexivity. Qed.

#[local] Opaque akima table T_q P_q rho_q windows slopes extended.
(* the gas law p = rho R T at every altitude outside of [18000, 20000): to 0.03 per cent away from the corners of the temperature profile, to 0.2 per cent everywhere *)
Theorem C74_gas_law_partial : forall e old, alt_min <= e (V "alt") <= alt_max -> e (V "alt") < 18000 \/ 20000 <= e (V "alt") ->
  let P := compute usatm e old (V "Ps") in let G := gas_pressure (compute usatm e old (V "rhos")) (compute usatm e old (V "Ts")) in
  Rabs (P - G) <= 2 / 1000 * P /\ (e (V "alt") < 35000 \/ 37000 <= e (V "alt") < 100000 -> Rabs (P - G) <= 3 / 10000 * P).
Proof.
  intros e old He Hx P G. assert (PP := proj1 (proj2 (C40_positive e old He))). fold P in PP.
  pose proof (gas_at _ _ _ gas_1 eq_refl e old He) as G1. pose proof (gas_at _ _ _ gas_2 eq_refl e old He) as G2. pose proof (gas_at _ _ _ gas_3 eq_refl e old He) as G3.
  pose proof (gas_at _ _ _ gas_4 eq_refl e old He) as G4. pose proof (gas_at _ _ _ gas_5 eq_refl e old He) as G5. rewrite !Q2R_frac in G1, G2, G3, G4, G5. fold P in G1, G2, G3, G4, G5. fold G in G1, G2, G3, G4, G5.
  unfold alt_min, alt_max in He. set (x := e (V "alt")) in *.
  destruct (Rlt_dec x 18000) as [L|L]; [specialize (G1 ltac:(lra)); split; [|intros _]; lra|].
  destruct (Rlt_dec x 35000) as [L2|L2]; [specialize (G2 ltac:(lra)); split; [|intros _]; lra|].
  destruct (Rlt_dec x 37000) as [L3|L3]; [specialize (G4 ltac:(lra)); split; [|intros [?|?]]; lra|].
  destruct (Rlt_dec x 100000) as [L4|L4]; [specialize (G3 ltac:(lra)); split; [|intros _]; lra|].
  specialize (G5 ltac:(lra)); split; [|intros [?|?]]; lra.
Qed.
Print Assumptions C74_gas_law_partial.
(* refuted at 19000 ft: the pressure is more than 5 per cent above the one that the density and temperature reported with it give *)
Theorem C74_gas_law_refuted : forall e old, e (V "alt") = 19000 ->
  105 / 100 * gas_pressure (compute usatm e old (V "rhos")) (compute usatm e old (V "Ts")) < compute usatm e old (V "Ps").
Proof.
  intros e old He. destruct (C40_table 20 19000 _ _ _ eq_refl eq_refl eq_refl eq_refl e old He) as (E1 & E2 & E3). rewrite E1, E2, E3. unfold gas_pressure. lra.
Qed.
Print Assumptions C74_gas_law_refuted.
(* hydrostatic balance dp/dh = - rho g at every altitude outside of [18000, 20000): to 2 per cent, and to 0.2 per cent away from the table's coarse part and the wrong entry *)
Theorem C74_hydrostatic_partial : forall e old, alt_min < e (V "alt") < alt_max -> e (V "alt") < 18000 \/ 20000 <= e (V "alt") ->
  exists slope, derivable_pt_lim (fun h => compute usatm (upd e (V "alt") h) old (V "Ps")) (e (V "alt")) slope /\
    let w := weight_density (compute usatm e old (V "rhos")) in
    Rabs (slope + w) <= 2 / 100 * w /\ (e (V "alt") < 16000 \/ 22000 <= e (V "alt") < 98000 -> Rabs (slope + w) <= 2 / 1000 * w).
Proof.
  intros e old He Hx. exists (interp_deriv P_knots (e (V "alt"))). split.
  - destruct (shape_R _ P_shape) as [A [L _]]. apply (derivable_pt_lim_ext (interp P_knots)); [intros h; rewrite Ps_val, upd_self; reflexivity|].
    exact (pp_derive (fun c => c) P_knots A _ (interp_fits _ _ A) L).
  - assert (He' : alt_min <= e (V "alt") <= alt_max) by lra. intros w. assert (W : 0 < w) by (unfold w, weight_density; pose proof (proj2 (proj2 (C40_positive e old He'))); lra).
    pose proof (hyd_at _ _ _ hyd_1 eq_refl e old He') as G1. pose proof (hyd_at _ _ _ hyd_2 eq_refl e old He') as G2. pose proof (hyd_at _ _ _ hyd_3 eq_refl e old He') as G3. pose proof (hyd_at _ _ _ hyd_4 eq_refl e old He') as G4.
    rewrite !Q2R_frac in G1, G2, G3, G4. fold w in G1, G2, G3, G4. unfold alt_min, alt_max in He. set (x := e (V "alt")) in *. split.
    + destruct (Rlt_dec x 18000) as [L|L]; [specialize (G1 ltac:(lra))|specialize (G2 ltac:(lra))]; lra.
    + intros [H|H]; [specialize (G3 ltac:(lra))|specialize (G4 ltac:(lra))]; lra.
Qed.
Print Assumptions C74_hydrostatic_partial.
(* the temperature profile of the standard: 3.5661563 degR per 1000 ft up to the tropopause, constant between 37000 and 65000 ft, then 0.54864 and, from 105000 ft,
   1.53619 degR per 1000 ft *)
Theorem C74_temperature : forall e old, alt_min <= e (V "alt") <= alt_max -> let h := e (V "alt") in let T := compute usatm e old (V "Ts") in
  (h < 36000 -> Rabs (T - (51867 / 100 - 35661563 / 10 ^ 10 * h)) <= 4 / 1000) /\
  (37000 <= h < 65000 -> T = 38997 / 100) /\
  (67000 <= h < 100000 -> Rabs (T - (38997 / 100 + 54864 / 10 ^ 8 * (h - 656168 / 10))) <= 2 / 1000) /\
  (105000 <= h -> Rabs (T - (41157 / 100 + 153619 / 10 ^ 8 * (h - 1049869 / 10))) <= 3 / 100).
Proof.
  intros e old He h T.
  pose proof (line_at _ _ _ _ _ line_1 eq_refl e old He) as G1. pose proof (line_at _ _ _ _ _ line_2 eq_refl e old He) as G2. pose proof (line_at _ _ _ _ _ line_3 eq_refl e old He) as G3. pose proof (line_at _ _ _ _ _ line_4 eq_refl e old He) as G4.
  rewrite !Q2R_frac in G1, G3, G4. rewrite !Q2R_n, !Q2R_frac in G2. fold T in G1, G2, G3, G4. fold h in G1, G2, G3, G4. unfold alt_min, alt_max in He. fold h in He.
  split; [|split; [|split]]; intros H.
  - specialize (G1 ltac:(lra)). replace (10 ^ 10) with 10000000000 by lra. apply Rabs_le_between in G1. apply Rabs_le. lra.
  - specialize (G2 ltac:(lra)). apply Rabs_le_between in G2. lra.
  - specialize (G3 ltac:(lra)). replace (10 ^ 8) with 100000000 by lra. apply Rabs_le_between in G3. apply Rabs_le. lra.
  - specialize (G4 ltac:(lra)). replace (10 ^ 8) with 100000000 by lra. apply Rabs_le_between in G4. apply Rabs_le. lra.
Qed.
Print Assumptions C74_temperature.
Example C74_example : exists e : env, alt_min < e (V "alt") < alt_max /\ e (V "alt") < 16000 /\ exists e2 : env, 37000 <= e2 (V "alt") < 65000 /\ alt_min < e2 (V "alt") < alt_max.
Proof. exists (fun _ => 1500). unfold alt_min, alt_max. split; [lra|split; [lra|]]. exists (fun _ => 41500). lra. Qed.
