(* Claim C72, continued: the shape of the efficiency curves. *)
From Coq Require Import ZArith QArith Qabs Qreals Lia Psatz.
From Verif Require Import Lib_R Proofs_Atm Prop_Atm Model_CoreEff Prop_CoreEff.
Open Scope string_scope. Open Scope list_scope. Open Scope R_scope.

(* ---------- 'large' ---------- *)
Lemma poly_slope x : 0 <= x < cut -> 0 < - (361 / 100000) * x ^ 3 + 5448 / 100000 * x ^ 2 - 2726 / 10000 * x + 4549 / 10000.
Proof.
  intros H. unfold cut in H. set (a := 4664 / 1000). set (c := 5448 / 100000 - 2 * a * (361 / 100000)).
  assert (E : - (361 / 100000) * x ^ 3 + 5448 / 100000 * x ^ 2 - 2726 / 10000 * x + 4549 / 10000 =
    (x - a) ^ 2 * (c - 361 / 100000 * x) + ((2 * a * c + 361 / 100000 * (a * a) - 2726 / 10000) * x + (4549 / 10000 - a * a * c))) by (unfold c; field).
  rewrite E. assert (K1 : 0 <= (x - a) ^ 2 * (c - 361 / 100000 * x)) by (apply Rmult_le_pos; [apply pow2_ge_0|unfold c, a; lra]).
  assert (K2 : 0 <= (2 * a * c + 361 / 100000 * (a * a) - 2726 / 10000) * x) by (apply Rmult_le_pos; [unfold c, a; lra|lra]).
  assert (K3 : 0 < 4549 / 10000 - a * a * c) by (unfold c, a; lra). lra.
Qed.
Lemma poly_derive x : derivable_pt_lim large_poly x (- (361 / 100000) * x ^ 3 + 5448 / 100000 * x ^ 2 - 2726 / 10000 * x + 4549 / 10000).
Proof. apply is_derive_Reals. unfold large_poly. auto_derive; [exact Logic.I|]. ring_simplify. lra. Qed.
(* below the cut a bigger core is more efficient, so an efficiency fixes the core size *)
Theorem C72_large_increasing tl x y : 0 <= x -> x < y -> y < cut -> large_curve tl x < large_curve tl y.
Proof.
  intros H1 H2 H3. assert (K : large_poly x < large_poly y).
  { destruct (MVT_cor2 large_poly _ x y H2 (fun c _ => poly_derive c)) as (c & E & Hc). pose proof (poly_slope c ltac:(lra)) as P.
    assert (0 < (- (361 / 100000) * c ^ 3 + 5448 / 100000 * c ^ 2 - 2726 / 10000 * c + 4549 / 10000) * (y - x)) by (apply Rmult_lt_0_compat; lra). lra. }
  unfold large_curve. destruct (Rlt_dec x cut); [|lra]. destruct (Rlt_dec y cut); [|lra]. destruct tl as [|[|[|tl]]]; lra.
Qed.
(* at the cut the curve falls *)
Lemma near_cut d : 0 < d <= / 1000000000 -> 91 / 100 + / 100000000 < large_poly (cut - d).
Proof.
  intros H. unfold large_poly, cut.
  assert (D2 : 0 <= d ^ 2 <= d) by (split; [apply pow2_ge_0|]; replace (d ^ 2) with (d * d) by ring; assert (d * d <= d * 1) by (apply Rmult_le_compat_l; lra); lra).
  assert (D3 : 0 <= d ^ 3 <= d) by (replace (d ^ 3) with (d * d ^ 2) by ring; split; [apply Rmult_le_pos; lra|]; assert (d * d ^ 2 <= d * 1) by (apply Rmult_le_compat_l; lra); lra).
  assert (D4 : 0 <= d ^ 4 <= d) by (replace (d ^ 4) with (d * d ^ 3) by ring; split; [apply Rmult_le_pos; lra|]; assert (d * d ^ 3 <= d * 1) by (apply Rmult_le_compat_l; lra); lra).
  set (d2 := d ^ 2) in *. set (d3 := d ^ 3) in *. set (d4 := d ^ 4) in *.
  set (k := 530218862 / 100000000).
  replace ((k - d) ^ 4) with (k ^ 4 - 4 * k ^ 3 * d + 6 * k ^ 2 * d2 - 4 * k * d3 + d4) by (unfold d2, d3, d4; ring).
  replace ((k - d) ^ 3) with (k ^ 3 - 3 * k ^ 2 * d + 3 * k * d2 - d3) by (unfold d2, d3; ring).
  replace ((k - d) ^ 2) with (k ^ 2 - 2 * k * d + d2) by (unfold d2; ring). unfold k. lra.
Qed.
Theorem C72_large_refuted tl : (exists x y, 0 <= x /\ x < y /\ large_curve tl y < large_curve tl x) /\ forall v, ~ derivable_pt_lim (large_curve tl) cut v.
Proof.
  assert (S : forall d, 0 < d <= / 1000000000 -> large_curve tl cut + / 100000000 < large_curve tl (cut - d)).
  { intros d H. pose proof (near_cut d H). unfold large_curve. destruct (Rlt_dec cut cut); [lra|]. destruct (Rlt_dec (cut - d) cut); [|lra]. destruct tl as [|[|[|tl]]]; lra. }
  split.
  - exists (cut - / 1000000000), cut. pose proof (S (/ 1000000000) ltac:(lra)). split; [unfold cut; lra|]. lra.
  - intros v D. assert (C : continuity_pt (large_curve tl) cut) by (apply derivable_continuous_pt; exists v; exact D).
    destruct (C (/ 100000000) ltac:(lra)) as (a & Ha & L). set (d := Rmin (a / 2) (/ 1000000000)).
    assert (Hd : 0 < d <= / 1000000000) by (unfold d; split; [apply Rmin_pos; lra|apply Rmin_r]). assert (Hd2 : d < a) by (unfold d; pose proof (Rmin_l (a / 2) (/ 1000000000)); lra).
    assert (Q : Rabs (large_curve tl (cut - d) - large_curve tl cut) < / 100000000).
    { apply (L (cut - d)). split; [split; [exact Logic.I|lra]|]. cbn. unfold R_dist. replace (cut - d - cut) with (- d) by ring. rewrite Rabs_Ropp, Rabs_right; lra. }
    apply Rabs_def2 in Q. pose proof (S d Hd). lra.
Qed.

(* ---------- 'small' ---------- *)
Definition kneg (k : knot) : knot := (kx k, - ky k, - km k).
Definition ksub (a b : knot) : knot := (kx a, ky a - ky b, km a - km b).
Lemma coeffs_neg a b u : kx a < kx b -> cub (coeffs (kneg a) (kneg b)) u = - cub (coeffs a b) u.
Proof. intros H. unfold cub, coeffs, kneg, kx, ky, km in *. cbn in *. field. lra. Qed.
Lemma coeffs_sub a b c d u : kx a < kx b -> kx a = kx c -> kx b = kx d -> cub (coeffs (ksub a c) (ksub b d)) u = cub (coeffs a b) u - cub (coeffs c d) u.
Proof. intros H E1 E2. unfold cub, coeffs, ksub, kx, ky, km in *. cbn in *. rewrite <- E1, <- E2. field. lra. Qed.
Lemma interp_neg ks x : ascending ks -> interp (map kneg ks) x = - interp ks x.
Proof.
  unfold interp. induction ks as [|a r IH]; intros A; [cbn; ring|]. destruct r as [|b r]; [cbn; ring|].
  pose proof (asc_head _ _ _ A) as Hab. specialize (IH (asc_tail _ _ A)). destruct r as [|c r].
  - cbn [map pp]. apply coeffs_neg. exact Hab.
  - cbn [map] in IH |- *.
    change (pp (fun c0 => c0) (kneg a :: kneg b :: kneg c :: map kneg r) x) with (if Rlt_dec x (kx b) then cub (coeffs (kneg a) (kneg b)) (x - kx a) else pp (fun c0 => c0) (kneg b :: kneg c :: map kneg r) x).
    change (pp (fun c0 => c0) (a :: b :: c :: r) x) with (if Rlt_dec x (kx b) then cub (coeffs a b) (x - kx a) else pp (fun c0 => c0) (b :: c :: r) x).
    destruct (Rlt_dec x (kx b)); [apply coeffs_neg; exact Hab|exact IH].
Qed.
Fixpoint zip (f : knot -> knot -> knot) (l l' : list knot) : list knot := match l, l' with a :: r, b :: s => f a b :: zip f r s | _, _ => [] end.
Lemma interp_sub ks : forall js x, ascending ks -> map kx ks = map kx js -> interp (zip ksub ks js) x = interp ks x - interp js x.
Proof.
  unfold interp. induction ks as [|a r IH]; intros js x A E; [destruct js; [cbn; ring|discriminate]|]. destruct js as [|a' r']; [discriminate|]. injection E as E1 E2.
  destruct r as [|b r]; [destruct r'; [cbn; ring|discriminate]|]. destruct r' as [|b' r']; [discriminate|].
  pose proof (asc_head _ _ _ A) as Hab. specialize (IH (b' :: r') x (asc_tail _ _ A) E2). injection E2 as E3 E4. destruct r as [|c r]; (destruct r' as [|c' r']; try discriminate).
  - cbn [zip pp]. rewrite <- E1. apply coeffs_sub; assumption.
  - cbn [zip] in IH |- *.
    change (pp (fun c0 => c0) (ksub a a' :: ksub b b' :: ksub c c' :: zip ksub r r') x) with (if Rlt_dec x (kx b) then cub (coeffs (ksub a a') (ksub b b')) (x - kx a) else pp (fun c0 => c0) (ksub b b' :: ksub c c' :: zip ksub r r') x).
    change (pp (fun c0 => c0) (a :: b :: c :: r) x) with (if Rlt_dec x (kx b) then cub (coeffs a b) (x - kx a) else pp (fun c0 => c0) (b :: c :: r) x).
    change (pp (fun c0 => c0) (a' :: b' :: c' :: r') x) with (if Rlt_dec x (kx b') then cub (coeffs a' b') (x - kx a') else pp (fun c0 => c0) (b' :: c' :: r') x).
    rewrite <- E3, <- E1. destruct (Rlt_dec x (kx b)); [apply coeffs_sub; assumption|exact IH].
Qed.
Lemma interp_rest a b c r x : kx b <= x -> interp (a :: b :: c :: r) x = interp (b :: c :: r) x.
Proof.
  intros H. unfold interp. change (pp (fun c0 => c0) (a :: b :: c :: r) x) with (if Rlt_dec x (kx b) then cub (coeffs a b) (x - kx a) else pp (fun c0 => c0) (b :: c :: r) x).
  destruct (Rlt_dec x (kx b)); [lra|reflexivity].
Qed.
(* rational checks *)
Definition negq (k : Q * Q * Q) : Q * Q * Q := (qx k, - qy k, - qm k)%Q.
Definition subq (a b : Q * Q * Q) : Q * Q * Q := (qx a, qy a - qy b, qm a - qm b)%Q.
Fixpoint zipq (l l' : list (Q * Q * Q)) : list (Q * Q * Q) := match l, l' with a :: r, b :: s => subq a b :: zipq r s | _, _ => [] end.
Lemma neg_R l : to_knots (map negq l) = map kneg (to_knots l).
Proof. unfold to_knots. rewrite !map_map. apply map_ext. intros k. unfold negq, kneg, kx, ky, km, qx, qy, qm. cbn [fst snd]. rewrite !Q2R_opp. reflexivity. Qed.
Lemma sub_R l : forall l', to_knots (zipq l l') = zip ksub (to_knots l) (to_knots l').
Proof. induction l as [|a r IH]; intros [|b s]; try reflexivity. cbn [zipq to_knots map zip]. f_equal; [|apply IH]. unfold subq, ksub, kx, ky, km, qx, qy, qm. cbn [fst snd]. rewrite !Q2R_minus. reflexivity. Qed.
Lemma Q2R_z (z : Z) : Q2R (z # 1) = IZR z. Proof. unfold Q2R. cbn. field. Qed.
Definition top (tl : nat) : Q := match tl with 2%nat => 5 | _ => 30 end%Q.
Lemma rises_check tl : forallb (falls_in_q 0 (top tl)) (pairs (map negq (small_q tl))) = true.
Proof. destruct tl as [|[|[|tl]]]; vm_compute; reflexivity. Qed.
Lemma small_ends tl : exists f r, hd_error (small_q tl) = Some f /\ hd_error (rev (small_q tl)) = Some r /\ qx f = 0%Q /\ qx r = 200%Q.
Proof. destruct tl as [|[|[|tl]]]; (eexists; eexists; split; [vm_compute; reflexivity|split; [vm_compute; reflexivity|split; reflexivity]]). Qed.
(* the curves rise with core size up to 30 lbm/s at the technology levels 0 and 1, and up to 5 lbm/s at level 2 *)
Theorem C72_small_increasing_partial tl x y : 0 <= x -> x < y -> y <= match tl with 2%nat => 5 | _ => 30 end -> small_curve tl x < small_curve tl y.
Proof.
  intros H1 H2 H3. unfold small_curve. pose proof (small_asc tl) as A.
  assert (N : interp (to_knots (map negq (small_q tl))) y < interp (to_knots (map negq (small_q tl))) x).
  { assert (A' : ascending (to_knots (map negq (small_q tl)))) by (apply asc_check; destruct tl as [|[|[|tl]]]; vm_compute; reflexivity).
    destruct (small_ends tl) as (f & r & F & L & F0 & L0).
    assert (F' : hd_error (map negq (small_q tl)) = Some (negq f)) by (destruct (small_q tl); [discriminate|injection F as ->; reflexivity]).
    assert (L' : hd_error (rev (map negq (small_q tl))) = Some (negq r)) by (rewrite <- map_rev; destruct (rev (small_q tl)); [discriminate|injection L as ->; reflexivity]).
    destruct (ends _ _ _ F' L') as [E1 E2].
    apply (interp_falls _ A' ltac:(unfold to_knots; rewrite !map_length; pose proof (small_len tl) as Z; unfold to_knots in Z; rewrite map_length in Z; lia) 0 (Q2R (top tl))
      ltac:(intros a b Hab Ha Hb; apply knots_pairs in Hab as [p [Hp [-> ->]]]; pose proof (proj1 (forallb_forall _ _) (rises_check tl) p Hp) as C; unfold falls_in_q in C;
        rewrite !orb_true_iff in C; destruct C as [[C|C]|C]; [apply qle_R in C; unfold kR, kx in Ha; cbn [fst] in Ha; lra|apply qle_R in C; rewrite Q2R_0 in C; unfold kR, kx in Hb; cbn [fst] in Hb; lra|apply falls_R; exact C])
      (kR (negq f)) (kR (negq r)) E1 E2); try assumption.
    - assert (T : Q2R (top tl) = match tl with 2%nat => 5 | _ => 30 end) by (destruct tl as [|[|[|tl]]]; cbn [top]; apply Q2R_z). rewrite T. exact H3.
    - unfold kR, kx, negq, qx in *. cbn [fst]. rewrite F0. rewrite Q2R_0. exact H1.
    - unfold kR, kx, negq, qx in *. cbn [fst]. rewrite L0. rewrite Q2R_z. destruct tl as [|[|[|tl]]]; lra. }
  rewrite neg_R in N. rewrite !interp_neg in N by exact A. lra.
Qed.
(* a better technology level is better at every core size of the table beyond its first interval *)
Lemma level_check tl : (tl <= 1)%nat -> forallb above_q (pairs (skipn 1 (zipq (small_q (S tl)) (small_q tl)))) = true.
Proof. intros H. destruct tl as [|[|tl]]; [vm_compute; reflexivity|vm_compute; reflexivity|lia]. Qed.
Lemma small_x tl : map kx (to_knots (small_q tl)) = map Q2R core_sizes.
Proof.
  assert (E : map qx (small_q tl) = core_sizes) by (destruct tl as [|[|[|tl]]]; vm_compute; reflexivity).
  rewrite <- E. unfold to_knots. rewrite !map_map. reflexivity.
Qed.
Theorem C72_small_levels tl x : (tl <= 1)%nat -> 205 / 1000 <= x <= 200 -> small_curve tl x < small_curve (S tl) x.
Proof.
  intros Ht Hx. unfold small_curve.
  assert (D := interp_sub (to_knots (small_q (S tl))) (to_knots (small_q tl)) x (small_asc _) ltac:(rewrite !small_x; reflexivity)). rewrite <- sub_R in D.
  set (l := zipq (small_q (S tl)) (small_q tl)) in *.
  assert (P : exists a b c r, l = a :: b :: c :: r /\ qx b = (205 # 1000)%Q) by (subst l; destruct tl as [|[|tl]]; [| |lia]; (do 4 eexists; split; [vm_compute; reflexivity|reflexivity])).
  destruct P as (a & b & c & r & El & Eb). assert (Cl := level_check tl Ht). fold l in Cl. rewrite El in *. cbn [skipn] in Cl.
  change (to_knots (a :: b :: c :: r)) with (kR a :: kR b :: kR c :: to_knots r) in D.
  assert (K : Q2R (205 # 1000) = 205 / 1000) by (unfold Q2R; cbn; lra).
  rewrite interp_rest in D by (unfold kR, kx; cbn [fst]; rewrite Eb, K; lra).
  assert (Z : 0 < interp (to_knots (b :: c :: r)) x).
  { assert (El2 : hd_error (rev (b :: c :: r)) = hd_error (rev l)).
    { rewrite El. cbn [rev]. destruct ((rev r ++ [c]) ++ [b]) as [|z zs] eqn:Ez; [apply app_eq_nil in Ez as [_ Ez]; discriminate|]. reflexivity. }
    assert (L : exists z, hd_error (rev l) = Some z /\ qx z = 200%Q) by (rewrite El in *; clear - El Ht; destruct tl as [|[|tl]]; [| |lia]; rewrite <- El; subst l; eexists; (split; [vm_compute; reflexivity|reflexivity])).
    destruct L as (z & Lz & Qz). rewrite <- El2 in Lz. destruct (ends (b :: c :: r) b z eq_refl Lz) as [E1 E2].
    apply (interp_above 0 (to_knots (b :: c :: r))) with (first := kR b) (last := kR z); try assumption.
    - intros p q Hpq. apply knots_pairs in Hpq as [s [Hs [-> ->]]]. apply (proj1 (forallb_forall _ _) Cl) in Hs. apply above_R in Hs. exact (proj1 Hs).
    - cbn. lia.
    - intros p q Hpq. apply knots_pairs in Hpq as [s [Hs [-> ->]]]. apply above_R. apply (proj1 (forallb_forall _ _) Cl). exact Hs.
    - unfold kR, kx. cbn [fst]. rewrite Eb, K, Qz, Q2R_z. exact Hx. }
  change (to_knots (b :: c :: r)) with (kR b :: kR c :: to_knots r) in Z. lra.
Qed.
Theorem C72_large_levels tl x : (tl <= 1)%nat -> large_curve (S tl) x = large_curve tl x + 2 / 100.
Proof. intros H. unfold large_curve. destruct tl as [|[|tl]]; [lra|lra|lia]. Qed.
(* but beyond 30 lbm/s, and at level 2 already between 5 and 30, the interpolant overshoots the table: a bigger core is less efficient *)
Lemma piece_val tl n a b r x : skipn n (small_q tl) = a :: b :: r -> Q2R (qx a) <= x < Q2R (qx b) -> small_curve tl x = cub (coeffs (kR a) (kR b)) (x - Q2R (qx a)).
Proof.
  intros E H. unfold small_curve, interp. rewrite (pp_piece_last (fun c => c) (to_knots (small_q tl)) (small_asc tl) (map kR (firstn n (small_q tl))) (kR a) (kR b) (map kR r)); [reflexivity| |exact H].
  change (to_knots (small_q tl)) with (map kR (small_q tl)). rewrite <- (firstn_skipn n (small_q tl)) at 1. rewrite E, map_app. reflexivity.
Qed.
Theorem C72_small_refuted : (forall tl, small_curve tl (Q2R 200) < small_curve tl 115) /\ small_curve 2 (Q2R 30) < small_curve 2 (95 / 4).
Proof.
  split.
  - intros tl. assert (K : exists y, nth_error (small_effs tl) 11 = Some y /\ exists a b, skipn 10 (small_q tl) = [a; b] /\ Q2R (qx a) <= 115 < Q2R (qx b) /\ Q2R y < cub (coeffs (kR a) (kR b)) (115 - Q2R (qx a))).
    { destruct tl as [|[|[|tl]]]; (eexists; split; [reflexivity|]; eexists; eexists; split; [vm_compute; reflexivity|]; unfold cub, coeffs, kR, kx, ky, km, qx, qy, qm, Q2R; cbn; lra). }
    destruct K as (y & Y & a & b & S & H & C). rewrite (C72_small_table tl 11 200%Q y eq_refl Y), (piece_val tl 10 a b [] 115 S H). exact C.
  - assert (K : exists a b r, skipn 9 (small_q 2) = a :: b :: r /\ Q2R (qx a) <= 95 / 4 < Q2R (qx b) /\ Q2R (931 # 1000) < cub (coeffs (kR a) (kR b)) (95 / 4 - Q2R (qx a))).
    { eexists; eexists; eexists; split; [vm_compute; reflexivity|]; unfold cub, coeffs, kR, kx, ky, km, qx, qy, qm, Q2R; cbn; lra. }
    destruct K as (a & b & r & S & H & C). rewrite (C72_small_table 2 10 30%Q (931 # 1000)%Q eq_refl eq_refl), (piece_val 2 9 a b r _ S H). exact C.
Qed.
