(* Enthalpy of an equilibrium across a temperature where the species' fits change and do not quite meet. *)
From Coq Require Import Lia.
From Verif Require Import Lib_R Lib_Loop Model_Equil Proofs_Equil Proofs_Props Proofs_Thermo Prop_Equil Model_Cea Proofs_Cea Proofs_Stable.
Open Scope string_scope. Open Scope list_scope. Open Scope R_scope.

Definition nmol (g : gas) (m : nat -> R) : R := nsum (np g) m.
(* the species data belong together and every heat capacity exceeds 2 R *)
Definition above2 (g : gas) (a b : R) : Prop := forall T, a <= T <= b -> consistent_at g T /\ forall j, (j < np g)%nat -> 2 < Cp0 g j T.
Lemma above2_regular g a b : above2 g a b -> regular_on g a b.
Proof. intros H T HT. destruct (H T HT) as [A B]. split; [exact A|]. intros j Hj. specialize (B j Hj). lra. Qed.
Section Seg.
Variable g : gas.
Hypothesis Hg : gas_ok g.
Variables (a b : R) (m : nat -> R).
Hypothesis Hab : 0 < a < b.
Hypothesis Hr : above2 g a b.
Hypothesis Hm : forall j, (j < np g)%nat -> 0 < m j.
Lemma nmol_pos : 0 < nmol g m. Proof. apply nsum_pos; [apply Hg|exact Hm]. Qed.
Lemma enth_grows x y : a <= x -> x < y -> y <= b -> enth g m x + 2 * nmol g m * (y - x) <= enth g m y.
Proof.
  intros Hx Hxy Hy. destruct (mvt (enth g m) (cpm g m) x y Hxy) as (z & Hz & E); [intros z Hz; apply d_enth, Hr; lra|].
  assert (2 * nmol g m <= cpm g m z).
  { unfold nmol, cpm. rewrite <- nsum_scal. apply nsum_le. intros j Hj. destruct (Hr z ltac:(lra)) as [_ C]. specialize (C j Hj). specialize (Hm j Hj). rewrite Rmult_comm. apply Rmult_le_compat_l; lra. }
  assert (2 * nmol g m * (y - x) <= cpm g m z * (y - x)) by (apply Rmult_le_compat_r; lra). lra.
Qed.
Lemma sub_regular x y : a <= x -> y <= b -> regular_on g x y.
Proof. intros Hx Hy T HT. apply (above2_regular g a b Hr). lra. Qed.
Let c := (a + b) / 2.
Lemma inv_lt x y : 0 < x -> x < y -> / y < / x.
Proof. intros. apply Rinv_lt_contravar; [apply Rmult_lt_0_compat; lra|lra]. Qed.
Lemma phi_below : enth g m a * (/ a - / b) + nmol g m * (b - a) * (/ c - / b) < phi g m a - phi g m b.
Proof.
  assert (Hc : a < c < b) by (unfold c; lra).
  pose proof (phi_low g Hg a c ltac:(lra) (sub_regular a c ltac:(lra) ltac:(lra)) m Hm) as L1. pose proof (phi_low g Hg c b ltac:(lra) (sub_regular c b ltac:(lra) ltac:(lra)) m Hm) as L2.
  pose proof (enth_grows a c ltac:(lra) ltac:(lra) ltac:(lra)) as G. pose proof (inv_lt c b ltac:(lra) ltac:(lra)) as I1.
  assert ((enth g m a + nmol g m * (b - a)) * (/ c - / b) <= enth g m c * (/ c - / b)); [|lra].
  apply Rmult_le_compat_r; [lra|]. replace (nmol g m * (b - a)) with (2 * nmol g m * (c - a)) by (unfold c; field). exact G.
Qed.
Lemma phi_above : phi g m a - phi g m b < enth g m b * (/ a - / b) - nmol g m * (b - a) * (/ a - / c).
Proof.
  assert (Hc : a < c < b) by (unfold c; lra).
  pose proof (phi_up g Hg a c ltac:(lra) (sub_regular a c ltac:(lra) ltac:(lra)) m Hm) as L1. pose proof (phi_up g Hg c b ltac:(lra) (sub_regular c b ltac:(lra) ltac:(lra)) m Hm) as L2.
  pose proof (enth_grows c b ltac:(lra) ltac:(lra) ltac:(lra)) as G. pose proof (inv_lt a c ltac:(lra) ltac:(lra)) as I1.
  assert (enth g m c * (/ a - / c) <= (enth g m b - nmol g m * (b - a)) * (/ a - / c)); [|lra].
  apply Rmult_le_compat_r; [lra|]. replace (nmol g m * (b - a)) with (2 * nmol g m * (b - c)) by (unfold c; field). lra.
Qed.
End Seg.
Lemma phi_below_le g a b m : gas_ok g -> 0 < a <= b -> above2 g a b -> (forall j, (j < np g)%nat -> 0 < m j) ->
  enth g m a * (/ a - / b) + nmol g m * (b - a) * (2 / (a + b) - / b) <= phi g m a - phi g m b.
Proof.
  intros Hg Hab Hr Hm. destruct (Req_dec a b) as [<-|Nz]; [replace (a - a) with 0 by ring; lra|].
  pose proof (phi_below g Hg a b m ltac:(lra) Hr Hm) as K. replace (/ ((a + b) / 2)) with (2 / (a + b)) in K by (field; lra). lra.
Qed.
Lemma phi_above_le g a b m : gas_ok g -> 0 < a <= b -> above2 g a b -> (forall j, (j < np g)%nat -> 0 < m j) ->
  phi g m a - phi g m b <= enth g m b * (/ a - / b) - nmol g m * (b - a) * (/ a - 2 / (a + b)).
Proof.
  intros Hg Hab Hr Hm. destruct (Req_dec a b) as [<-|Nz]; [replace (a - a) with 0 by ring; lra|].
  pose proof (phi_above g Hg a b m ltac:(lra) Hr Hm) as K. replace (/ ((a + b) / 2)) with (2 / (a + b)) in K by (field; lra). lra.
Qed.
Lemma enth_grows_le g a b m : above2 g a b -> (forall j, (j < np g)%nat -> 0 < m j) -> a <= b -> enth g m a + 2 * nmol g m * (b - a) <= enth g m b.
Proof.
  intros Hr Hm Hab. destruct (Req_dec a b) as [<-|Nz]; [lra|]. apply (enth_grows g a b m Hr Hm a b); lra.
Qed.
Lemma inv_le x y : 0 < x -> x <= y -> / y <= / x. Proof. intros. apply Rinv_le_contravar; lra. Qed.
(* ---------- two gases whose data nearly meet at 1000 K ---------- *)
Lemma nsum_abs n f c m : (forall j, (j < n)%nat -> 0 < m j) -> (forall j, (j < n)%nat -> Rabs (f j) <= c) -> Rabs (nsum n (fun j => m j * f j)) <= c * nsum n m.
Proof.
  intros Hm Hf. apply Rabs_le. split.
  - replace (- (c * nsum n m)) with (nsum n (fun j => - c * m j)) by (rewrite nsum_scal; ring). apply nsum_le. intros j Hj. specialize (Hf j Hj). apply Rabs_le_between in Hf. specialize (Hm j Hj). rewrite Rmult_comm. apply Rmult_le_compat_l; lra.
  - rewrite <- nsum_scal. apply nsum_le. intros j Hj. specialize (Hf j Hj). apply Rabs_le_between in Hf. specialize (Hm j Hj). rewrite Rmult_comm. apply Rmult_le_compat_r; lra.
Qed.
(* the size of the jumps of H0 and of H0 - S0 at the junction *)
Definition jump : R := / 20000000.
Definition nearly_meet (gL gR : gas) : Prop :=
  np gR = np gL /\ forall j, (j < np gL)%nat -> Rabs (H0 gR j 1000 - H0 gL j 1000) <= jump /\ Rabs ((H0 gR j 1000 - S0 gR j 1000) - (H0 gL j 1000 - S0 gL j 1000)) <= jump.
Section Cross.
Variables gL gR : gas.
Hypothesis HgL : gas_ok gL.
Hypothesis HgR : gas_ok gR.
Hypothesis Hj : nearly_meet gL gR.
Variables T1 T2 : R.
Hypothesis HT : 0 < T1 <= 1000 /\ 1000 <= T2.
Hypothesis HL : above2 gL T1 1000.
Hypothesis HR : above2 gR 1000 T2.
Hypothesis Hd : 1 <= T2 - T1.
Section M.
Variable m : nat -> R.
Hypothesis Hm : forall j, (j < np gL)%nat -> 0 < m j.
Let N := nmol gL m.
Lemma nm_R : nmol gR m = N. Proof. unfold N, nmol. rewrite (proj1 Hj). reflexivity. Qed.
Lemma HmR : forall j, (j < np gR)%nat -> 0 < m j. Proof. rewrite (proj1 Hj). exact Hm. Qed.
Lemma enth_jump : Rabs (enth gR m 1000 - enth gL m 1000) <= 1000 * jump * N.
Proof.
  unfold enth. rewrite (proj1 Hj), <- nsum_minus. rewrite (nsum_ext (np gL) _ (fun j => m j * (1000 * (H0 gR j 1000 - H0 gL j 1000)))) by (intros; ring).
  apply nsum_abs; [exact Hm|]. intros j K. rewrite Rabs_mult, (Rabs_pos_eq 1000) by lra. apply Rmult_le_compat_l; [lra|]. apply (proj2 Hj j K).
Qed.
Lemma phi_jump : Rabs (phi gL m 1000 - phi gR m 1000) <= jump * N.
Proof.
  unfold phi. rewrite (proj1 Hj), <- nsum_minus. rewrite (nsum_ext (np gL) _ (fun j => m j * ((H0 gL j 1000 - S0 gL j 1000) - (H0 gR j 1000 - S0 gR j 1000)))) by (intros; ring).
  apply nsum_abs; [exact Hm|]. intros j K. rewrite Rabs_minus_sym. apply (proj2 Hj j K).
Qed.
Let a := 1000 - T1. Let b := T2 - 1000.
Lemma N0 : 0 < N. Proof. exact (nmol_pos gL HgL m Hm). Qed.
(* a lower bound of the bracket, whichever side of the junction is the longer one *)
Lemma bracket_low : 0 < a * (2 / (T1 + 1000) - / 1000) + (2 * a - 1000 * jump) * (/ 1000 - / T2) + b * (2 / (1000 + T2) - / T2) - jump.
Proof.
  unfold jump. replace (a * (2 / (T1 + 1000) - / 1000)) with (a ^ 2 * / (1000 * (T1 + 1000))) by (unfold a; field; lra).
  replace (b * (2 / (1000 + T2) - / T2)) with (b ^ 2 * / (T2 * (1000 + T2))) by (unfold b; field; lra).
  replace (/ 1000 - / T2) with (b * / (1000 * T2)) by (unfold b; field; lra).
  assert (A1 : 0 <= a ^ 2 * / (1000 * (T1 + 1000))) by (apply Rmult_le_pos; [apply pow2_ge_0|left; apply Rinv_0_lt_compat; lra]).
  assert (B0 : 0 < T2 * (1000 + T2)) by (apply Rmult_lt_0_compat; lra). assert (B1 : 0 <= b ^ 2 * / (T2 * (1000 + T2))) by (apply Rmult_le_pos; [apply pow2_ge_0|left; apply Rinv_0_lt_compat; lra]).
  assert (B2 : 0 < / (1000 * T2)) by (apply Rinv_0_lt_compat; lra). assert (bp : 0 <= b) by (unfold b; lra). assert (ap : 0 <= a) by (unfold a; lra).
  destruct (Rle_lt_dec (/ 2) a) as [L|L].
  - assert (0 <= (2 * a - 1000 * / 20000000) * (b * / (1000 * T2))) by (apply Rmult_le_pos; [lra|apply Rmult_le_pos; lra]).
    assert (/ 20000000 < a ^ 2 * / (1000 * (T1 + 1000))); [|lra]. apply (Rmult_lt_reg_r (1000 * (T1 + 1000))); [lra|]. rewrite (Rmult_assoc (_ ^ 2)), Rinv_l by lra. nra.
  - assert (L' : / 2 <= b) by (unfold a, b in *; lra).
    assert (/ 20000000 + 1000 * / 20000000 * (b * / (1000 * T2)) < b ^ 2 * / (T2 * (1000 + T2))).
    + apply (Rmult_lt_reg_r (T2 * (1000 + T2))); [lra|]. rewrite (Rmult_assoc (_ ^ 2)), Rinv_l, Rmult_1_r by lra.
      replace ((/ 20000000 + 1000 * / 20000000 * (b * / (1000 * T2))) * (T2 * (1000 + T2))) with (/ 20000000 * (T2 + b) * (1000 + T2)) by (field; lra). replace T2 with (1000 + b) by (unfold b; ring). nra.
    + assert (0 <= 2 * a * (b * / (1000 * T2))) by (apply Rmult_le_pos; [lra|apply Rmult_le_pos; lra]). lra.
Qed.
Lemma bracket_up : 0 < a * (/ T1 - 2 / (T1 + 1000)) + (2 * b - 1000 * jump) * (/ T1 - / 1000) + b * (/ 1000 - 2 / (1000 + T2)) - jump.
Proof.
  unfold jump. replace (a * (/ T1 - 2 / (T1 + 1000))) with (a ^ 2 * / (T1 * (T1 + 1000))) by (unfold a; field; lra).
  replace (b * (/ 1000 - 2 / (1000 + T2))) with (b ^ 2 * / (1000 * (1000 + T2))) by (unfold b; field; lra).
  replace (/ T1 - / 1000) with (a * / (T1 * 1000)) by (unfold a; field; lra).
  assert (A0 : 0 < T1 * (T1 + 1000)) by (apply Rmult_lt_0_compat; lra). assert (A1 : 0 <= a ^ 2 * / (T1 * (T1 + 1000))) by (apply Rmult_le_pos; [apply pow2_ge_0|left; apply Rinv_0_lt_compat; lra]).
  assert (B1 : 0 <= b ^ 2 * / (1000 * (1000 + T2))) by (apply Rmult_le_pos; [apply pow2_ge_0|left; apply Rinv_0_lt_compat; lra]).
  assert (B2 : 0 < / (T1 * 1000)) by (apply Rinv_0_lt_compat; lra). assert (bp : 0 <= b) by (unfold b; lra). assert (ap : 0 <= a) by (unfold a; lra).
  destruct (Rle_lt_dec (/ 2) b) as [L|L].
  - assert (0 <= (2 * b - 1000 * / 20000000) * (a * / (T1 * 1000))) by (apply Rmult_le_pos; [lra|apply Rmult_le_pos; lra]).
    assert (/ 20000000 < b ^ 2 * / (1000 * (1000 + T2))); [|lra]. apply (Rmult_lt_reg_r (1000 * (1000 + T2))); [lra|]. rewrite (Rmult_assoc (_ ^ 2)), Rinv_l by lra. replace T2 with (1000 + b) by (unfold b; ring). nra.
  - assert (L' : / 2 <= a) by (unfold a, b in *; lra).
    assert (/ 20000000 + 1000 * / 20000000 * (a * / (T1 * 1000)) < a ^ 2 * / (T1 * (T1 + 1000))).
    + apply (Rmult_lt_reg_r (T1 * (T1 + 1000))); [lra|]. rewrite (Rmult_assoc (_ ^ 2)), Rinv_l, Rmult_1_r by lra.
      replace ((/ 20000000 + 1000 * / 20000000 * (a * / (T1 * 1000))) * (T1 * (T1 + 1000))) with (/ 20000000 * (T1 + a) * (T1 + 1000)) by (field; lra). replace (T1 + a) with 1000 by (unfold a; ring). nra.
    + assert (0 <= 2 * b * (a * / (T1 * 1000))) by (apply Rmult_le_pos; [lra|apply Rmult_le_pos; lra]). lra.
Qed.
Lemma cross_below : enth gL m T1 * (/ T1 - / T2) < phi gL m T1 - phi gR m T2.
Proof.
  pose proof (phi_below_le gL T1 1000 m HgL ltac:(lra) HL Hm) as P1. pose proof (phi_below_le gR 1000 T2 m HgR ltac:(lra) HR HmR) as P2. rewrite nm_R in P2. fold N in P1.
  pose proof phi_jump as PJ. pose proof enth_jump as EJ. apply Rabs_le_between in PJ, EJ. pose proof N0 as n0. pose proof bracket_low as B. fold a in P1. fold b in P2.
  pose proof (enth_grows_le gL T1 1000 m HL Hm ltac:(lra)) as G. fold N a in G.
  pose proof (inv_le 1000 T2 ltac:(lra) ltac:(lra)) as I1.
  assert (Q : (enth gL m T1 + N * (2 * a - 1000 * jump)) * (/ 1000 - / T2) <= enth gR m 1000 * (/ 1000 - / T2)) by (apply Rmult_le_compat_r; lra).
  apply (Rmult_lt_compat_l N) in B; [|lra]. rewrite Rmult_0_r in B. 
  clear -P1 P2 PJ Q B. lra.
Qed.
Lemma cross_above : phi gL m T1 - phi gR m T2 < enth gR m T2 * (/ T1 - / T2).
Proof.
  pose proof (phi_above_le gL T1 1000 m HgL ltac:(lra) HL Hm) as P1. pose proof (phi_above_le gR 1000 T2 m HgR ltac:(lra) HR HmR) as P2. rewrite nm_R in P2. fold N in P1.
  pose proof phi_jump as PJ. pose proof enth_jump as EJ. apply Rabs_le_between in PJ, EJ. pose proof N0 as n0. pose proof bracket_up as B. fold a in P1. fold b in P2.
  pose proof (enth_grows_le gR 1000 T2 m HR HmR ltac:(lra)) as G. rewrite nm_R in G. fold b in G.
  pose proof (inv_le T1 1000 ltac:(lra) ltac:(lra)) as I1.
  assert (Q : enth gL m 1000 * (/ T1 - / 1000) <= (enth gR m T2 - N * (2 * b - 1000 * jump)) * (/ T1 - / 1000)) by (apply Rmult_le_compat_r; lra).
  apply (Rmult_lt_compat_l N) in B; [|lra]. rewrite Rmult_0_r in B. 
  clear -P1 P2 PJ Q B. lra.
Qed.
End M.
Lemma cross m1 m2 : (forall j, (j < np gL)%nat -> 0 < m1 j) -> (forall j, (j < np gL)%nat -> 0 < m2 j) -> phi gL m1 T1 - phi gR m1 T2 <= phi gL m2 T1 - phi gR m2 T2 -> enth gL m1 T1 < enth gR m2 T2.
Proof.
  intros H1 H2 H. pose proof (cross_below m1 H1). pose proof (cross_above m2 H2). pose proof (inv_lt T1 T2 ltac:(lra) ltac:(lra)). apply (Rmult_lt_reg_r (/ T1 - / T2)); lra.
Qed.
End Cross.
(* a gas that is gL below 1000 K and gR above *)
Definition same_at (g g' : gas) (T : R) : Prop := np g' = np g /\ forall j, (j < np g)%nat -> H0 g' j T = H0 g j T /\ S0 g' j T = S0 g j T.
Lemma enth_same g g' m T : same_at g g' T -> enth g' m T = enth g m T.
Proof. intros [E H]. unfold enth. rewrite E. apply nsum_ext. intros j Hj. rewrite (proj1 (H j Hj)). reflexivity. Qed.
Lemma phi_same g g' m T : same_at g g' T -> phi g' m T = phi g m T.
Proof. intros [E H]. unfold phi. rewrite E. apply nsum_ext. intros j Hj. destruct (H j Hj) as [-> ->]. reflexivity. Qed.
Lemma h_across g gL gR T1 T2 P c e1 e2 : gas_ok g -> gas_ok gL -> gas_ok gR -> nearly_meet gL gR -> 0 < T1 <= 1000 -> 1000 <= T2 -> 1 <= T2 - T1 -> above2 gL T1 1000 -> above2 gR 1000 T2 ->
  same_at g gL T1 -> same_at g gR T2 -> equilibrium g T1 P c e1 -> equilibrium g T2 P c e2 -> prop_of g e1 "h" < prop_of g e2 "h".
Proof.
  intros G GL GR NM H1 H2 Hd AL AR SL SR E1 E2. pose proof (fun j => n_pos g T1 P c e1 E1 j) as P1. pose proof (fun j => n_pos g T2 P c e2 E2 j) as P2.
  pose proof (gibbs_two g G T1 P c e1 _ E1 P2 (elems_c g _ _ _ _ E2)) as G1. pose proof (gibbs_two g G T2 P c e2 _ E2 P1 (elems_c g _ _ _ _ E1)) as G2.
  rewrite !gibbs_split in G1, G2. rewrite !h_val. assert (Q1 : e1 (V "T") = T1) by apply E1. assert (Q2 : e2 (V "T") = T2) by apply E2. rewrite Q1, Q2.
  set (n1 := fun j => e1 (I "n" j)) in *. set (n2 := fun j => e2 (I "n" j)) in *.
  apply Rmult_lt_compat_l; [exact reng_pos|]. rewrite <- (enth_same g gL n1 T1 SL), <- (enth_same g gR n2 T2 SR). rewrite <- !(phi_same g gL _ T1 SL) in G1. rewrite <- !(phi_same g gR _ T2 SR) in G2.
  apply (cross gL gR GL GR NM T1 T2 ltac:(lra) AL AR Hd); [rewrite (proj1 SL); exact P1|rewrite (proj1 SL); exact P2|lra].
Qed.
(* ---------- entropy ---------- *)
Section SegS.
Variable g : gas.
Hypothesis Hg : gas_ok g.
Variables (a b : R) (m : nat -> R).
Hypothesis Hab : 0 < a < b.
Hypothesis Hr : above2 g a b.
Hypothesis Hm : forall j, (j < np g)%nat -> 0 < m j.
(* T times the Gibbs energy over R T, with any constant entropy of mixing *)
Definition tgib (K T : R) : R := enth g m T - T * (entr g m T - K).
Lemma tgib_phi K T : tgib K T = T * (phi g m T + K).
Proof. unfold tgib, phi, enth, entr. rewrite !Rmult_plus_distr_l, Rmult_minus_distr_l, <- !nsum_scal. rewrite (nsum_ext (np g) (fun i => T * (m i * (H0 g i T - S0 g i T))) (fun i => m i * (T * H0 g i T) - T * (m i * S0 g i T))) by (intros; ring). rewrite nsum_minus. ring. Qed.
Lemma entr_grows x y : a <= x -> x < y -> y <= b -> entr g m x + 2 * nmol g m * ((y - x) * / y) <= entr g m y.
Proof.
  intros Hx Hxy Hy. destruct (mvt (entr g m) (fun t => cpm g m t / t) x y Hxy) as (z & Hz & E); [intros z Hz; apply d_entr, Hr; lra|].
  assert (A : 2 * nmol g m <= cpm g m z).
  { unfold nmol, cpm. rewrite <- nsum_scal. apply nsum_le. intros j Hj. destruct (Hr z ltac:(lra)) as [_ C]. specialize (C j Hj). specialize (Hm j Hj). rewrite Rmult_comm. apply Rmult_le_compat_l; lra. }
  pose proof (nmol_pos g Hg m Hm) as N0. assert (/ y <= / z) by (apply Rinv_le_contravar; lra). assert (0 < / y) by (apply Rinv_0_lt_compat; lra).
  assert (2 * nmol g m * / y <= cpm g m z / z) by (unfold Rdiv; apply Rmult_le_compat; lra).
  assert (2 * nmol g m * / y * (y - x) <= cpm g m z / z * (y - x)) by (apply Rmult_le_compat_r; lra). lra.
Qed.
Let c := (a + b) / 2.
Lemma tgib_low K : - (entr g m b - K) * (b - a) + nmol g m * (b - a) ^ 2 * (/ b / 2) < tgib K b - tgib K a.
Proof.
  assert (Hc : a < c < b) by (unfold c; lra).
  pose proof (tg_up g Hg a c ltac:(lra) (sub_regular g a b Hr a c ltac:(lra) ltac:(lra)) m K Hm) as L1. pose proof (tg_up g Hg c b ltac:(lra) (sub_regular g a b Hr c b ltac:(lra) ltac:(lra)) m K Hm) as L2.
  fold (tgib K c) (tgib K a) in L1. fold (tgib K c) (tgib K b) in L2.
  pose proof (entr_grows c b ltac:(lra) ltac:(lra) ltac:(lra)) as G.
  assert (- (entr g m b - 2 * nmol g m * ((b - c) * / b) - K) * (c - a) <= - (entr g m c - K) * (c - a)) by (apply Rmult_le_compat_r; lra).
  replace (b - c) with ((b - a) / 2) in * by (unfold c; lra). replace (c - a) with ((b - a) / 2) in * by (unfold c; lra). lra.
Qed.
Lemma tgib_up K : tgib K b - tgib K a < - (entr g m a - K) * (b - a) - nmol g m * (b - a) ^ 2 * / (a + b).
Proof.
  assert (Hc : a < c < b) by (unfold c; lra).
  pose proof (tg_low g Hg a c ltac:(lra) (sub_regular g a b Hr a c ltac:(lra) ltac:(lra)) m K Hm) as L1. pose proof (tg_low g Hg c b ltac:(lra) (sub_regular g a b Hr c b ltac:(lra) ltac:(lra)) m K Hm) as L2.
  fold (tgib K c) (tgib K a) in L1. fold (tgib K c) (tgib K b) in L2.
  pose proof (entr_grows a c ltac:(lra) ltac:(lra) ltac:(lra)) as G.
  assert (- (entr g m c - K) * (b - c) <= - (entr g m a + 2 * nmol g m * ((c - a) * / c) - K) * (b - c)) by (apply Rmult_le_compat_r; lra).
  replace (/ c) with (2 * / (a + b)) in * by (unfold c; field; lra). replace (b - c) with ((b - a) / 2) in * by (unfold c; lra). replace (c - a) with ((b - a) / 2) in * by (unfold c; lra). lra.
Qed.
End SegS.
Lemma tgib_low_le g a b m K : gas_ok g -> 0 < a <= b -> above2 g a b -> (forall j, (j < np g)%nat -> 0 < m j) ->
  - (entr g m b - K) * (b - a) + nmol g m * (b - a) ^ 2 * (/ b / 2) <= tgib g m K b - tgib g m K a.
Proof.
  intros Hg Hab Hr Hm. destruct (Req_dec a b) as [<-|Nz]; [replace (a - a) with 0 by ring; lra|]. left. apply tgib_low; auto. lra.
Qed.
Lemma tgib_up_le g a b m K : gas_ok g -> 0 < a <= b -> above2 g a b -> (forall j, (j < np g)%nat -> 0 < m j) ->
  tgib g m K b - tgib g m K a <= - (entr g m a - K) * (b - a) - nmol g m * (b - a) ^ 2 * / (a + b).
Proof.
  intros Hg Hab Hr Hm. destruct (Req_dec a b) as [<-|Nz]; [replace (a - a) with 0 by ring; lra|]. left. apply tgib_up; auto. lra.
Qed.
Lemma entr_grows_le g a b m : gas_ok g -> 0 < a <= b -> above2 g a b -> (forall j, (j < np g)%nat -> 0 < m j) -> entr g m a + 2 * nmol g m * ((b - a) * / b) <= entr g m b.
Proof.
  intros Hg Hab Hr Hm. destruct (Req_dec a b) as [<-|Nz]; [lra|]. apply (entr_grows g Hg a b m ltac:(lra) Hr Hm a b); lra.
Qed.
Section CrossS.
Variables gL gR : gas.
Hypothesis HgL : gas_ok gL.
Hypothesis HgR : gas_ok gR.
Hypothesis Hj : nearly_meet gL gR.
Variables T1 T2 : R.
Hypothesis HT : 0 < T1 <= 1000 /\ 1000 <= T2.
Hypothesis HL : above2 gL T1 1000.
Hypothesis HR : above2 gR 1000 T2.
Hypothesis Hd : 1 <= T2 - T1.
Section M.
Variable m : nat -> R.
Hypothesis Hm : forall j, (j < np gL)%nat -> 0 < m j.
Variable K : R.
Let N := nmol gL m.
Let a := 1000 - T1. Let b := T2 - 1000.
Lemma entr_jump : Rabs (entr gR m 1000 - entr gL m 1000) <= 2 * jump * N.
Proof.
  unfold entr. rewrite (proj1 Hj), <- nsum_minus. rewrite (nsum_ext (np gL) _ (fun j => m j * (S0 gR j 1000 - S0 gL j 1000))) by (intros; ring).
  apply nsum_abs; [exact Hm|]. intros j Q. destruct (proj2 Hj j Q) as [A B]. apply Rabs_le_between in A, B. apply Rabs_le. lra.
Qed.
Lemma tgib_jump : Rabs (tgib gR m K 1000 - tgib gL m K 1000) <= 1000 * jump * N.
Proof.
  rewrite !tgib_phi. pose proof (phi_jump gL gR Hj m Hm) as PJ. fold N in PJ. apply Rabs_le_between in PJ. apply Rabs_le. lra.
Qed.
Lemma brS_low : 0 < a ^ 2 * (/ 1000 / 2) + b ^ 2 * (/ T2 / 2) + (2 * (b * / T2) - 2 * jump) * a - 1000 * jump.
Proof.
  unfold jump. assert (bp : 0 <= b) by (unfold b; lra). assert (ap : 0 <= a) by (unfold a; lra). assert (I : 0 < / T2) by (apply Rinv_0_lt_compat; lra).
  destruct (Rle_lt_dec (/ 2) a) as [L|L].
  - assert (0 <= b ^ 2 * (/ T2 / 2)) by (apply Rmult_le_pos; [apply pow2_ge_0|lra]). assert (0 <= b * / T2 * a) by (apply Rmult_le_pos; [apply Rmult_le_pos|]; lra). nra.
  - assert (L' : / 2 <= b) by (unfold a, b in *; lra). 
    assert (/ 4000 <= b * / T2) by (apply (Rmult_le_reg_r T2); [lra|]; rewrite Rmult_assoc, Rinv_l, Rmult_1_r by lra; unfold b in *; lra).
    assert (1000 * / 20000000 < b ^ 2 * (/ T2 / 2)) by (replace (b ^ 2 * (/ T2 / 2)) with (b * (b * / T2) * / 2) by lra; nra).
    assert (0 <= (2 * (b * / T2) - 2 * / 20000000) * a) by (apply Rmult_le_pos; lra). assert (0 <= a ^ 2) by apply pow2_ge_0. lra.
Qed.
Lemma brS_up : 0 < a ^ 2 * / (T1 + 1000) + b ^ 2 * / (1000 + T2) + (2 * (a * / 1000) - 2 * jump) * b - 1000 * jump.
Proof.
  unfold jump. assert (bp : 0 <= b) by (unfold b; lra). assert (ap : 0 <= a) by (unfold a; lra).
  assert (I : / 2000 <= / (T1 + 1000)) by (apply Rinv_le_contravar; lra). assert (I2 : 0 < / (1000 + T2)) by (apply Rinv_0_lt_compat; lra).
  destruct (Rle_lt_dec (/ 2) a) as [L|L].
  - assert (0 <= b ^ 2 * / (1000 + T2)) by (apply Rmult_le_pos; [apply pow2_ge_0|lra]). assert (a ^ 2 * / 2000 <= a ^ 2 * / (T1 + 1000)) by (apply Rmult_le_compat_l; [apply pow2_ge_0|lra]).
    assert (0 <= (2 * (a * / 1000) - 2 * / 20000000) * b) by (apply Rmult_le_pos; lra). nra.
  - assert (L' : / 2 <= b) by (unfold a, b in *; lra). assert (0 <= a ^ 2 * / (T1 + 1000)) by (apply Rmult_le_pos; [apply pow2_ge_0|lra]).
    assert (1000 * / 20000000 + 2 * / 20000000 * b < b ^ 2 * / (1000 + T2)).
    { apply (Rmult_lt_reg_r (1000 + T2)); [lra|]. rewrite (Rmult_assoc (_ ^ 2)), Rinv_l, Rmult_1_r by lra. replace T2 with (1000 + b) by (unfold b; ring). nra. }
    assert (0 <= a * / 1000 * b) by (apply Rmult_le_pos; lra). lra.
Qed.
Lemma crossS_low : - (entr gR m T2 - K) * (T2 - T1) < tgib gR m K T2 - tgib gL m K T1.
Proof.
  pose proof (tgib_low_le gL T1 1000 m K HgL ltac:(lra) HL Hm) as P1. pose proof (tgib_low_le gR 1000 T2 m K HgR ltac:(lra) HR (HmR gL gR Hj m Hm)) as P2. rewrite (nm_R gL gR Hj m) in P2. fold N in P1, P2.
  pose proof tgib_jump as PJ. pose proof entr_jump as EJ. apply Rabs_le_between in PJ, EJ. pose proof (N0 gL HgL m Hm) as n0. fold N in n0. pose proof brS_low as B. fold a in P1. fold b in P2.
  pose proof (entr_grows_le gR 1000 T2 m HgR ltac:(lra) HR (HmR gL gR Hj m Hm)) as G. rewrite (nm_R gL gR Hj m) in G. fold N b in G.
  assert (Q : - (entr gR m T2 - N * (2 * (b * / T2) - 2 * jump) - K) * a <= - (entr gL m 1000 - K) * a) by (apply Rmult_le_compat_r; [unfold a; lra|lra]).
  apply (Rmult_lt_compat_l N) in B; [|lra]. rewrite Rmult_0_r in B. replace (T2 - T1) with (a + b) by (unfold a, b; ring). clear -P1 P2 PJ Q B. lra.
Qed.
Lemma crossS_up : tgib gR m K T2 - tgib gL m K T1 < - (entr gL m T1 - K) * (T2 - T1).
Proof.
  pose proof (tgib_up_le gL T1 1000 m K HgL ltac:(lra) HL Hm) as P1. pose proof (tgib_up_le gR 1000 T2 m K HgR ltac:(lra) HR (HmR gL gR Hj m Hm)) as P2. rewrite (nm_R gL gR Hj m) in P2. fold N in P1, P2.
  pose proof tgib_jump as PJ. pose proof entr_jump as EJ. apply Rabs_le_between in PJ, EJ. pose proof (N0 gL HgL m Hm) as n0. fold N in n0. pose proof brS_up as B. fold a in P1. fold b in P2.
  pose proof (entr_grows_le gL T1 1000 m HgL ltac:(lra) HL Hm) as G. fold N a in G.
  assert (Q : - (entr gR m 1000 - K) * b <= - (entr gL m T1 + N * (2 * (a * / 1000) - 2 * jump) - K) * b) by (apply Rmult_le_compat_r; [unfold b; lra|lra]).
  apply (Rmult_lt_compat_l N) in B; [|lra]. rewrite Rmult_0_r in B. replace (T2 - T1) with (a + b) by (unfold a, b; ring). clear -P1 P2 PJ Q B. lra.
Qed.
End M.
End CrossS.
Lemma entr_same g g' m T : same_at g g' T -> entr g' m T = entr g m T.
Proof. intros [E H]. unfold entr. rewrite E. apply nsum_ext. intros j Hj. rewrite (proj2 (H j Hj)). reflexivity. Qed.
Lemma S_across g gL gR T1 T2 P c e1 e2 : gas_ok g -> gas_ok gL -> gas_ok gR -> nearly_meet gL gR -> 0 < T1 <= 1000 -> 1000 <= T2 -> 1 <= T2 - T1 -> above2 gL T1 1000 -> above2 gR 1000 T2 ->
  same_at g gL T1 -> same_at g gR T2 -> equilibrium g T1 P c e1 -> equilibrium g T2 P c e2 -> prop_of g e1 "S" < prop_of g e2 "S".
Proof.
  intros G GL GR NM H1 H2 Hd AL AR SL SR E1 E2. pose proof (fun j => n_pos g T1 P c e1 E1 j) as P1. pose proof (fun j => n_pos g T2 P c e2 E2 j) as P2.
  pose proof (gibbs_two g G T1 P c e1 _ E1 P2 (elems_c g _ _ _ _ E2)) as G1. pose proof (gibbs_two g G T2 P c e2 _ E2 P1 (elems_c g _ _ _ _ E1)) as G2.
  rewrite !gibbs_split in G1, G2. rewrite (S_val g G T1 P c e1 E1), (S_val g G T2 P c e2 E2).
  set (n1 := fun j => e1 (I "n" j)) in *. set (n2 := fun j => e2 (I "n" j)) in *.
  rewrite <- (entr_same g gL n1 T1 SL), <- (entr_same g gR n2 T2 SR). rewrite <- !(phi_same g gL _ T1 SL) in G1. rewrite <- !(phi_same g gR _ T2 SR) in G2.
  assert (Q1 : forall j, (j < np gL)%nat -> 0 < n1 j) by (rewrite (proj1 SL); exact P1). assert (Q2 : forall j, (j < np gL)%nat -> 0 < n2 j) by (rewrite (proj1 SL); exact P2).
  pose proof (crossS_low gL gR GL GR NM T1 T2 ltac:(lra) AL AR Hd n2 Q2 (kmix g n2 P)) as U. pose proof (crossS_up gL gR GL GR NM T1 T2 ltac:(lra) AL AR Hd n1 Q1 (kmix g n1 P)) as L.
  rewrite !tgib_phi in U, L. apply (Rmult_le_compat_l T1) in G1; [|lra]. apply (Rmult_le_compat_l T2) in G2; [|lra].
  apply Rmult_lt_compat_l; [exact reng_pos|]. apply (Rmult_lt_reg_r (T2 - T1)); lra.
Qed.
