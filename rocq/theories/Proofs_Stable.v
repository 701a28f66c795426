(* Algebra and calculus of converged equilibria: uniqueness of all properties, stability (Cp >= Cv > 0), monotonicity in temperature and pressure. *)
From Coq Require Import Lia.
From Verif Require Import Lib_R Lib_Loop Spec_Wire Model_Thermo Prop_Thermo Model_Equil Proofs_Equil Proofs_Props Proofs_Thermo Prop_Equil Model_Cea Proofs_Cea.
Open Scope string_scope. Open Scope list_scope. Open Scope R_scope.

(* every species is made of the listed elements *)
Definition gas_ok (g : gas) : Prop :=
  (0 < np g)%nat /\ forall j, (j < np g)%nat -> (forall i, (i < ne g)%nat -> 0 <= aij g i j) /\ exists i, (i < ne g)%nat /\ aij g i j <> 0.
Section S.
Variable g : gas.
Hypothesis Hg : gas_ok g.
Section One.
Variables (T P : R) (c : nat -> R) (e : env).
Hypothesis He : equilibrium g T P c e.
Let n j := e (I "n" j).
Let H j := H0 g j (e (V "T")).
Let N := nsum (np g) n.
Let x k := e (I "result_T" k).
Let y k := e (I "result_P" k).
Let X j := nsum (ne g) (fun i => x i * aij g i j).
Let Y j := nsum (ne g) (fun i => y i * aij g i j).
Let xl := x (ne g). Let yl := y (ne g).
Lemma n_pos j : (j < np g)%nat -> 0 < n j. Proof. intros Hj. apply (proj1 (proj2 (proj1 He))). exact Hj. Qed.
Lemma N_pos : 0 < N. Proof. apply nsum_pos; [apply Hg|exact n_pos]. Qed.
Lemma moles : e (V "n_moles") = N. Proof. exact (proj1 (proj2 (C21_equilibrium g false e (proj1 He)))). Qed.
Lemma elems i : (i < ne g)%nat -> e (I "composition" i) = nsum (np g) (fun j => aij g i j * n j).
Proof. intros Hi. symmetry. exact (proj1 (C21_equilibrium g false e (proj1 He)) i Hi). Qed.
Lemma comp_ne : exists i, (i < ne g)%nat /\ e (I "composition" i) <> 0.
Proof.
  destruct Hg as [Np Ha]. destruct (Ha 0%nat Np) as [_ (i & Hi & Z)]. exists i. split; [exact Hi|]. rewrite elems by exact Hi.
  intros Q. assert (K : (fun _ : nat => 0) 0%nat = aij g i 0 * n 0%nat).
  { apply (nsum_le_eq (np g) (fun _ => 0) (fun j => aij g i j * n j)).
    - intros j Hj. apply Rmult_le_pos; [apply Ha; auto|left; apply n_pos; auto].
    - rewrite Q. apply nsum_zero. auto.
    - exact Np. }
  cbv beta in K. pose proof (n_pos 0%nat Np). symmetry in K. apply Rmult_integral in K as [K|K]; [auto|lra].
Qed.
Lemma rows i : (i < ne g)%nat ->
  nsum (ne g) (fun k => nsum (np g) (fun j => aij g i j * aij g k j * n j) * x k) + e (I "composition" i) * xl = nsum (np g) (fun j => aij g i j * (n j * H j)) /\
  nsum (ne g) (fun k => nsum (np g) (fun j => aij g i j * aij g k j * n j) * y k) + e (I "composition" i) * yl = e (I "composition" i).
Proof.
  intros Hi. assert (Hi' : (i <= ne g)%nat) by lia. destruct (proj1 (proj2 He) i Hi') as [S1 S2]. rewrite nsum_S in S1, S2.
  cbn [props_rhs compute] in S1, S2. unfold rhs_compute in S1, S2. cbn [String.eqb Ascii.eqb Bool.eqb] in S1, S2.
  rewrite (ltb_t _ _ Hi) in S1, S2. rewrite Nat.ltb_irrefl, Nat.eqb_refl in S1, S2. cbn [andb] in S1, S2.
  replace (Nat.eqb i (ne g)) with false in S1, S2 by (symmetry; apply Nat.eqb_neq; lia). cbn [andb] in S1, S2.
  split.
  - unfold H, n, x, xl. rewrite <- S1. f_equal. apply nsum_ext. intros k Hk. rewrite (ltb_t _ _ Hk). f_equal.
  - rewrite <- S2 at 2. f_equal. apply nsum_ext. intros k Hk. rewrite (ltb_t _ _ Hk). f_equal.
Qed.
Lemma last_row : nsum (ne g) (fun k => e (I "composition" k) * x k) = nsum (np g) (fun j => n j * H j) /\ nsum (ne g) (fun k => e (I "composition" k) * y k) = N.
Proof.
  destruct (proj1 (proj2 He) (ne g) (Nat.le_refl _)) as [S1 S2]. rewrite nsum_S in S1, S2.
  cbn [props_rhs compute] in S1, S2. unfold rhs_compute in S1, S2. cbn [String.eqb Ascii.eqb Bool.eqb] in S1, S2.
  rewrite !Nat.ltb_irrefl, !Nat.eqb_refl in S1, S2. cbn [andb] in S1, S2.
  split.
  - unfold n, H. rewrite <- S1. rewrite Rmult_0_l, Rplus_0_r. apply nsum_ext. intros k Hk. rewrite (ltb_t _ _ Hk). reflexivity.
  - rewrite <- moles, <- S2. rewrite Rmult_0_l, Rplus_0_r. apply nsum_ext. intros k Hk. rewrite (ltb_t _ _ Hk). reflexivity.
Qed.
(* the same equations per species *)
Lemma per_species z i : nsum (ne g) (fun k => nsum (np g) (fun j => aij g i j * aij g k j * n j) * z k) = nsum (np g) (fun j => n j * aij g i j * nsum (ne g) (fun k => z k * aij g k j)).
Proof.
  rewrite (nsum_ext (ne g) _ (fun k => nsum (np g) (fun j => n j * aij g i j * (z k * aij g k j)))).
  - rewrite nsum_swap. apply nsum_ext. intros j Hj. apply nsum_scal.
  - intros k Hk. rewrite <- nsum_scal_r. apply nsum_ext. intros; ring.
Qed.
Lemma per_last z : nsum (ne g) (fun k => e (I "composition" k) * z k) = nsum (np g) (fun j => n j * nsum (ne g) (fun k => z k * aij g k j)).
Proof.
  rewrite (nsum_ext (ne g) _ (fun k => nsum (np g) (fun j => n j * (z k * aij g k j)))).
  - rewrite nsum_swap. apply nsum_ext. intros j Hj. apply nsum_scal.
  - intros k Hk. rewrite elems, <- nsum_scal_r by exact Hk. apply nsum_ext. intros; ring.
Qed.
(* u and v are orthogonal to every element row *)
Let u j := H j - X j - xl.
Let v j := 1 - yl - Y j.
Lemma orth_u i : (i < ne g)%nat -> nsum (np g) (fun j => n j * aij g i j * u j) = 0.
Proof.
  intros Hi. destruct (rows i Hi) as [A _]. rewrite per_species, elems, <- nsum_scal_r, <- nsum_plus in A by exact Hi.
  unfold u. rewrite (nsum_ext (np g) _ (fun j => aij g i j * (n j * H j) - (n j * aij g i j * X j + aij g i j * n j * xl))) by (intros; ring).
  rewrite nsum_minus. unfold X in *. rewrite <- A. ring.
Qed.
Lemma orth_v i : (i < ne g)%nat -> nsum (np g) (fun j => n j * aij g i j * v j) = 0.
Proof.
  intros Hi. destruct (rows i Hi) as [_ A]. rewrite per_species, elems, <- nsum_scal_r, <- nsum_plus in A by exact Hi.
  unfold v. rewrite (nsum_ext (np g) _ (fun j => aij g i j * n j - (n j * aij g i j * Y j + aij g i j * n j * yl))) by (intros; ring).
  rewrite nsum_minus. unfold Y in *. rewrite A. ring.
Qed.
Lemma orth z w0 : (forall i, (i < ne g)%nat -> nsum (np g) (fun j => n j * aij g i j * w0 j) = 0) -> nsum (np g) (fun j => n j * (nsum (ne g) (fun k => z k * aij g k j)) * w0 j) = 0.
Proof.
  intros Z. rewrite (nsum_ext (np g) _ (fun j => nsum (ne g) (fun k => z k * (n j * aij g k j * w0 j)))).
  - rewrite nsum_swap. apply nsum_zero. intros k Hk. rewrite nsum_scal, Z by exact Hk. ring.
  - intros j Hj. rewrite <- nsum_scal, <- nsum_scal_r. apply nsum_ext. intros; ring.
Qed.
Lemma sum_u : nsum (np g) (fun j => n j * u j) = - N * xl.
Proof.
  destruct last_row as [A _]. rewrite per_last in A. unfold u. rewrite (nsum_ext (np g) _ (fun j => n j * H j - (n j * X j + n j * xl))) by (intros; ring).
  rewrite nsum_minus, nsum_plus, nsum_scal_r. unfold X. rewrite A. fold N. ring.
Qed.
Lemma sum_v : nsum (np g) (fun j => n j * v j) = - N * yl.
Proof.
  destruct last_row as [_ A]. rewrite per_last in A. unfold v. rewrite (nsum_ext (np g) _ (fun j => n j * (1 - yl) - n j * Y j)) by (intros; ring).
  rewrite nsum_minus, nsum_scal_r. unfold Y. rewrite A. fold N. ring.
Qed.
Lemma Cpe_u : Cpe g e = nsum (np g) (fun j => n j * u j ^ 2) - N * xl ^ 2.
Proof.
  assert (E1 : Cpe g e = nsum (np g) (fun j => n j * H j * u j)).
  { unfold Cpe, u. rewrite (nsum_ext (np g) (fun j => n j * H j * (H j - X j - xl)) (fun j => nj_H0 g e j * h0 g e j - n j * H j * X j - nj_H0 g e j * xl)) by (intros; unfold nj_H0, nj, h0, n, H; ring).
    rewrite !nsum_minus, nsum_scal_r.
    replace (nsum (ne g) (fun i => nsum (np g) (fun j => aij g i j * nj_H0 g e j) * e (I "result_T" i))) with (nsum (np g) (fun j => n j * H j * X j)); [unfold xl, x; ring|].
    rewrite (nsum_ext (ne g) _ (fun i => nsum (np g) (fun j => n j * H j * (x i * aij g i j)))).
    - rewrite nsum_swap. apply nsum_ext. intros j Hj. unfold X. rewrite nsum_scal. reflexivity.
    - intros i Hi. rewrite <- nsum_scal_r. apply nsum_ext. intros j Hj. unfold nj_H0, nj, h0, n, H, x. ring. }
  rewrite E1. rewrite (nsum_ext (np g) _ (fun j => n j * u j ^ 2 + n j * X j * u j + n j * u j * xl)) by (intros j Hj; replace (H j) with (u j + X j + xl) by (unfold u; ring); ring).
  rewrite !nsum_plus, nsum_scal_r, sum_u. unfold X. rewrite (orth x u orth_u). ring.
Qed.
Lemma vv : nsum (np g) (fun j => n j * v j ^ 2) = - N * yl * (1 - yl).
Proof.
  rewrite (nsum_ext (np g) _ (fun j => n j * v j * (1 - yl) - n j * Y j * v j)) by (intros j Hj; replace (v j ^ 2) with (v j * v j) by ring; unfold v at 2; ring).
  rewrite nsum_minus, nsum_scal_r, sum_v. unfold Y. rewrite (orth y v orth_v). ring.
Qed.
Lemma uv : nsum (np g) (fun j => n j * (u j * v j)) = - N * xl * (1 - yl).
Proof.
  rewrite (nsum_ext (np g) _ (fun j => n j * u j * (1 - yl) - n j * Y j * u j)) by (intros j Hj; unfold v; ring).
  rewrite nsum_minus, nsum_scal_r, sum_u. unfold Y. rewrite (orth y u orth_u). ring.
Qed.
(* Cauchy-Schwarz with positive weights *)
Lemma cauchy a b : nsum (np g) (fun j => n j * (a j * b j)) ^ 2 <= nsum (np g) (fun j => n j * a j ^ 2) * nsum (np g) (fun j => n j * b j ^ 2).
Proof.
  set (A := nsum (np g) (fun j => n j * a j ^ 2)). set (B := nsum (np g) (fun j => n j * b j ^ 2)). set (C := nsum (np g) (fun j => n j * (a j * b j))).
  assert (Q : forall t, 0 <= A - 2 * t * C + t * t * B).
  { intros t. replace (A - 2 * t * C + t * t * B) with (nsum (np g) (fun j => n j * (a j - t * b j) ^ 2)).
    - apply nsum_nonneg. intros j Hj. apply Rmult_le_pos; [left; apply n_pos; exact Hj|apply pow2_ge_0].
    - unfold A, B, C. rewrite <- !nsum_scal, <- nsum_minus, <- nsum_plus. apply nsum_ext. intros; ring. }
  assert (B0 : 0 <= B) by (apply nsum_nonneg; intros j Hj; apply Rmult_le_pos; [left; apply n_pos; exact Hj|apply pow2_ge_0]).
  destruct (Rle_lt_or_eq_dec 0 B B0) as [Bp|Bz].
  - specialize (Q (C / B)). apply (Rmult_le_compat_r B) in Q; [|lra]. replace ((A - 2 * (C / B) * C + C / B * (C / B) * B) * B) with (A * B - C ^ 2) in Q by (field; lra). lra.
  - assert (Cz : C = 0).
    { unfold C. apply nsum_zero. intros j Hj. assert (K : (fun _ : nat => 0) j = n j * b j ^ 2).
      { apply (nsum_le_eq (np g) (fun _ => 0) (fun j => n j * b j ^ 2)); auto.
        - intros k Hk. apply Rmult_le_pos; [left; apply n_pos; exact Hk|apply pow2_ge_0].
        - fold B. rewrite <- Bz. apply nsum_zero. auto. }
      cbv beta in K. pose proof (n_pos j Hj). assert (bz : b j = 0); [|rewrite bz; ring].
      destruct (Req_dec (b j) 0) as [|Nz]; [auto|]. exfalso. assert (0 < b j ^ 2) by (apply pow2_gt_0; auto). nra. }
    rewrite Cz, <- Bz. lra.
Qed.
Lemma cauchy1 a : nsum (np g) (fun j => n j * a j) ^ 2 <= N * nsum (np g) (fun j => n j * a j ^ 2).
Proof.
  pose proof (cauchy (fun _ => 1) a) as K. cbv beta in K. rewrite (nsum_ext (np g) (fun j => n j * (1 * a j)) (fun j => n j * a j)) in K by (intros; ring).
  rewrite (nsum_ext (np g) (fun j => n j * 1 ^ 2) n) in K by (intros; ring). exact K.
Qed.
Lemma Cpe_nonneg : 0 <= Cpe g e.
Proof.
  rewrite Cpe_u. pose proof (cauchy1 u) as K. rewrite sum_u in K. pose proof N_pos.
  assert (K2 : N * (N * xl ^ 2) <= N * nsum (np g) (fun j => n j * u j ^ 2)) by (replace (N * (N * xl ^ 2)) with ((- N * xl) ^ 2) by ring; exact K).
  apply Rmult_le_reg_l in K2; lra.
Qed.
(* reactions make the mixture more compressible: dln V / dln P <= -1 *)
Lemma yl_nonpos : yl <= 0.
Proof.
  pose proof (cauchy1 v) as K. rewrite sum_v, vv in K. pose proof N_pos.
  assert (K' : N * N * (yl ^ 2) <= N * N * (- yl * (1 - yl))) by (replace (N * N * yl ^ 2) with ((- N * yl) ^ 2) by ring; replace (N * N * (- yl * (1 - yl))) with (N * (- N * yl * (1 - yl))) by ring; exact K).
  apply Rmult_le_reg_l in K'; [lra|apply Rmult_lt_0_compat; auto].
Qed.
Lemma Cv_stable : Cpf g e - N <= Cpf g e + Cpe g e + N * (1 - xl) ^ 2 / (-1 + yl).
Proof.
  pose proof N_pos. pose proof yl_nonpos as Y0. set (q := - yl). assert (Eq : yl = - q) by (unfold q; ring).
  rewrite Cpe_u. destruct (Rle_lt_or_eq_dec 0 q ltac:(unfold q; lra)) as [Qp|Qz].
  - pose proof (cauchy u v) as K. rewrite uv, vv, Eq in K. set (U := nsum (np g) (fun j => n j * u j ^ 2)) in *.
    assert (K2 : N * xl ^ 2 * (1 + q) <= U * q).
    { apply (Rmult_le_reg_l (N * (1 + q))); [apply Rmult_lt_0_compat; lra|]. 
      replace (N * (1 + q) * (N * xl ^ 2 * (1 + q))) with ((- N * xl * (1 - - q)) ^ 2) by ring. replace (N * (1 + q) * (U * q)) with (U * (- N * - q * (1 - - q))) by ring. exact K. }
    rewrite Eq. replace (-1 + - q) with (- (1 + q)) by ring.
    apply (Rmult_le_reg_l (q * (1 + q))); [apply Rmult_lt_0_compat; lra|].
    replace (q * (1 + q) * (Cpf g e + (U - N * xl ^ 2) + N * (1 - xl) ^ 2 / - (1 + q))) with (q * (1 + q) * Cpf g e + (1 + q) * (U * q) - q * (1 + q) * (N * xl ^ 2) - q * (N * (1 - xl) ^ 2)) by (field; lra).
    assert (K3 : (1 + q) * (N * xl ^ 2 * (1 + q)) <= (1 + q) * (U * q)) by (apply Rmult_le_compat_l; lra).
    assert (K4 : 0 <= N * (xl + q) ^ 2) by (apply Rmult_le_pos; [lra|apply pow2_ge_0]). nra.
  - assert (Yz : yl = 0) by lra. assert (V0 : nsum (np g) (fun j => n j * v j ^ 2) = 0) by (rewrite vv, Yz; ring).
    pose proof (cauchy u v) as K. rewrite uv, V0, Rmult_0_r, Yz in K.
    assert (X0 : xl = 0). { assert (Z : 0 = - N * xl * (1 - 0)) by (apply Rle_antisym; destruct (Req_dec (- N * xl * (1 - 0)) 0) as [Z|Z]; [lra|exfalso; apply (pow2_gt_0) in Z; lra|lra|exfalso; apply (pow2_gt_0) in Z; lra]). 
      destruct (Rmult_integral N xl) as [Z1|Z1]; [lra|lra|exact Z1]. }
    rewrite X0, Yz. assert (0 <= nsum (np g) (fun j => n j * u j ^ 2)) by (apply nsum_nonneg; intros j Hj; apply Rmult_le_pos; [left; apply n_pos; exact Hj|apply pow2_ge_0]).
    replace (N * (1 - 0) ^ 2 / (-1 + 0)) with (- N) by field. lra.
Qed.
End One.
(* ---- two converged solves at the same conditions ---- *)
Section Two.
Variables (T P : R) (c c' : nat -> R) (e e' : env).
Hypothesis He : equilibrium g T P c e.
Hypothesis He' : equilibrium g T P c' e'.
Hypothesis Hc : forall i, (i < ne g)%nat -> c i = c' i.
Lemma same_mix : (forall j, (j < np g)%nat -> e (I "n" j) = e' (I "n" j)) /\ e (V "n_moles") = e' (V "n_moles").
Proof.
  destruct He as (H1 & _ & _ & T1 & P1 & C1). destruct He' as (H1' & _ & _ & T1' & P1' & C1'). apply C21_unique; auto.
  - congruence.
  - congruence.
  - intros i Hi. rewrite C1, C1', Hc by auto. reflexivity.
  - exact (comp_ne T P c e He).
Qed.
Lemma same_T : e (V "T") = e' (V "T") /\ e (V "P") = e' (V "P").
Proof. destruct He as (_ & _ & _ & T1 & P1 & _). destruct He' as (_ & _ & _ & T1' & P1' & _). split; congruence. Qed.
Lemma same_b i : (i < ne g)%nat -> e (I "composition" i) = e' (I "composition" i).
Proof. intros Hi. destruct He as (_ & _ & _ & _ & _ & C1). destruct He' as (_ & _ & _ & _ & _ & C1'). rewrite C1, C1', Hc by auto. reflexivity. Qed.
Lemma same_xy : (forall j, (j < np g)%nat -> nsum (ne g) (fun i => e (I "result_T" i) * aij g i j) = nsum (ne g) (fun i => e' (I "result_T" i) * aij g i j)) /\
  e (I "result_T" (ne g)) = e' (I "result_T" (ne g)) /\ e (I "result_P" (ne g)) = e' (I "result_P" (ne g)).
Proof.
  destruct same_mix as [En _]. destruct same_T as [ET _].
  assert (Pos : forall j, (j < np g)%nat -> 0 < e (I "n" j)) by (intros; apply (n_pos T P c e He); auto).
  destruct (last_row T P c e He) as [L1 L2]. destruct (last_row T P c' e' He') as [L1' L2'].
  assert (A : forall i k, nsum (np g) (fun j => aij g i j * aij g k j * e (I "n" j)) = nsum (np g) (fun j => aij g i j * aij g k j * e' (I "n" j))) by (intros; apply nsum_ext; intros; rewrite En by auto; ring).
  assert (RH : nsum (np g) (fun j => e (I "n" j) * H0 g j (e (V "T"))) = nsum (np g) (fun j => e' (I "n" j) * H0 g j (e' (V "T")))) by (apply nsum_ext; intros; rewrite ET, En by auto; ring).
  assert (RN : nsum (np g) (fun j => e (I "n" j)) = nsum (np g) (fun j => e' (I "n" j))) by (apply nsum_ext; intros; apply En; auto).
  destruct (ker (np g) (ne g) (aij g) (fun j => e (I "n" j)) (fun i => e (I "composition" i)) Pos
    (fun k => e (I "result_T" k) - e' (I "result_T" k)) (e (I "result_T" (ne g)) - e' (I "result_T" (ne g)))) as [KA KB].
  - intros i Hi. destruct (rows T P c e He i Hi) as [R1 _]. destruct (rows T P c' e' He' i Hi) as [R1' _].
    rewrite (nsum_ext (ne g) _ (fun k => nsum (np g) (fun j => aij g i j * aij g k j * e (I "n" j)) * e (I "result_T" k) - nsum (np g) (fun j => aij g i j * aij g k j * e' (I "n" j)) * e' (I "result_T" k))) by (intros k Hk; rewrite <- A; ring).
    rewrite nsum_minus. rewrite <- (same_b i Hi) in R1'.
    assert (RR : nsum (np g) (fun j => aij g i j * (e (I "n" j) * H0 g j (e (V "T")))) = nsum (np g) (fun j => aij g i j * (e' (I "n" j) * H0 g j (e' (V "T"))))) by (apply nsum_ext; intros; rewrite ET, En by auto; ring).
    rewrite RR in R1. lra.
  - rewrite (nsum_ext (ne g) _ (fun k => e (I "composition" k) * e (I "result_T" k) - e' (I "composition" k) * e' (I "result_T" k))) by (intros k Hk; rewrite <- (same_b k Hk); ring).
    rewrite nsum_minus, L1, L1', RH. ring.
  - destruct (ker (np g) (ne g) (aij g) (fun j => e (I "n" j)) (fun i => e (I "composition" i)) Pos
      (fun k => e (I "result_P" k) - e' (I "result_P" k)) (e (I "result_P" (ne g)) - e' (I "result_P" (ne g)))) as [_ KD].
    + intros i Hi. destruct (rows T P c e He i Hi) as [_ R1]. destruct (rows T P c' e' He' i Hi) as [_ R1'].
      rewrite (nsum_ext (ne g) _ (fun k => nsum (np g) (fun j => aij g i j * aij g k j * e (I "n" j)) * e (I "result_P" k) - nsum (np g) (fun j => aij g i j * aij g k j * e' (I "n" j)) * e' (I "result_P" k))) by (intros k Hk; rewrite <- A; ring).
      rewrite nsum_minus. rewrite <- (same_b i Hi) in R1'. lra.
    + rewrite (nsum_ext (ne g) _ (fun k => e (I "composition" k) * e (I "result_P" k) - e' (I "composition" k) * e' (I "result_P" k))) by (intros k Hk; rewrite <- (same_b k Hk); ring).
      rewrite nsum_minus, L2, L2', RN. ring.
    + specialize (KB (comp_ne T P c e He)). specialize (KD (comp_ne T P c e He)). split; [|split; lra].
      intros j Hj. specialize (KA j Hj). rewrite (nsum_ext (ne g) _ (fun i => e (I "result_T" i) * aij g i j - e' (I "result_T" i) * aij g i j)) in KA by (intros; ring). rewrite nsum_minus in KA. lra.
Qed.
Lemma same_props x : In x prop_names -> prop_of g e x = prop_of g e' x.
Proof.
  intros Hx. destruct same_mix as [En Em]. destruct same_T as [ET EP]. destruct same_xy as (EX & Exl & Eyl).
  assert (N0 : nsum (np g) (nj_H0 g e) = nsum (np g) (nj_H0 g e')) by (apply nsum_ext; intros j Hj; unfold nj_H0, nj, h0; rewrite ET, En by auto; reflexivity).
  assert (C1 : Cpf g e = Cpf g e') by (unfold Cpf; apply nsum_ext; intros j Hj; unfold nj; rewrite ET, En by auto; reflexivity).
  assert (C2 : Cpe g e = Cpe g e').
  { rewrite (Cpe_u T P c e He), (Cpe_u T P c' e' He'). rewrite Exl. f_equal; [|f_equal; apply nsum_ext; exact En].
    apply nsum_ext. intros j Hj. rewrite EX, En, ET by auto. reflexivity. }
  assert (C3 : dlnVqdlnP g e = dlnVqdlnP g e') by (unfold dlnVqdlnP; rewrite Eyl; reflexivity).
  assert (C4 : dlnVqdlnT g e = dlnVqdlnT g e') by (unfold dlnVqdlnT; rewrite Exl; reflexivity).
  assert (C5 : pc_Cp g e = pc_Cp g e') by (unfold pc_Cp; rewrite C1, C2; reflexivity).
  assert (C6 : pc_Cv g e = pc_Cv g e') by (unfold pc_Cv; rewrite C5, C4, C3, Em; reflexivity).
  unfold prop_of. cbn [props_calcs compute]. unfold calcs_compute. cbv zeta.
  cbn in Hx. repeat destruct Hx as [<-|Hx]; try contradiction; vsimp; rewrite ?N0, ?ET, ?EP, ?Em, ?C5, ?C6, ?C3; try reflexivity.
  f_equal. apply nsum_ext. intros j Hj. unfold nj. rewrite En by auto. reflexivity.
Qed.
End Two.

(* ---- mixtures as functions of temperature ---- *)
Definition enth (m : nat -> R) (T : R) : R := nsum (np g) (fun j => m j * (T * H0 g j T)).
Definition phi (m : nat -> R) (T : R) : R := nsum (np g) (fun j => m j * (H0 g j T - S0 g j T)).
Definition entr (m : nat -> R) (T : R) : R := nsum (np g) (fun j => m j * S0 g j T).
Definition cpm (m : nat -> R) (T : R) : R := nsum (np g) (fun j => m j * Cp0 g j T).
Definition kmix (m : nat -> R) (P : R) : R := nsum (np g) (fun j => m j * (ln (m j) - ln (nsum (np g) m) + ln (P / (101325 / 100000)))).
Lemma gibbs_split T P m : gibbs g T P m = phi m T + kmix m P.
Proof. unfold gibbs, phi, kmix, chem_pot. rewrite <- nsum_plus. apply nsum_ext. intros; ring. Qed.
Lemma dnsum n (f : nat -> R -> R) d x : (forall j, (j < n)%nat -> is_derive (f j) x (d j)) -> is_derive (fun t => nsum n (fun j => f j t)) x (nsum n d).
Proof.
  induction n as [|n IH]; intros Hf.
  - apply (dconst 0).
  - apply (is_derive_ext (fun t => nsum n (fun j => f j t) + f n t)); [intros t; symmetry; apply nsum_S|]. rewrite nsum_S. apply dplus; [apply IH; intros; apply Hf; lia|apply Hf; lia].
Qed.
Lemma d_enth m T : consistent_at g T -> is_derive (enth m) T (cpm m T).
Proof. intros C. apply (dnsum (np g) (fun j t => m j * (t * H0 g j t))). intros j Hj. apply (dscal_l (fun t => t * H0 g j t)). apply is_derive_Reals, C. exact Hj. Qed.
Lemma d_entr m T : consistent_at g T -> is_derive (entr m) T (cpm m T / T).
Proof.
  intros C. eapply is_derive_val; [apply (dnsum (np g) (fun j t => m j * S0 g j t) (fun j => m j * (Cp0 g j T / T)))|].
  - intros j Hj. apply dscal_l. apply is_derive_Reals, C. exact Hj.
  - unfold cpm, Rdiv. rewrite <- nsum_scal_r. apply nsum_ext. intros; ring.
Qed.
Lemma d_phi m T : 0 < T -> consistent_at g T -> is_derive (phi m) T (- (enth m T / T ^ 2)).
Proof.
  intros HT C. eapply is_derive_val; [apply (dnsum (np g) (fun j t => m j * (H0 g j t - S0 g j t)) (fun j => m j * ((Cp0 g j T - H0 g j T) / T - Cp0 g j T / T)))|].
  - intros j Hj. apply dscal_l. apply dminus; [apply H0_deriv; auto|apply is_derive_Reals, C; exact Hj].
  - unfold enth, Rdiv. rewrite <- nsum_scal_r. replace (- nsum (np g) (fun j => m j * (T * H0 g j T) * / T ^ 2)) with (-1 * nsum (np g) (fun j => m j * (T * H0 g j T) * / T ^ 2)) by ring.
    rewrite <- nsum_scal. apply nsum_ext. intros. field. lra.
Qed.
Lemma mvt f f' a b : a < b -> (forall x, a <= x <= b -> is_derive f x (f' x)) -> exists x, a < x < b /\ f b - f a = f' x * (b - a).
Proof.
  intros Hab D. destruct (MVT_cor2 f f' a b Hab) as (x & E & Hx); [intros x Hx; apply is_derive_Reals, D; exact Hx|]. exists x. auto.
Qed.
(* between T1 and T2 the species data belong together and every heat capacity is positive *)
Definition regular_on (T1 T2 : R) : Prop := forall T, T1 <= T <= T2 -> consistent_at g T /\ forall j, (j < np g)%nat -> 0 < Cp0 g j T.
Section Mono.
Variables (T1 T2 : R).
Hypothesis HT : 0 < T1 < T2.
Hypothesis Hr : regular_on T1 T2.
Lemma cpm_pos m T : T1 <= T <= T2 -> (forall j, (j < np g)%nat -> 0 < m j) -> 0 < cpm m T.
Proof. intros Ht Hm. apply nsum_pos; [apply Hg|]. intros j Hj. apply Rmult_lt_0_compat; [auto|apply Hr; auto]. Qed.
Lemma enth_inc m a b : T1 <= a -> a < b -> b <= T2 -> (forall j, (j < np g)%nat -> 0 < m j) -> enth m a < enth m b.
Proof.
  intros Ha Hab Hb Hm. destruct (mvt (enth m) (cpm m) a b Hab) as (x & Hx & E); [intros x Hx; apply d_enth, Hr; lra|].
  assert (0 < cpm m x * (b - a)) by (apply Rmult_lt_0_compat; [apply cpm_pos; [lra|auto]|lra]). lra.
Qed.
Lemma entr_inc m a b : T1 <= a -> a < b -> b <= T2 -> (forall j, (j < np g)%nat -> 0 < m j) -> entr m a < entr m b.
Proof.
  intros Ha Hab Hb Hm. destruct (mvt (entr m) (fun x => cpm m x / x) a b Hab) as (x & Hx & E); [intros x Hx; apply d_entr, Hr; lra|].
  assert (0 < cpm m x / x * (b - a)) by (apply Rmult_lt_0_compat; [apply Rdiv_lt_0_compat; [apply cpm_pos; [lra|auto]|lra]|lra]). lra.
Qed.
Lemma phi_up m : (forall j, (j < np g)%nat -> 0 < m j) -> phi m T1 - phi m T2 < enth m T2 * (/ T1 - / T2).
Proof.
  intros Hm. destruct (mvt (fun t => phi m t + - enth m T2 * / t) (fun x => - (enth m x / x ^ 2) + - enth m T2 * (- 1 / x ^ 2)) T1 T2) as (x & Hx & E); [lra| |].
  - intros x Hx. apply (dplus (phi m)); [apply d_phi; [lra|apply Hr; lra]|]. apply dscal_l. eapply is_derive_val; [apply (is_derive_inv (fun t => t) x 1); [exact (is_derive_id x)|lra]|]. field. lra.
  - assert (I := enth_inc m x T2 ltac:(lra) ltac:(lra) ltac:(lra) Hm).
    assert (0 < (- (enth m x / x ^ 2) + - enth m T2 * (- 1 / x ^ 2)) * (T2 - T1)).
    { replace (- (enth m x / x ^ 2) + - enth m T2 * (- 1 / x ^ 2)) with ((enth m T2 - enth m x) / x ^ 2) by (field; lra). apply Rmult_lt_0_compat; [apply Rdiv_lt_0_compat; [lra|apply pow_lt; lra]|lra]. }
    lra.
Qed.
Lemma phi_low m : (forall j, (j < np g)%nat -> 0 < m j) -> enth m T1 * (/ T1 - / T2) < phi m T1 - phi m T2.
Proof.
  intros Hm. destruct (mvt (fun t => phi m t + - enth m T1 * / t) (fun x => - (enth m x / x ^ 2) + - enth m T1 * (- 1 / x ^ 2)) T1 T2) as (x & Hx & E); [lra| |].
  - intros x Hx. apply (dplus (phi m)); [apply d_phi; [lra|apply Hr; lra]|]. apply dscal_l. eapply is_derive_val; [apply (is_derive_inv (fun t => t) x 1); [exact (is_derive_id x)|lra]|]. field. lra.
  - assert (I := enth_inc m T1 x ltac:(lra) ltac:(lra) ltac:(lra) Hm).
    assert ((- (enth m x / x ^ 2) + - enth m T1 * (- 1 / x ^ 2)) * (T2 - T1) < 0).
    { replace (- (enth m x / x ^ 2) + - enth m T1 * (- 1 / x ^ 2)) with (- ((enth m x - enth m T1) / x ^ 2)) by (field; lra).
      assert (0 < (enth m x - enth m T1) / x ^ 2 * (T2 - T1)) by (apply Rmult_lt_0_compat; [apply Rdiv_lt_0_compat; [lra|apply pow_lt; lra]|lra]). lra. }
    lra.
Qed.
(* Gibbs energy times T at fixed mole numbers *)
Lemma d_tg m K T : T1 <= T <= T2 -> is_derive (fun t => enth m t - t * (entr m t - K)) T (- (entr m T - K)).
Proof.
  intros Ht. assert (C : consistent_at g T) by (apply Hr; lra).
  eapply is_derive_val; [apply dminus; [apply d_enth; exact C|apply (is_derive_mult (fun t => t) (fun t => entr m t - K) T 1 (cpm m T / T)); [exact (is_derive_id T)| |intros; apply Rmult_comm]]|].
  - eapply is_derive_val; [apply dminus; [apply d_entr; exact C|apply dconst]|]. ring.
  - unfold plus, mult; simpl; unfold mult; simpl. field. lra.
Qed.
Lemma tg_up m K : (forall j, (j < np g)%nat -> 0 < m j) -> - (entr m T2 - K) * (T2 - T1) < (enth m T2 - T2 * (entr m T2 - K)) - (enth m T1 - T1 * (entr m T1 - K)).
Proof.
  intros Hm. destruct (mvt (fun t => enth m t - t * (entr m t - K)) (fun t => - (entr m t - K)) T1 T2) as (x & Hx & E); [lra|intros x Hx; apply d_tg; exact Hx|].
  cbv beta in E. rewrite E. assert (I := entr_inc m x T2 ltac:(lra) ltac:(lra) ltac:(lra) Hm). apply Rmult_lt_compat_r; lra.
Qed.
Lemma tg_low m K : (forall j, (j < np g)%nat -> 0 < m j) -> (enth m T2 - T2 * (entr m T2 - K)) - (enth m T1 - T1 * (entr m T1 - K)) < - (entr m T1 - K) * (T2 - T1).
Proof.
  intros Hm. destruct (mvt (fun t => enth m t - t * (entr m t - K)) (fun t => - (entr m t - K)) T1 T2) as (x & Hx & E); [lra|intros x Hx; apply d_tg; exact Hx|].
  cbv beta in E. rewrite E. assert (I := entr_inc m T1 x ltac:(lra) ltac:(lra) ltac:(lra) Hm). apply Rmult_lt_compat_r; lra.
Qed.
End Mono.
Lemma h_val e : prop_of g e "h" = R_ENG * enth (fun j => e (I "n" j)) (e (V "T")).
Proof.
  unfold prop_of. cbn [props_calcs compute]. unfold calcs_compute. cbv zeta. vsimp. unfold enth.
  rewrite (nsum_ext (np g) (fun j => e (I "n" j) * (e (V "T") * H0 g j (e (V "T")))) (fun j => nj_H0 g e j * e (V "T"))) by (intros; unfold nj_H0, nj, h0; ring). rewrite nsum_scal_r. ring.
Qed.
Lemma S_val T P c e : equilibrium g T P c e -> prop_of g e "S" = R_ENG * (entr (fun j => e (I "n" j)) T - kmix (fun j => e (I "n" j)) P).
Proof.
  intros He. pose proof (moles T P c e He) as EM. pose proof (N_pos T P c e He) as NP. pose proof (fun j => n_pos T P c e He j) as np0.
  destruct He as ((HP & _) & _ & _ & ET & EP & _).
  unfold prop_of. cbn [props_calcs compute]. unfold calcs_compute. cbv zeta. vsimp. f_equal. unfold entr, kmix. rewrite <- nsum_minus. apply nsum_ext. intros j Hj.
  rewrite EP in HP. rewrite EM, ET, EP. unfold nj. specialize (np0 j Hj). assert (Pr : 0 < P / P_REF) by (apply Rdiv_lt_0_compat; [lra|exact pref_pos]).
  rewrite ln_div by (try exact Pr; apply Rdiv_lt_0_compat; auto). rewrite ln_div by auto. change (101325 / 100000) with P_REF. ring.
Qed.
Lemma gibbs_two T P c e m : equilibrium g T P c e -> (forall j, (j < np g)%nat -> 0 < m j) -> (forall i, (i < ne g)%nat -> nsum (np g) (fun j => aij g i j * m j) = c i) ->
  gibbs g T P (fun j => e (I "n" j)) <= gibbs g T P m.
Proof.
  intros (H1 & _ & _ & ET & EP & EC) Hm Hel. destruct (C21_gibbs_minimum g false e m H1) as [G _].
  - intros j Hj. left. auto.
  - apply nsum_pos; [apply Hg|auto].
  - intros i Hi. rewrite Hel, EC by auto. reflexivity.
  - intros j Hj [Q _]. discriminate Q.
  - cbv zeta in G. rewrite ET, EP in G. exact G.
Qed.
Lemma elems_c T P c e : equilibrium g T P c e -> forall i, (i < ne g)%nat -> nsum (np g) (fun j => aij g i j * e (I "n" j)) = c i.
Proof. intros He i Hi. rewrite <- (elems T P c e He i Hi). apply He. exact Hi. Qed.
Lemma h_increases T1 T2 P c e1 e2 : 0 < T1 < T2 -> regular_on T1 T2 -> equilibrium g T1 P c e1 -> equilibrium g T2 P c e2 -> prop_of g e1 "h" < prop_of g e2 "h".
Proof.
  intros HT Hr E1 E2. pose proof (fun j => n_pos T1 P c e1 E1 j) as P1. pose proof (fun j => n_pos T2 P c e2 E2 j) as P2.
  pose proof (gibbs_two T1 P c e1 _ E1 P2 (elems_c _ _ _ _ E2)) as G1. pose proof (gibbs_two T2 P c e2 _ E2 P1 (elems_c _ _ _ _ E1)) as G2.
  rewrite !gibbs_split in G1, G2. pose proof (phi_up T1 T2 HT Hr _ P2) as U. pose proof (phi_low T1 T2 HT Hr _ P1) as L.
  rewrite !h_val. assert (Q1 : e1 (V "T") = T1) by apply E1. assert (Q2 : e2 (V "T") = T2) by apply E2. rewrite Q1, Q2.
  set (n1 := fun j => e1 (I "n" j)) in *. set (n2 := fun j => e2 (I "n" j)) in *.
  apply Rmult_lt_compat_l; [exact reng_pos|]. apply (Rmult_lt_reg_r (/ T1 - / T2)); [|lra].
  assert (/ T2 < / T1) by (apply Rinv_lt_contravar; [apply Rmult_lt_0_compat; lra|lra]). lra.
Qed.
Lemma S_increases T1 T2 P c e1 e2 : 0 < T1 < T2 -> regular_on T1 T2 -> equilibrium g T1 P c e1 -> equilibrium g T2 P c e2 -> prop_of g e1 "S" < prop_of g e2 "S".
Proof.
  intros HT Hr E1 E2. pose proof (fun j => n_pos T1 P c e1 E1 j) as P1. pose proof (fun j => n_pos T2 P c e2 E2 j) as P2.
  pose proof (gibbs_two T1 P c e1 _ E1 P2 (elems_c _ _ _ _ E2)) as G1. pose proof (gibbs_two T2 P c e2 _ E2 P1 (elems_c _ _ _ _ E1)) as G2.
  rewrite !gibbs_split in G1, G2. rewrite (S_val T1 P c e1 E1), (S_val T2 P c e2 E2).
  set (n1 := fun j => e1 (I "n" j)) in *. set (n2 := fun j => e2 (I "n" j)) in *.
  pose proof (tg_up T1 T2 HT Hr n2 (kmix n2 P) P2) as U. pose proof (tg_low T1 T2 HT Hr n1 (kmix n1 P) P1) as L.
  assert (TP : forall m t, t * phi m t = enth m t - t * entr m t).
  { intros m t. unfold phi, enth, entr. rewrite <- !nsum_scal, <- nsum_minus. apply nsum_ext. intros; ring. }
  apply (Rmult_le_compat_l T1) in G1; [|lra]. apply (Rmult_le_compat_l T2) in G2; [|lra]. rewrite !Rmult_plus_distr_l, !TP in G1, G2.
  apply Rmult_lt_compat_l; [exact reng_pos|]. apply (Rmult_lt_reg_r (T2 - T1)); lra.
Qed.
Lemma moles_decrease T P1 P2 c e1 e2 : P1 < P2 -> equilibrium g T P1 c e1 -> equilibrium g T P2 c e2 -> e2 (V "n_moles") <= e1 (V "n_moles").
Proof.
  intros HP E1 E2. pose proof (fun j => n_pos T P1 c e1 E1 j) as Q1. pose proof (fun j => n_pos T P2 c e2 E2 j) as Q2.
  pose proof (gibbs_two T P1 c e1 _ E1 Q2 (elems_c _ _ _ _ E2)) as G1. pose proof (gibbs_two T P2 c e2 _ E2 Q1 (elems_c _ _ _ _ E1)) as G2.
  rewrite !gibbs_split in G1, G2. rewrite (moles T P1 c e1 E1), (moles T P2 c e2 E2).
  assert (Z1 : 0 < P1) by (destruct E1 as ((A & _) & _ & _ & _ & B & _); rewrite <- B; exact A).
  set (n1 := fun j => e1 (I "n" j)) in *. set (n2 := fun j => e2 (I "n" j)) in *.
  assert (KS : forall m P, kmix m P = nsum (np g) (fun j => m j * (ln (m j) - ln (nsum (np g) m))) + nsum (np g) m * ln (P / (101325 / 100000))) by (intros; unfold kmix; rewrite <- nsum_scal_r, <- nsum_plus; apply nsum_ext; intros; ring).
  rewrite !KS in G1, G2. change (101325 / 100000) with P_REF in *.
  assert (LN : ln (P1 / P_REF) < ln (P2 / P_REF)).
  { apply ln_increasing; [apply Rdiv_lt_0_compat; [lra|exact pref_pos]|]. unfold Rdiv. apply Rmult_lt_compat_r; [apply Rinv_0_lt_compat, pref_pos|lra]. }
  apply (Rmult_le_reg_r (ln (P2 / P_REF) - ln (P1 / P_REF))); lra.
Qed.
End S.
