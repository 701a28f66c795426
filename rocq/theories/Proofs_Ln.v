(* Rational bounds on logarithms by the series of artanh. *)
From Coq Require Import Lia.
From Verif Require Import Lib_R Lib_Loop Proofs_Equil.
From Verif Require Proofs_Stable.
Open Scope R_scope.

Fixpoint ser (k : nat) (z : R) : R := match k with O => 0 | S k' => ser k' z + z ^ (2 * k' + 1) / IZR (Z.of_nat (2 * k' + 1)) end.
Lemma ser_derive k z : z ^ 2 <> 1 -> is_derive (ser k) z ((1 - z ^ (2 * k)) / (1 - z ^ 2)).
Proof.
  intros Hz. induction k as [|k IH].
  - eapply is_derive_val; [apply (dconst 0)|]. rewrite Nat.mul_0_r, pow_O. field. lra.
  - cbn [ser]. rewrite <- INR_IZR_INZ. assert (Hn : INR (2 * k + 1) <> 0) by (apply not_0_INR; lia).
    eapply is_derive_val; [apply (dplus (ser k)); [exact IH|apply (dscal (fun z => z ^ (2 * k + 1)) z (INR (2 * k + 1) * z ^ (2 * k)) (/ INR (2 * k + 1)))]|].
    + eapply is_derive_val; [apply (is_derive_pow (fun t => t) (2 * k + 1) z 1); exact (is_derive_id z)|]. replace (Nat.pred (2 * k + 1)) with (2 * k)%nat by lia. ring.
    + replace (2 * S k)%nat with (2 * k + 2)%nat by lia. rewrite pow_add. field. split; [lra|exact Hn].
Qed.
Lemma artanh_bounds k z : 0 < z < 1 -> 2 * ser k z <= ln ((1 + z) / (1 - z)) <= 2 * ser k z + 2 * z ^ (2 * k + 1) / (1 - z ^ 2).
Proof.
  intros Hz. set (f := fun t => ln (1 + t) - ln (1 - t) - 2 * ser k t).
  assert (Q : forall t, 0 <= t <= z -> t ^ 2 < 1) by (intros t Ht; nra).
  destruct (Proofs_Stable.mvt f (fun t => 2 * (t ^ (2 * k) / (1 - t ^ 2))) 0 z) as (x & Hx & E); [lra| |].
  - intros t Ht. specialize (Q t Ht). eapply is_derive_val; [apply dminus; [apply dminus|apply dscal_l, ser_derive; lra]|].
    + apply (dln (fun t => 1 + t) t 1); [lra|]. eapply is_derive_val; [apply dplus; [apply dconst|exact (is_derive_id t)]|]. unfold one; simpl. ring.
    + apply (dln (fun t => 1 - t) t (-1)); [lra|]. eapply is_derive_val; [apply dminus; [apply dconst|exact (is_derive_id t)]|]. unfold one; simpl. ring.
    + field. repeat split; nra.
  - assert (F0 : f 0 = 0). { unfold f. rewrite Rplus_0_r, Rminus_0_r, ln_1. assert (S0 : ser k 0 = 0). { clear. induction k as [|k IH]; [reflexivity|]. cbn [ser]. rewrite IH, pow_i by lia. unfold Rdiv. ring. } rewrite S0. ring. }
    rewrite F0, !Rminus_0_r in E. rewrite ln_div by lra. unfold f in E.
    assert (B0 : 0 <= x ^ (2 * k) / (1 - x ^ 2)) by (apply Rmult_le_pos; [apply pow_le; lra|left; apply Rinv_0_lt_compat; specialize (Q x ltac:(lra)); lra]).
    assert (B1 : x ^ (2 * k) / (1 - x ^ 2) <= z ^ (2 * k) / (1 - z ^ 2)).
    { pose proof (Q x ltac:(lra)) as Q1. pose proof (Q z ltac:(lra)) as Q2. apply Rmult_le_compat; [apply pow_le; lra|left; apply Rinv_0_lt_compat; lra|apply pow_incr; lra|apply Rinv_le_contravar; [lra|nra]]. }
    assert (P0 : 0 <= 2 * (x ^ (2 * k) / (1 - x ^ 2)) * z) by (apply Rmult_le_pos; lra).
    assert (P1 : 2 * (x ^ (2 * k) / (1 - x ^ 2)) * z <= 2 * (z ^ (2 * k) / (1 - z ^ 2)) * z) by (apply Rmult_le_compat_r; lra).
    rewrite pow_add, pow_1. replace (2 * (z ^ (2 * k) * z) / (1 - z ^ 2)) with (2 * (z ^ (2 * k) / (1 - z ^ 2)) * z) by (field; specialize (Q z ltac:(lra)); lra). lra.
Qed.
(* ln 1000 = 10 ln 2 - ln 1.024 to eleven digits: 6.907755278982137... *)
Lemma ln_1000 : 6907755278970 / 10 ^ 12 <= ln 1000 <= 6907755278990 / 10 ^ 12.
Proof.
  pose proof (artanh_bounds 14 (/ 3) ltac:(lra)) as A. pose proof (artanh_bounds 4 (3 / 253) ltac:(lra)) as B.
  replace ((1 + / 3) / (1 - / 3)) with 2 in A by field. replace ((1 + 3 / 253) / (1 - 3 / 253)) with (1024 / 1000) in B by field.
  assert (E : ln 1000 = 10 * ln 2 - ln (1024 / 1000)).
  { rewrite ln_div by lra. replace 1024 with (2 * (2 * (2 * (2 * (2 * (2 * (2 * (2 * (2 * 2))))))))) by ring. rewrite !ln_mult by lra. ring. }
  cbn [ser] in A, B. cbn [Nat.mul Nat.add Z.of_nat Pos.of_succ_nat Pos.succ] in A, B. rewrite E.
  assert (A1 : 69314718055990 / 10 ^ 14 <= ln 2 <= 69314718056000 / 10 ^ 14) by lra.
  assert (B1 : 2371652661730 / 10 ^ 14 <= ln (1024 / 1000) <= 2371652661740 / 10 ^ 14) by lra. lra.
Qed.
