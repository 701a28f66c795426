(* Claim C72, continued: the two pieces of the 'large' efficiency curve meet at the cut up to 3e-8, so the fall there is the only one and no bigger than that. *)
From Coq Require Import Lia.
From Verif Require Import Lib_R Model_CoreEff Prop_CoreEff Prop_CoreEff2.
Open Scope R_scope.

Lemma slope_upper c : 0 <= c -> - (361 / 100000) * c ^ 3 + 5448 / 100000 * c ^ 2 - 2726 / 10000 * c + 4549 / 10000 <= 4549 / 10000.
Proof.
  intros H. assert (Q : 0 <= 361 / 100000 * c ^ 2 - 5448 / 100000 * c + 2726 / 10000).
  { replace (361 / 100000 * c ^ 2 - 5448 / 100000 * c + 2726 / 10000) with (361 / 100000 * (c - 5448 / 722) ^ 2 + (2726 / 10000 - 361 / 100000 * (5448 / 722) ^ 2)) by field.
    assert (0 <= (c - 5448 / 722) ^ 2) by apply pow2_ge_0. lra. }
  assert (0 <= c * (361 / 100000 * c ^ 2 - 5448 / 100000 * c + 2726 / 10000)) by (apply Rmult_le_pos; assumption).
  replace (c ^ 3) with (c * c ^ 2) by ring. replace (c ^ 2) with (c * c) in * by ring. lra.
Qed.
Lemma poly_between x y : 0 <= x -> x < y -> y <= cut -> 0 <= large_poly y - large_poly x <= 4549 / 10000 * (y - x).
Proof.
  intros H1 H2 H3. destruct (MVT_cor2 large_poly _ x y H2 (fun c _ => poly_derive c)) as (c & E & Hc). rewrite E.
  pose proof (poly_slope c ltac:(lra)) as P. pose proof (slope_upper c ltac:(lra)) as U. split.
  - apply Rmult_le_pos; lra.
  - apply Rmult_le_compat_r; lra.
Qed.
Lemma poly_cut : 91 / 100 < large_poly cut < 91 / 100 + 3 / 100000000. Proof. unfold large_poly, cut. lra. Qed.
(* over the whole range the curve never falls by more than 3e-8, and never rises faster than 0.4549 per lbm/s by more than that *)
Theorem C72_large_meets tl x y : 0 <= x -> x < y -> - (3 / 100000000) <= large_curve tl y - large_curve tl x <= 4549 / 10000 * (y - x) + 3 / 100000000.
Proof.
  intros H1 H2. assert (K : - (3 / 100000000) <= (if Rlt_dec y cut then large_poly y else 91 / 100) - (if Rlt_dec x cut then large_poly x else 91 / 100) <= 4549 / 10000 * (y - x) + 3 / 100000000).
  { pose proof poly_cut as C. destruct (Rlt_dec y cut) as [Y|Y], (Rlt_dec x cut) as [X|X]; try lra.
    - pose proof (poly_between x y H1 H2 ltac:(lra)). lra.
    - pose proof (poly_between x cut H1 X ltac:(lra)). lra. }
  unfold large_curve. destruct tl as [|[|[|tl]]]; lra.
Qed.
Print Assumptions C72_large_meets.
