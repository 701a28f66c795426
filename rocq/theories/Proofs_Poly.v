(* Positivity of integer polynomials on intervals, by Taylor shift and bisection. *)
From Coq Require Import Reals ZArith List Bool Lra Lia.
Import ListNotations.
Open Scope R_scope.

Fixpoint peval (p : list Z) (x : R) : R := match p with [] => 0 | c :: r => IZR c + x * peval r x end.
Fixpoint padd (p q : list Z) : list Z := match p, q with [], _ => q | _, [] => p | a :: p', b :: q' => (a + b)%Z :: padd p' q' end.
Definition pscal (a : Z) (p : list Z) : list Z := map (Z.mul a) p.
(* the coefficients of p(a + t) *)
Fixpoint pshift (p : list Z) (a : Z) : list Z := match p with [] => [] | c :: r => let s := pshift r a in padd [c] (padd (pscal a s) (0%Z :: s)) end.
(* a lower bound on [0, w] *)
Fixpoint plow (p : list Z) (w : Z) : Z := match p with [] => 0%Z | c :: r => (c + Z.min 0 (w * plow r w))%Z end.
Definition pos_on (p : list Z) (a w : Z) : bool := Z.ltb 0 (plow (pshift p a) w).
Fixpoint pos_auto (fuel : nat) (p : list Z) (a w : Z) : bool :=
  if pos_on p a w then true else match fuel with O => false | S f => let h := (w / 2)%Z in if pos_auto f p a h then pos_auto f p (a + h) (w - h) else false end.

Lemma padd_eval p q x : peval (padd p q) x = peval p x + peval q x.
Proof.
  revert q. induction p as [|a p IH]; intros q; cbn [padd peval]; [ring|]. destruct q as [|b q]; cbn [peval]; [ring|]. rewrite plus_IZR, IH. ring.
Qed.
Lemma pscal_eval a p x : peval (pscal a p) x = IZR a * peval p x.
Proof. induction p as [|c r IH]; cbn [pscal map peval]; [ring|]. fold (pscal a r). rewrite mult_IZR, IH. ring. Qed.
Lemma pshift_eval p a t : peval (pshift p a) t = peval p (IZR a + t).
Proof.
  induction p as [|c r IH]; [reflexivity|]. cbn [pshift]. cbv zeta. rewrite padd_eval, padd_eval, pscal_eval. cbn [peval]. rewrite IH. ring.
Qed.
Lemma plow_le p w t : 0 <= t <= IZR w -> IZR (plow p w) <= peval p t.
Proof.
  intros Ht. induction p as [|c r IH]; cbn [plow peval]; [lra|]. rewrite plus_IZR.
  destruct (Z.min_spec 0 (w * plow r w)) as [[H ->]|[H ->]].
  - assert (Q : 0 <= IZR w * IZR (plow r w)) by (rewrite <- mult_IZR; apply IZR_le; lia).
    assert (0 <= t * peval r t); [|lra]. destruct (Rle_lt_dec 0 (IZR (plow r w))) as [L|L]; [apply Rmult_le_pos; lra|].
    assert (W0 : IZR w = 0) by nra. assert (t = 0) by lra. subst t. rewrite Rmult_0_l. lra.
  - rewrite mult_IZR. apply IZR_le in H. rewrite mult_IZR in H.
    assert (IZR w * IZR (plow r w) <= t * peval r t); [|lra].
    destruct (Rle_lt_dec 0 (IZR (plow r w))) as [L|L].
    + assert (0 <= t * peval r t) by (apply Rmult_le_pos; lra). lra.
    + apply Rle_trans with (t * IZR (plow r w)); [nra|]. apply Rmult_le_compat_l; lra.
Qed.
Lemma pos_on_ok p a w x : pos_on p a w = true -> IZR a <= x <= IZR a + IZR w -> 0 < peval p x.
Proof.
  intros H Hx. apply Z.ltb_lt, IZR_lt in H. pose proof (plow_le (pshift p a) w (x - IZR a) ltac:(lra)) as L. rewrite pshift_eval in L.
  replace (IZR a + (x - IZR a)) with x in L by ring. lra.
Qed.
Lemma pos_auto_ok f p a w x : pos_auto f p a w = true -> IZR a <= x <= IZR a + IZR w -> 0 < peval p x.
Proof.
  revert a w. induction f as [|f IH]; intros a w H Hx; cbn [pos_auto] in H; destruct (pos_on p a w) eqn:E; try discriminate; try (eapply pos_on_ok; eassumption).
  cbv zeta in H. destruct (pos_auto f p a (w / 2)) eqn:H1; [rename H into H2|discriminate]. set (h := (w / 2)%Z) in *.
  destruct (Rle_lt_dec x (IZR a + IZR h)) as [L|L]; [apply (IH a h H1); lra|]. apply (IH (a + h)%Z (w - h)%Z H2). rewrite plus_IZR, minus_IZR. lra.
Qed.
