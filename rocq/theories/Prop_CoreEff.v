(* Claim C72: the core-size efficiency balance of the N+3 engine. *)
From Coq Require Import ZArith QArith Qabs Qreals Lia Psatz.
From Verif Require Import Lib_R Proofs_Atm Prop_Atm Model_CoreEff.
Open Scope string_scope. Open Scope list_scope. Open Scope R_scope.

Lemma core_res ty tl e old : compute (core_eff ty tl) e old (V "eta_a") = e (V "eta_p") - core_curve ty tl (e (V "CS")).
Proof. cbn [compute core_eff]. unfold upd. destruct (var_eq_dec _ _); [reflexivity|congruence]. Qed.
(* converged: the polytropic efficiency is the curve's at this core size *)
Theorem C72_balance ty tl e old : compute (core_eff ty tl) e old (V "eta_a") = 0 <-> e (V "eta_p") = core_curve ty tl (e (V "CS")).
Proof. rewrite core_res. split; lra. Qed.

(* ---------- the tables ---------- *)
Lemma small_asc tl : ascending (to_knots (small_q tl)).
Proof. apply asc_check. destruct tl as [|[|[|tl]]]; vm_compute; reflexivity. Qed.
Lemma small_len tl : List.length (to_knots (small_q tl)) = 12%nat.
Proof. unfold to_knots. rewrite map_length. destruct tl as [|[|[|tl]]]; vm_compute; reflexivity. Qed.
(* the curve goes through the table *)
Theorem C72_small_table tl n x y : nth_error core_sizes n = Some x -> nth_error (small_effs tl) n = Some y -> small_curve tl (Q2R x) = Q2R y.
Proof.
  intros Hx Hy. assert (N : exists m, In (x, y, m) (small_q tl)).
  { assert (K : forall tl', (tl' <= 2)%nat -> nth_error (small_effs tl') n = Some y -> exists m, In (x, y, m) (small_q tl')).
    { clear Hy. intros tl' L Hy. do 12 (destruct n as [|n]; [cbn in Hx; injection Hx as <-; destruct tl' as [|[|[|tl']]]; try lia; cbn in Hy; injection Hy as <-; eexists; vm_compute; tauto|]).
      destruct n; discriminate. }
    destruct tl as [|[|[|tl]]]; [apply (K 0%nat); [lia|exact Hy]|apply (K 1%nat); [lia|exact Hy]|apply (K 2%nat); [lia|exact Hy]|apply (K 0%nat); [lia|exact Hy]]. }
  destruct N as [m N]. unfold small_curve. change (Q2R x) with (kx (kR (x, y, m))). change (Q2R y) with (ky (kR (x, y, m))).
  apply interp_node; [apply small_asc|rewrite small_len; lia|]. change (to_knots (small_q tl)) with (map kR (small_q tl)). apply in_map. exact N.
Qed.

(* ---------- derivatives ---------- *)
Lemma core_jac ty tl hist e i : jac_after (core_eff ty tl) hist e (V "eta_a") i =
  if var_eq_dec (V "eta_p") i then 1 else if var_eq_dec (V "CS") i then - core_slope ty tl (e (V "CS")) else
  fold_left (fun J e' => partials (core_eff ty tl) e' J) hist (jinit (decls (core_eff ty tl))) (V "eta_a") i.
Proof.
  unfold jac_after. generalize (fold_left (fun J e' => partials (core_eff ty tl) e' J) hist (jinit (decls (core_eff ty tl)))). intros J. cbn [partials core_eff]. unfold jset.
  destruct (var_eq_dec (V "eta_a") (V "eta_a")) as [_|]; [|congruence]. destruct (var_eq_dec (V "eta_p") i); [reflexivity|]. reflexivity.
Qed.
Lemma core_jac_a ty tl hist : fold_left (fun J e' => partials (core_eff ty tl) e' J) hist (jinit (decls (core_eff ty tl))) (V "eta_a") (V "eta_a") = 0.
Proof.
  assert (G : forall J, J (V "eta_a") (V "eta_a") = 0 -> fold_left (fun J e' => partials (core_eff ty tl) e' J) hist J (V "eta_a") (V "eta_a") = 0).
  { induction hist as [|e' h IH]; intros J HJ; [exact HJ|]. cbn [fold_left]. apply IH. cbn [partials core_eff]. unfold jset. repeat (destruct var_eq_dec; try congruence). }
  apply G. reflexivity.
Qed.
Lemma core_exact_at ty tl e hist old i : In i (ins (core_eff ty tl)) -> derivable_pt_lim (core_curve ty tl) (e (V "CS")) (core_slope ty tl (e (V "CS"))) ->
  derivable_pt_lim (fun t => compute (core_eff ty tl) (upd e i t) old (V "eta_a")) (e i) (jac_after (core_eff ty tl) hist e (V "eta_a") i).
Proof.
  intros Hi D. rewrite core_jac. cbn [ins core_eff In] in Hi. destruct Hi as [<-|[<-|[<-|[]]]].
  - destruct var_eq_dec as [E|_]; [discriminate|]. destruct var_eq_dec as [_|E]; [|congruence].
    apply (derivable_pt_lim_ext (fun t => e (V "eta_p") + - 1 * core_curve ty tl t)).
    + intros t. rewrite core_res. unfold upd. repeat (destruct var_eq_dec; try congruence). ring.
    + replace (- core_slope ty tl (e (V "CS"))) with (0 + - 1 * core_slope ty tl (e (V "CS"))) by ring.
      apply (derivable_pt_lim_plus (fun _ => e (V "eta_p")) (fun t => - 1 * core_curve ty tl t)); [apply derivable_pt_lim_const|]. apply (derivable_pt_lim_scal (core_curve ty tl)). exact D.
  - destruct var_eq_dec as [_|E]; [|congruence].
    apply (derivable_pt_lim_ext (fun t => t - core_curve ty tl (e (V "CS")))).
    + intros t. rewrite core_res. unfold upd. repeat (destruct var_eq_dec; try congruence).
    + replace 1 with (1 - 0) by ring. apply (derivable_pt_lim_minus (fun t => t) (fun _ => core_curve ty tl (e (V "CS")))); [apply derivable_pt_lim_id|apply derivable_pt_lim_const].
  - destruct var_eq_dec as [E|_]; [discriminate|]. destruct var_eq_dec as [E|_]; [discriminate|]. rewrite core_jac_a.
    apply (derivable_pt_lim_ext (fun t => e (V "eta_p") - core_curve ty tl (e (V "CS")))).
    + intros t. rewrite core_res. unfold upd. repeat (destruct var_eq_dec; try congruence).
    + apply derivable_pt_lim_const.
Qed.
Lemma core_declared ty tl : jac_declared (core_eff ty tl).
Proof.
  intros e J o i Hn. cbn [partials core_eff decls] in *. unfold jset.
  destruct (var_eq_dec (V "eta_a") o) as [<-|]; [|reflexivity].
  destruct (var_eq_dec (V "eta_p") i) as [<-|]; [exfalso; apply Hn; exists [V "eta_a"], [V "CS"; V "eta_p"], 0; cbn; tauto|].
  destruct (var_eq_dec (V "CS") i) as [<-|]; [exfalso; apply Hn; exists [V "eta_a"], [V "CS"; V "eta_p"], 0; cbn; tauto|]. reflexivity.
Qed.
Lemma core_writes ty tl : writes_all (core_eff ty tl).
Proof. intros e e' old old' o [<-|[]] He. rewrite !core_res. rewrite (He (V "eta_p")), (He (V "CS")) by (cbn; tauto). reflexivity. Qed.
Lemma large_derive tl x : x <> cut -> derivable_pt_lim (large_curve tl) x (large_slope x).
Proof.
  intros N. assert (B : exists b, forall t, large_curve tl t = (if Rlt_dec t cut then large_poly t else 91 / 100) + b).
  { destruct tl as [|[|[|tl]]]; [exists 0|exists (2 / 100)|exists (4 / 100)|exists 0]; intros t; unfold large_curve; lra. }
  destruct B as [b B]. apply is_derive_Reals. unfold large_slope. destruct (Rlt_dec x cut) as [L|L].
  - apply (is_derive_ext_loc (fun t => large_poly t + b)).
    + assert (P : 0 < cut - x) by lra. exists (mkposreal _ P). intros t Ht. cbn in Ht. unfold Hierarchy.ball in Ht. cbn in Ht. unfold AbsRing_ball, abs, minus, plus, opp in Ht. cbn in Ht.
      rewrite B. destruct (Rlt_dec t cut); [reflexivity|]. exfalso. apply Rabs_def2 in Ht. lra.
    + unfold large_poly. auto_derive; [exact Logic.I|]. ring_simplify. lra.
  - assert (P : 0 < x - cut) by lra. apply (is_derive_ext_loc (fun t => 91 / 100 + b)).
    + exists (mkposreal _ P). intros t Ht. cbn in Ht. unfold Hierarchy.ball in Ht. cbn in Ht. unfold AbsRing_ball, abs, minus, plus, opp in Ht. cbn in Ht.
      rewrite B. destruct (Rlt_dec t cut); [exfalso; apply Rabs_def2 in Ht; lra|reflexivity].
    + auto_derive; [exact Logic.I|]. ring.
Qed.
Lemma small_derive tl x : derivable_pt_lim (small_curve tl) x (small_slope tl x).
Proof. apply (pp_derive (fun c => c) _ (small_asc tl) x (interp_fits _ _ (small_asc tl))). rewrite small_len. lia. Qed.
Theorem C72_derivatives_large tl : comp_ok (core_eff large tl) (fun e => e (V "CS") <> cut).
Proof. split; [intros hist e old o i He [<-|[]] Hi; apply core_exact_at; [exact Hi|apply large_derive; exact He]|split; [apply core_declared|apply core_writes]]. Qed.
Theorem C72_derivatives_small tl : comp_ok (core_eff small tl) (fun e => 0 < e (V "CS") < 200).
Proof. split; [intros hist e old o i He [<-|[]] Hi; apply core_exact_at; [exact Hi|apply small_derive]|split; [apply core_declared|apply core_writes]]. Qed.
